(** What the message of an exception should be. *)
From Coq Require Import Ascii String.
From Verif Require Import Base FmtSpec.
From Verif Require ExceptionModel.
Import ExceptionModel (exc(..), lit, from_cstr).

Definition decimal_z (z : Z) (t : list N) : Prop :=
  exists d, decimal (Z.abs_N z) d /\ t = if (z <? 0)%Z then 45 :: d else d.

(** "<subject>: <index> <reason> [<min>, <max>)", or with a name
    "<subject> '<name>'=<index> <reason> [<min>, <max>)" *)
Definition range_text (subject name reason : list N) (index minValue maxValue : N) (t : list N) : Prop :=
  exists i a b, decimal index i /\ decimal minValue a /\ decimal maxValue b /\
    t = subject ++ (match name with [] => lit ": " | _ => lit " '" ++ name ++ lit "'=" end)
          ++ i ++ lit " " ++ reason ++ lit " [" ++ a ++ lit ", " ++ b ++ lit ")".

Definition exc_text (strerror : Z -> list N) (e : exc) (t : list N) : Prop :=
  match e with
  | Plain m => t = m
  | IllegalArgument => t = lit "IllegalArgumentException"
  | IllegalArgumentNamed n => t = lit "Illegal argument '" ++ n ++ lit "'"
  | OutOfRange => t = lit "Index out of range"
  | OutOfRangeOf i a b => range_text (lit "Index out of range") [] (lit "is out of range") i a b t
  | OutOfRangeIn i a b p => range_text (match p with Some s => s | None => [] end) [] (lit "is out of range") i a b t
  | OverflowOf i a b => range_text (lit "Value") [] (lit "overflows range") i a b t
  | OverflowNamed n i a b => range_text (lit "Value") n (lit "overflows range") i a b t
  | NoSuchElement => t = lit "No such element"
  | NoSuchElementNamed n => t = lit "No such element " ++ n
  | InvalidState => t = lit "Invalid State"
  | InvalidStateTag p => t = lit "Invalid State " ++ match p with Some s => s | None => [] end
  | IOError c => exists d, decimal_z c d /\ t = lit "IOException[" ++ d ++ lit "]: " ++ strerror c
  | IOErrorMsg c m => exists d, decimal_z c d /\ t = m ++ lit "[" ++ d ++ lit "]: " ++ strerror c
  | NotOpen => t = lit "File descriptor not opened"
  end.
