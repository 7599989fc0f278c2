(** What a Char holds and how characters are classified, independently of the model. *)
From Coq Require Import String Ascii.
From Verif Require Import Base CharModel.

(** A character as text: one to four non-zero bytes (none: the empty character). *)
Definition character (bs : list N) : Prop := (length bs <= 4)%nat /\ Forall (fun b => 0 < b < 256) bs.

(** The bytes before the first zero. *)
Fixpoint before_zero (bs : list N) : list N :=
  match bs with [] => [] | b :: t => if b =? 0 then [] else b :: before_zero t end.

(** Histories on variables that hold texts. *)
Definition text_op (o : chop) (st : list (list N)) : list (list N) :=
  match o with
  | ChView i bs => put_at i bs st
  | ChChar i b | ChByte i b => put_at i (if b =? 0 then [] else [b]) st
  | ChCopy i j => put_at i (nth j st []) st
  | ChMove i j | ChSwap i j => put_at j (nth i st []) (put_at i (nth j st []) st)
  end.
Definition text_run (os : list chop) (st : list (list N)) : list (list N) :=
  fold_left (fun s o => text_op o s) os st.
Definition op_ok (n : nat) (o : chop) : Prop :=
  match o with
  | ChView i bs => (i < n)%nat /\ character bs
  | ChChar i b | ChByte i b => (i < n)%nat /\ b < 256
  | ChCopy i j | ChMove i j | ChSwap i j => (i < n)%nat /\ (j < n)%nat
  end.

(** UTF-8 (RFC 3629) of a code point. *)
Definition utf8 (cp : N) : list N :=
  if cp <? 0x80 then [cp]
  else if cp <? 0x800 then [0xC0 + cp / 0x40; 0x80 + cp mod 0x40]
  else if cp <? 0x10000 then [0xE0 + cp / 0x1000; 0x80 + (cp / 0x40) mod 0x40; 0x80 + cp mod 0x40]
  else [0xF0 + cp / 0x40000; 0x80 + (cp / 0x1000) mod 0x40; 0x80 + (cp / 0x40) mod 0x40; 0x80 + cp mod 0x40].

(** The classes of the "C" locale, spelled out. *)
Fixpoint spelled (s : string) (c : N) : bool :=
  match s with EmptyString => false | String a t => (N_of_ascii a =? c) || spelled t c end.
Fixpoint position (s : string) (c : N) : option nat :=
  match s with
  | EmptyString => None
  | String a t => if N_of_ascii a =? c then Some O else option_map Datatypes.S (position t c)
  end.
Definition at_position (s : string) (n : nat) : N :=
  match String.get n s with Some a => N_of_ascii a | None => 0 end.

Definition DIGITS : string := "0123456789".
Definition UPPER : string := "ABCDEFGHIJKLMNOPQRSTUVWXYZ".
Definition LOWER : string := "abcdefghijklmnopqrstuvwxyz".
Definition HEX : string := "0123456789abcdefABCDEF".
Definition PUNCT : string := "!""#$%&'()*+,-./:;<=>?@[\]^_`{|}~".
Definition letter c := spelled UPPER c || spelled LOWER c.
Definition digit c := spelled DIGITS c.
Definition visible c := letter c || digit c || spelled PUNCT c.
(** space, tab, line feed, vertical tab, form feed, carriage return *)
Definition blank c := existsb (N.eqb c) [32; 9; 10; 11; 12; 13].
(** ASCII characters with no glyph, apart from the space *)
Definition control c := (c <? 128) && negb (visible c) && negb (c =? 32).
Definition lower_of c := match position UPPER c with Some i => at_position LOWER i | None => c end.
Definition upper_of c := match position LOWER c with Some i => at_position UPPER i | None => c end.
