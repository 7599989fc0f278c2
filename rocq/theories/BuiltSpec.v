(** What a fixed block holds after texts have been poured into it one after the other. *)
From Verif Require Import Base.

(** What happens when a text does not fit what is left: all fails, the text is left out,
    or this and everything after it is left out. *)
Inductive otherwise := Fail | Skip | Stop.

(** The text poured into [cap] bytes; [None]: failure. *)
Fixpoint poured (cap : N) (script : list (otherwise * list N)) : option (list N) :=
  match script with
  | [] => Some []
  | (k, t) :: rest =>
      if N.of_nat (length t) <=? cap then option_map (app t) (poured (cap - N.of_nat (length t)) rest)
      else match k with Fail => None | Skip => poured cap rest | Stop => Some [] end
  end.

(** All the text that was to be poured. *)
Definition whole (script : list (otherwise * list N)) : list N := concat (map snd script).

(** Texts with a separator between two of them: a text has to fit, and so does a
    separator unless it comes after a text marked [true]. *)
Fixpoint separated (sep : list N) (l : list (bool * list N)) : list (otherwise * list N) :=
  match l with
  | [] => []
  | [(_, s)] => [(Fail, s)]
  | (lax, s) :: l' => (Fail, s) :: ((if lax : bool then Skip else Fail), sep) :: separated sep l'
  end.

(** Pieces with a replacement between two of them: only the last piece has to fit. *)
Fixpoint replaced (by_ : list N) (ps : list (list N)) : list (otherwise * list N) :=
  match ps with
  | [] => []
  | [p] => [(Fail, p)]
  | p :: ps' => (Skip, p) :: (Skip, by_) :: replaced by_ ps'
  end.
