(** How any two texts, and any two paths, compare. *)
From Verif Require Import Base LexSpec.

(** The sign of a byte read as a signed character. *)
Definition sign (c : N) : comparison := if c =? 0 then Eq else if c <? 128 then Gt else Lt.

(** A text up to its first NUL. *)
Fixpoint before_nul (s : list N) : list N :=
  match s with
  | [] => []
  | c :: s' => if c =? 0 then [] else c :: before_nul s'
  end.

(** How a text compares with another; [None]: the program ends.  Of texts of different
    lengths one byte of the longer one is looked at: the one at the last position of the
    shorter, right-hand text, or the last one of the right-hand text. *)
Inductive compares : list N -> list N -> option comparison -> Prop :=
| compares_longer p c r b : r <> [] -> length b = S (length p) -> compares (p ++ c :: r) b (Some (sign c))
| compares_shorter a p c : (length a <= length p)%nat -> compares a (p ++ [c]) (Some (CompOpp (sign c)))
| compares_nothing c a : compares (c :: a) [] None
| compares_less a b : length a = length b -> lex_lt (before_nul a) (before_nul b) -> compares a b (Some Lt)
| compares_equal a b : length a = length b -> before_nul a = before_nul b -> compares a b (Some Eq)
| compares_greater a b : length a = length b -> lex_lt (before_nul b) (before_nul a) -> compares a b (Some Gt).

(** How a sequence of components compares with another: the first two that do not
    compare equal decide, then the numbers of components. *)
Inductive sequences_compare : list (list N) -> list (list N) -> option comparison -> Prop :=
| seq_equal : sequences_compare [] [] (Some Eq)
| seq_less y b : sequences_compare [] (y :: b) (Some Lt)
| seq_greater x a : sequences_compare (x :: a) [] (Some Gt)
| seq_here x y a b v : compares x y v -> v <> Some Eq -> sequences_compare (x :: a) (y :: b) v
| seq_next x y a b v : compares x y (Some Eq) -> sequences_compare a b v -> sequences_compare (x :: a) (y :: b) v.

(** A comparison function that answers with a number whose sign is [v]. *)
Definition answers (r : outcome Z) (v : option comparison) : Prop :=
  match v with
  | Some s => exists z, r = Ret z /\ (z ?= 0)%Z = s
  | None => r = Terminates
  end.
