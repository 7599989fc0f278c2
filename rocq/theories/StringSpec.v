(** Strings as sequences of characters: occurrences, splitting, trimming. *)
From Verif Require Import Base LexSpec.

(** [d] occurs in [s] at index [i]. *)
Definition occurs (d s : list N) (i : N) : Prop :=
  exists p r, s = p ++ d ++ r /\ N.of_nat (length p) = i.

(** [ps] are the pieces of [s] between the left-to-right, non-overlapping
    occurrences of [d]: cut at the first occurrence, continue after it. *)
Inductive splits (d : list N) : list N -> list (list N) -> Prop :=
| splits_last s : (forall i, ~ occurs d s i) -> splits d s [s]
| splits_first p r ps :
    (forall i, i < N.of_nat (length p) -> ~ occurs d (p ++ d ++ r) i) ->
    splits d r ps -> splits d (p ++ d ++ r) (p :: ps).

(** Pieces glued together with a separator. *)
Fixpoint glue (d : list N) (ps : list (list N)) : list N :=
  match ps with
  | [] => []
  | [p] => p
  | p :: ps' => p ++ d ++ glue d ps'
  end.

(** White space characters: tab, line feed, vertical tab, form feed, carriage return, blank *)
Definition whitespace (c : N) : Prop := In c [9; 10; 11; 12; 13; 32].

(** [t] is [s] without its longest prefix and suffix of characters in [P]. *)
Definition trimmed (P : N -> Prop) (s t : list N) : Prop :=
  exists a b, s = a ++ t ++ b /\ Forall P a /\ Forall P b /\
    match t with [] => True | c :: _ => ~ P c /\ ~ P (last t 0) end.

(** Shorter strings first, then dictionary order. *)
Definition shortlex_lt (a b : list N) : Prop :=
  (length a < length b)%nat \/ (length a = length b /\ lex_lt a b).

(** A 7-bit string without NUL characters. *)
Definition plain (s : list N) : Prop := Forall (fun c => 0 < c < 128) s.

(** Value of [s] as a polynomial in 31 over the integers, most significant first,
    characters taken as signed. *)
Fixpoint poly31 (acc : Z) (s : list N) : Z :=
  match s with
  | [] => acc
  | c :: t => poly31 (acc * 31 + (if N.ltb c 128 then Z.of_N c else Z.of_N c - 256))%Z t
  end.
