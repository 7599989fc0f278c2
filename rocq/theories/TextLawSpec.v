(** When joining texts can be undone by splitting. *)
From Verif Require Import Base StringSpec.

(** Followed by a separator, no piece lets the separator be found too early; the last one does not
    contain it. *)
Definition separable (d : list N) (ps : list (list N)) : Prop :=
  (forall p, In p (removelast ps) -> forall i, ~ occurs d (p ++ removelast d) i) /\ (forall i, ~ occurs d (last ps []) i).
