(** Paths as sequences of component texts. *)
From Verif Require Import Base StringSpec.

(** The components of a text whose pieces between delimiters are [ps]: a final empty
    piece does not count, and a path has at least one component. *)
Definition components (ps cs : list (list N)) : Prop :=
  (exists qs, ps = qs ++ [[]] /\ ((qs = [] /\ cs = [[]]) \/ (qs <> [] /\ cs = qs))) \/
  (last ps [] <> [] /\ cs = ps).

(** The location reached from the absolute location [cwd] (names from the root down)
    by following a list of components: an empty first component starts at the root,
    "" and "." stay, ".." goes to the parent (the parent of the root is the root). *)
Definition same (a b : list N) : bool := if list_eq_dec N.eq_dec a b then true else false.
Definition walk (l : list (list N)) (c : list N) : list (list N) :=
  if same c [] || same c [46] then l
  else if same c [46; 46] then removelast l
  else l ++ [c].
Definition locate (cwd cs : list (list N)) : list (list N) :=
  match cs with
  | [] :: r => fold_left walk r []
  | _ => fold_left walk cs cwd
  end.

(** Following [cs] with [depth] names behind us never climbs above the start, and [cs]
    has no empty component. *)
Fixpoint stays (depth : nat) (cs : list (list N)) : Prop :=
  match cs with
  | [] => True
  | c :: r =>
      c <> [] /\
      (if same c [46] then stays depth r
       else if same c [46; 46] then (0 < depth)%nat /\ stays (Nat.pred depth) r
       else stays (S depth) r)
  end.

(** Component sequences ordered component by component, then by length. *)
Inductive comps_lt : list (list N) -> list (list N) -> Prop :=
| comps_lt_end y b : comps_lt [] (y :: b)
| comps_lt_here x y a b : shortlex_lt x y -> comps_lt (x :: a) (y :: b)
| comps_lt_next x a b : comps_lt a b -> comps_lt (x :: a) (x :: b).
