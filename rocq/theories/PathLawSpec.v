(** Following a path: how many levels it climbs above its start, and the names that remain. *)
From Verif Require Import Base PathSpec.

Definition follow (s : nat * list (list N)) (c : list N) : nat * list (list N) :=
  let (k, names) := s in
  if same c [46] then (k, names)
  else if same c [46; 46] then match names with [] => (S k, []) | _ => (k, removelast names) end
  else (k, names ++ [c]).
Definition followed (cs : list (list N)) : nat * list (list N) := fold_left follow cs (O, []).
(** The highest point reached above the start, and what is below that point at the end. *)
Definition climbs (cs : list (list N)) : nat := fst (followed cs).
Definition names (cs : list (list N)) : list (list N) := snd (followed cs).
(** No empty component. *)
Definition no_empty (cs : list (list N)) : Prop := Forall (fun c => c <> []) cs.
