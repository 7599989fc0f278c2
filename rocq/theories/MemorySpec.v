(** Specification vocabulary for owned memory, in terms of what the system allocator saw. *)
From Verif Require Import Base MemoryModel.

(** The blocks outstanding after the events: (manager, block, bytes). *)
Definition after_event (bs : list (nat * nat * N)) (e : event) : list (nat * nat * N) :=
  match e with
  | EvMalloc m a n => (m, a, n) :: bs
  | EvFree a => filter (fun b => negb (Nat.eqb (snd (fst b)) a)) bs
  end.
Definition outstanding (log : list event) : list (nat * nat * N) := fold_left after_event log [].
(** Bytes manager [m] has given out and not got back. *)
Fixpoint bytes_of (m : nat) (bs : list (nat * nat * N)) : N :=
  match bs with
  | [] => 0
  | (m', _, n) :: bs' => (if Nat.eqb m m' then n else 0) + bytes_of m bs'
  end.
Definition account (m : nat) (log : list event) : N := bytes_of m (outstanding log).

(** Every block the allocator gave out, every block it got back. *)
Definition given (log : list event) : list nat :=
  flat_map (fun e => match e with EvMalloc _ a _ => [a] | EvFree _ => [] end) log.
Definition returned (log : list event) : list nat :=
  flat_map (fun e => match e with EvMalloc _ _ _ => [] | EvFree a => [a] end) log.

(** Operations that relocate managers, end their life, or make a non-owning copy. *)
Definition moves_manager (o : op) : bool := match o with SwapManagers _ _ | MoveManager _ => true | _ => false end.
Definition drops_manager (o : op) : bool := match o with DropManager _ => true | _ => false end.
Definition copies_view (o : op) : bool := match o with ViewResource _ => true | _ => false end.
Definition free_of (p : op -> bool) (ops : list op) : Prop := Forall (fun o => p o = false) ops.
