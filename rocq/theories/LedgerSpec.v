(** Specification vocabulary for managers that are swapped and moved: one balance per
    manager, kept in whole numbers without any bound. *)
From Verif Require Import Base MemoryModel MemorySpec.
Open Scope Z_scope.

(** [members]: how many managers there are; [balance]: the balance of each; [payee]: the
    manager the blocks of each are returned to; [lent]: the blocks not returned. *)
Record books := mkBooks { members : nat; balance : nat -> Z; payee : nat -> nat; lent : list (nat * nat * N) }.
Definition no_books : books := mkBooks 0 (fun _ => 0) (fun i => i) [].

Definition change (f : nat -> Z) (i : nat) (d : Z) : nat -> Z := fun j => if Nat.eqb j i then f j + d else f j.
(** A manager joins with a balance and somebody to return its blocks to. *)
Definition joins (b : books) (z : Z) (p : nat) : books :=
  mkBooks (S (members b)) (fun j => if Nat.eqb j (members b) then z else balance b j)
    (fun j => if Nat.eqb j (members b) then p else payee b j) (lent b).
(** Two managers exchange their balances, but go on returning blocks to the same place. *)
Definition exchanged (f : nat -> Z) (x y : nat) : nat -> Z := fun j => if Nat.eqb j y then f x else if Nat.eqb j x then f y else f j.
Definition book_op (sysmem : N) (b : books) (o : op) : books :=
  match o with
  | NewManager cap => if (cap <? sysmem)%N then joins b 0 (members b) else b
  | SwapManagers x y =>
      if andb (Nat.ltb x (members b)) (Nat.ltb y (members b)) then mkBooks (members b) (exchanged (balance b) x y) (payee b) (lent b) else b
  | MoveManager x => if Nat.ltb x (members b) then joins b (balance b x) (payee b x) else b
  | _ => b
  end.
(** A block given out is charged to the manager that gave it; a block given back is
    credited to the manager its giver returns blocks to. *)
Definition book_event (b : books) (e : event) : books :=
  let f := match e with
           | EvMalloc m a n => change (balance b) m (Z.of_N n)
           | EvFree a =>
               match find (fun x => Nat.eqb (snd (fst x)) a) (lent b) with
               | Some (m, _, n) => change (balance b) (payee b m) (- Z.of_N n)
               | None => balance b
               end
           end in
  mkBooks (members b) f (payee b) (after_event (lent b) e).
(** The books of a history, given with what the allocator saw during each operation. *)
Fixpoint book_run (sysmem : N) (b : books) (h : list (op * list event)) : books :=
  match h with
  | [] => b
  | (o, ev) :: h' => book_run sysmem (fold_left book_event ev (book_op sysmem b o)) h'
  end.
(** The modelled history together with what the allocator saw during each operation. *)
Fixpoint traced (sysmem : N) (s : st) (ops : list op) : outcome (st * list (op * list event)) :=
  match ops with
  | [] => Ret (s, [])
  | o :: ops' =>
      let! p := step sysmem s o in
      let '(s1, ev, _) := p in
      let! q := traced sysmem s1 ops' in
      Ret (fst q, (o, ev) :: snd q)
  end.
(** All balances, all bytes not returned, all sizes. *)
Fixpoint total (f : nat -> Z) (n : nat) : Z := match n with O => 0 | S k => total f k + f k end.
Definition lent_bytes (bs : list (nat * nat * N)) : Z := fold_right (fun x z => Z.of_N (snd x) + z) 0 bs.
Definition size_of (s : st) (i : nat) : Z := match get (s_mgrs s) i with Some m => Z.of_N (m_size m) | None => 0 end.
