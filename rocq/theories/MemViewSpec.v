(** What a user means by a view, a range and a copy; independent of the model's
    functions except for the record holding a pointer and a size. *)
From Verif Require Import Base MemViewModel.

(** A view that designates memory the program owns (class invariant stated in
    memoryView.hpp:54-56). *)
Definition valid (mem : list N) (v : view) : Prop :=
  match v_addr v with
  | None => v_size v = 0
  | Some a => a + v_size v <= size mem
  end.

(** The bytes a view shows. *)
Definition contents (mem : list N) (v : view) : list N :=
  match v_addr v with
  | None => []
  | Some a => firstn (N.to_nat (v_size v)) (skipn (N.to_nat a) mem)
  end.

(** Elements of [l] whose index [i] satisfies [from <= i < to]. *)
Fixpoint range_from {A} (i from to : N) (l : list A) : list A :=
  match l with
  | [] => []
  | x :: t => (if (from <=? i) && (i <? to) then [x] else []) ++ range_from (i + 1) from to t
  end.
Definition range {A} (from to : N) (l : list A) : list A := range_from 0 from to l.

(** [mem'] differs from [mem] only inside view [v], which now starts with [bs]. *)
Definition wrote (mem mem' : list N) (v : view) (bs : list N) : Prop :=
  length mem' = length mem /\
  forall i, nth_error mem' i =
    match v_addr v with
    | None => nth_error mem i
    | Some a => if ((N.to_nat a <=? i) && (i <? N.to_nat a + length bs))%nat
                then nth_error bs (i - N.to_nat a)
                else nth_error mem i
    end.
