(** Model of MemoryView and MutableMemoryView.

    One allocation (or the whole address space the program owns) is a list of
    bytes [mem]; a pointer is an offset into it, [None] is nullptr.  Reading or
    writing outside [mem] is [UB].  Passing a null pointer together with size 0
    to memcmp/memmove/memset is modelled as a no-op (simplification: the C
    standard leaves it undefined; every implementation ignores it). *)
From Verif Require Import Base.

(** include/solace/memoryView.hpp:227-228: members _dataAddress and _size. *)
Record view := mkView { v_addr : option N; v_size : N }.

(** include/solace/memoryView.hpp:98-103: the constructor asserts that a null
    pointer comes with size 0. *)
Definition view_ctor (addr : option N) (sz : N) : outcome view :=
  match addr with
  | None => if sz =? 0 then Ret (mkView None 0) else Throws AssertFailed
  | Some a => Ret (mkView (Some a) sz)
  end.

(** Pointer arithmetic begin() + n on a possibly null pointer. *)
(** include/solace/memoryView.hpp:149-183, src/memoryView.cpp:58 *)
Definition ptr_add (p : option N) (n : N) : option N := option_map (fun a => a + n) p.

(** Reading [n] bytes at pointer [p]: UB outside the allocation. *)
(** src/memoryView.cpp:42-47, src/mutableMemoryView.cpp:30-100: memcmp, memmove and memcpy reading *)
Definition load (mem : list N) (p : option N) (n : N) : outcome (list N) :=
  if n =? 0 then Ret [] else
  match p with
  | None => UB
  | Some a => if a + n <=? size mem then Ret (ntake n (ndrop a mem)) else UB
  end.

(** Writing bytes at pointer [p]: UB outside the allocation. *)
(** src/mutableMemoryView.cpp:30-100: memmove and memset writing *)
Definition store (mem : list N) (p : option N) (bs : list N) : outcome (list N) :=
  if size bs =? 0 then Ret mem else
  match p with
  | None => UB
  | Some a => if a + size bs <=? size mem then Ret (overwrite mem a bs) else UB
  end.

(** src/memoryView.cpp:42-47  MemoryView::operator[] *)
Definition view_index (mem : list N) (v : view) (i : N) : outcome N :=
  if v_size v <=? i then Throws IndexOutOfRange else
  let! bs := load mem (ptr_add (v_addr v) i) 1 in
  match bs with b :: _ => Ret b | [] => UB end.

(** src/memoryView.cpp:50-59  MemoryView::slice *)
Definition view_slice (v : view) (from to : N) : view :=
  let thisSize := v_size v in
  let from := N.min from thisSize in
  let to := N.min thisSize (N.max to from) in
  mkView (ptr_add (v_addr v) from) (to - from).

(** src/mutableMemoryView.cpp:84-100  MutableMemoryView::slice *)
Definition mview_slice (v : view) (from to : N) : view :=
  if from =? to then mkView (v_addr v) 0 else
  let thisSize := v_size v in
  let from := N.min from thisSize in
  let to := N.min (N.max to from) thisSize in
  mkView (ptr_add (v_addr v) from) (to - from).

(** include/solace/memoryView.hpp:220-223  sliceFor<T>; [tsz] is sizeof(T),
    products and sums wrap modulo 2^64. *)
Definition view_sliceFor (tsz : N) (v : view) (offset count : N) : view :=
  view_slice v (u64 (offset * tsz)) (u64 (u64 (offset + count) * tsz)).

(** include/solace/memoryView.hpp:177-183  offsetAddress *)
Definition view_offsetAddress (v : view) (offset : N) : option (option N) :=
  if v_size v <? offset then None else Some (ptr_add (v_addr v) offset).

(** include/solace/memoryView.hpp:187-200  dataAs<T>() and dataAs<T>(offset):
    the bounds check [offset + sizeof(T) <= size()] wraps modulo 2^64.  The
    value is returned as its bytes. *)
Definition view_dataAs (mem : list N) (tsz : N) (v : view) : outcome (list N) :=
  if tsz <=? v_size v then load mem (v_addr v) tsz else Throws AssertFailed.
Definition view_dataAs_at (mem : list N) (tsz : N) (v : view) (offset : N) : outcome (list N) :=
  if u64 (offset + tsz) <=? v_size v then load mem (ptr_add (v_addr v) offset) tsz
  else Throws AssertFailed.

Fixpoint list_eqb (l m : list N) : bool :=
  match l, m with
  | [], [] => true
  | x :: l', y :: m' => (x =? y) && list_eqb l' m'
  | _, _ => false
  end.

Definition ptr_eqb (p q : option N) : bool :=
  match p, q with
  | None, None => true
  | Some a, Some b => a =? b
  | _, _ => false
  end.

(** src/memoryView.cpp:82-93  MemoryView::equals.  The comparison of object
    identities (&other == this) is subsumed by the comparison of addresses. *)
Definition view_equals (mem : list N) (v w : view) : outcome bool :=
  if negb (v_size v =? v_size w) then Ret false else
  if ptr_eqb (v_addr v) (v_addr w) then Ret true else
  let! a := load mem (v_addr v) (v_size v) in
  let! b := load mem (v_addr w) (v_size v) in
  Ret (list_eqb a b).

(** src/mutableMemoryView.cpp:39-59  MutableMemoryView::write *)
Definition mview_write (mem : list N) (v src : view) : outcome (result unit * list N) :=
  match v_addr v with
  | None => Ret (Err E_DOM, mem)
  | Some _ =>
    if v_size v <? v_size src then Ret (Err E_DOM, mem) else
    if 0 <? v_size src then
      let! bs := load mem (v_addr src) (v_size src) in
      let! mem' := store mem (v_addr v) bs in
      Ret (Ok tt, mem')
    else Ret (Ok tt, mem)
  end.

(** src/mutableMemoryView.cpp:62-73  MutableMemoryView::read *)
Definition mview_read (mem : list N) (v dest : view) : outcome (result unit * list N) :=
  if v_size v <? v_size dest then Ret (Err BasicOverflow, mem) else
  let! bs := load mem (v_addr v) (v_size dest) in
  let! mem' := store mem (v_addr dest) bs in
  Ret (Ok tt, mem').

(** src/mutableMemoryView.cpp:76-81  MutableMemoryView::fill *)
Definition mview_fill (mem : list N) (v : view) (value : N) : outcome (list N) :=
  store mem (v_addr v) (repeat value (N.to_nat (v_size v))).

(** include/solace/mutableMemoryView.hpp:173-176  fill(value, from, to) *)
Definition mview_fill_range (mem : list N) (v : view) (value from to : N) : outcome (list N) :=
  mview_fill mem (mview_slice v from to) value.
