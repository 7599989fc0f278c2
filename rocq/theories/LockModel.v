(** Model of MemoryView::lock and of the Lock objects (include/solace/memoryView.hpp:236-254,
    src/memoryView.cpp:62-79). *)
From Verif Require Import Base.

(** A view: address (0 is null) and size.  [psize] is the size of a page. *)
(** include/solace/memoryView.hpp:227-228 *)
Definition mem_range : Type := N * N.

(** mlock(2), munlock(2) (not in /repo): they act on the pages that hold a byte of the
    range, and locks do not nest.  The numbers of these pages: *)
(** src/memoryView.cpp:62-79 call mlock and munlock (not in /repo) *)
Definition pages_of (psize : N) (r : mem_range) : list N :=
  let (a, n) := r in
  if n =? 0 then []
  else map (fun i => a / psize + N.of_nat i) (seq 0 (N.to_nat ((a + n - 1) / psize - a / psize + 1))).
(** src/memoryView.cpp:62-79: mlock *)
Definition os_mlock (psize : N) (r : mem_range) (locked : list N) : list N := pages_of psize r ++ locked.
(** src/memoryView.cpp:62-79: munlock *)
Definition os_munlock (psize : N) (r : mem_range) (locked : list N) : list N :=
  filter (fun p => negb (existsb (N.eqb p) (pages_of psize r))) locked.

(** The locked pages of the process, and the Lock objects that exist. *)
(** include/solace/memoryView.hpp:236-254 *)
Record lworld := mkLW { lw_locked : list N; lw_objs : list (option mem_range) }.
(** include/solace/memoryView.hpp:236-254: a Lock variable assigned *)
Fixpoint set_obj (l : list (option mem_range)) (i : nat) (x : option mem_range) : list (option mem_range) :=
  match l, i with
  | [], _ => []
  | _ :: t, O => x :: t
  | y :: t, S j => y :: set_obj t j x
  end.
(** include/solace/memoryView.hpp:236-254: a Lock variable *)
Definition get_obj (w : lworld) (i : nat) : option mem_range := nth i (lw_objs w) None.
(** The variable exists and holds no object yet. *)
(** include/solace/memoryView.hpp:236-254 *)
Definition is_free (w : lworld) (i : nat) : bool :=
  match nth_error (lw_objs w) i with Some None => true | _ => false end.

(** include/solace/memoryView.hpp:208, 236-254: the statements *)
Inductive lop :=
  | LkLock (i : nat) (r : mem_range) (ok : bool)  (* auto x_i = view.lock(); ok: mlock succeeds *)
  | LkWrap (i : nat) (r : mem_range)              (* Lock x_i{view} *)
  | LkMove (i j : nat)                            (* Lock x_j{mv(x_i)} *)
  | LkAssign (i j : nat)                          (* x_i = mv(x_j) *)
  | LkDrop (i : nat).                             (* x_i is destroyed *)

(** One statement.  The slots it needs have to exist, or be free. *)
(** include/solace/memoryView.hpp:236-254, src/memoryView.cpp:62-79 *)
Definition lk_step (psize : N) (o : lop) (w : lworld) : outcome (result unit * lworld) :=
  match o with
  | LkLock i r ok =>
      (* src/memoryView.cpp:62-69 *)
      if negb (is_free w i) then UB
      else if ok then Ret (Ok tt, mkLW (os_mlock psize r (lw_locked w)) (set_obj (lw_objs w) i (Some r)))
      else Ret (Err E_NOMEM, w)
  | LkWrap i r =>
      (* include/solace/memoryView.hpp:240-244: the public constructor locks nothing *)
      if negb (is_free w i) then UB
      else Ret (Ok tt, mkLW (lw_locked w) (set_obj (lw_objs w) i (Some r)))
  | LkMove i j =>
      (* include/solace/memoryView.hpp:246, 109-113: the view moved from becomes empty *)
      match get_obj w i with
      | Some r =>
          if negb (is_free w j) then UB
          else Ret (Ok tt, mkLW (lw_locked w) (set_obj (set_obj (lw_objs w) i (Some (0, 0))) j (Some r)))
      | None => UB
      end
  | LkAssign i j =>
      (* include/solace/memoryView.hpp:250, 116-118: move assignment of the view is a swap *)
      match get_obj w i, get_obj w j with
      | Some r, Some s => Ret (Ok tt, mkLW (lw_locked w) (set_obj (set_obj (lw_objs w) i (Some s)) j (Some r)))
      | _, _ => UB
      end
  | LkDrop i =>
      (* src/memoryView.cpp:72-79 *)
      match get_obj w i with
      | Some r => Ret (Ok tt, mkLW (os_munlock psize r (lw_locked w)) (set_obj (lw_objs w) i None))
      | None => UB
      end
  end.
Fixpoint lk_run (psize : N) (os : list lop) (w : lworld) : outcome (list (result unit) * lworld) :=
  match os with
  | [] => Ret ([], w)
  | o :: t => let! p := lk_step psize o w in
              let! q := lk_run psize t (snd p) in Ret (fst p :: fst q, snd q)
  end.
