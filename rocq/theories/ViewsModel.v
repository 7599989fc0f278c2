(** Model of programs with many MemoryView, MutableMemoryView and StringView variables that
    look at the same memory (include/solace/memoryView.hpp, mutableMemoryView.hpp,
    stringView.hpp).  What one view does with its bytes is [view_*] and [mview_*] of
    MemViewModel.v.  Variables are named by numbers.  An exception is caught by the caller and
    appears as an answer; using a variable that does not exist or has the wrong type (a program
    that does not compile) is undefined.  Destroying a view does nothing, so variables are
    only made. *)
From Verif Require Import Base MemViewModel StringViewModel EnvModel.

(** The type of a variable. *)
(** include/solace/memoryView.hpp:59, include/solace/mutableMemoryView.hpp:40, include/solace/stringView.hpp:35 *)
Inductive vkind := Ro | Rw | Tx.

(** The memory of the program and its variables; a text has a size below 2^16. *)
(** include/solace/memoryView.hpp:227-228, include/solace/stringView.hpp:425-426 *)
Record vworld := mkVW { vw_mem : list N; vw_vars : nat -> option (vkind * view) }.

(** include/solace/memoryView.hpp:116-127, include/solace/stringView.hpp:91-98: a variable assigned *)
Definition vset (f : nat -> option (vkind * view)) (i : nat) (x : option (vkind * view)) : nat -> option (vkind * view) :=
  fun k => if Nat.eqb k i then x else f k.

(** include/solace/memoryView.hpp:83, include/solace/stringView.hpp:48: default constructed *)
Definition no_view : view := mkView None 0.

(** A value of type [j] is accepted where a value of type [k] is expected: every mutable view
    is a view (public base class), not the other way round. *)
(** include/solace/mutableMemoryView.hpp:40-41 *)
Definition fits (k j : vkind) : bool :=
  match k, j with Ro, Ro | Ro, Rw | Rw, Rw | Tx, Tx => true | _, _ => false end.

(** The operations; [x_i] is variable [i]. *)
(** include/solace/memoryView.hpp:83-223, include/solace/mutableMemoryView.hpp:58-236, include/solace/stringView.hpp:48-278 *)
Inductive vop :=
| VNew (i : nat) (k : vkind)                        (** default constructed *)
| VWrap (i : nat) (k : vkind) (p : option N) (n : N) (** x_i{p, n}; wrapMemory(p, n) *)
| VCopy (i : nat) (k : vkind) (j : nat)             (** x_i{x_j}, of type k *)
| VMove (i : nat) (k : vkind) (j : nat)             (** x_i{mv(x_j)}, of type k *)
| VMutable (i j : nat)                              (** x_i = mutable_cast(x_j) *)
| VAssign (i j : nat)                               (** x_i = x_j *)
| VMoveAssign (i j : nat)                           (** x_i = mv(x_j) *)
| VSwap (i j : nat)                                 (** swap(x_i, x_j) *)
| VSlice (i : nat) (k : vkind) (j : nat) (from to : N)          (** x_j.slice(from, to); substring for texts *)
| VSliceFor (i : nat) (k : vkind) (j : nat) (tsz off cnt : N)   (** x_j.sliceFor<T>(off, cnt) *)
| VFill (i : nat) (b : N) | VFillRange (i : nat) (b from to : N)
| VWrite (i j : nat)                                (** x_i.write(x_j) *)
| VRead (i j : nat)                                 (** x_i.read(x_j): from x_i into x_j *)
| VIndex (i : nat) (n : N)                          (** x_i[n] *)
| VSet (i : nat) (n b : N)                          (** x_i[n] = b *)
| VData (i : nat) (off : option N) (tsz : N)        (** x_i.dataAs<T>(), x_i.dataAs<T>(off) *)
| VPut (i : nat) (off : option N) (bs : list N)     (** x_i.dataAs<T>(off) = value with bytes bs *)
| VConstruct (i : nat) (bs : list N)                (** x_i.construct<T>(value with bytes bs) *)
| VAddress (i : nat) (off : N)                      (** x_i.offsetAddress(off) *)
| VEquals (i j : nat)                               (** x_i == x_j *)
| VSize (i : nat) | VEmpty (i : nat) | VBool (i : nat)
| VText (i j : nat)                                 (** StringView x_i{x_j} *)
| VTextC (i : nat) (p : option N)                   (** StringView x_i{p}, a C string *)
| VTextView (i j : nat)                             (** MemoryView x_i = x_j.view() *)
| VCharAt (i : nat) (n : N).                        (** x_i.charAt(n) *)

(** The answers. *)
(** include/solace/memoryView.hpp:83-223, include/solace/mutableMemoryView.hpp:58-236, include/solace/stringView.hpp:48-278 *)
Inductive vans :=
| VDone | VRaised (e : exn) | VRes (r : result unit) | VByte (b : N) | VBytes (bs : list N)
| VAt (p : option (option N)) | VFlag (b : bool) | VNum (n : N).

(** An exception reaches the caller, who catches it. *)
(** src/memoryView.cpp:42-47, include/solace/memoryView.hpp:102, 187-200: functions that throw *)
Definition caught (w : vworld) (r : outcome (vans * vworld)) : outcome (vans * vworld) :=
  match r with Throws e => Ret (VRaised e, w) | _ => r end.

(** src/memoryView.cpp:50-59, src/mutableMemoryView.cpp:84-100: slice builds its result with
    the checking constructor, in a noexcept function *)
Definition checked (v : view) : outcome view := noexcept (view_ctor (v_addr v) (v_size v)).

(** src/memoryView.cpp:50-59, src/mutableMemoryView.cpp:84-100, src/stringView.cpp:71-82 *)
Definition kind_slice (k : vkind) (v : view) (from to : N) : outcome view :=
  match k with
  | Ro => checked (view_slice v from to)
  | Rw => checked (mview_slice v from to)
  | Tx => Ret (view_slice v (u16 from) (u16 to))
  end.
(** include/solace/memoryView.hpp:220-223, include/solace/mutableMemoryView.hpp:184-187 *)
Definition kind_sliceFor (k : vkind) (v : view) (tsz off cnt : N) : outcome view :=
  kind_slice k v (u64 (off * tsz)) (u64 (u64 (off + cnt) * tsz)).

(** include/solace/stringView.hpp:61-68: the constructor from a pointer and a count asserts as
    the one of MemoryView does (98-103 of memoryView.hpp) *)
Definition kind_ctor (k : vkind) (p : option N) (n : N) : outcome view :=
  match k with Tx => view_ctor p (u16 n) | _ => view_ctor p n end.

(** include/solace/stringView.hpp:86-89: the size is narrowed *)
Definition text_of (v : view) : view := mkView (v_addr v) (u16 (v_size v)).

(** src/stringView.cpp:29-35: strlen, narrowed; strlen reads up to the first NUL *)
Definition text_of_cstr (mem : list N) (p : option N) : outcome view :=
  match p with
  | None => Ret (mkView None 0)
  | Some a => let! s := cstring (ndrop a mem) in Ret (mkView (Some a) (u16 (size s)))
  end.

(** include/solace/memoryView.hpp:187-200 *)
Definition data_as (mem : list N) (v : view) (off : option N) (tsz : N) : outcome (list N) :=
  match off with None => view_dataAs mem tsz v | Some o => view_dataAs_at mem tsz v o end.

(** include/solace/mutableMemoryView.hpp:130-138: the reference returned, assigned *)
Definition put_as (mem : list N) (v : view) (off : option N) (bs : list N) : outcome (list N) :=
  let! old := data_as mem v off (size bs) in
  store mem (match off with None => v_addr v | Some o => ptr_add (v_addr v) o end) bs.

(** src/mutableMemoryView.cpp:31-36: the reference returned, assigned *)
Definition put_index (mem : list N) (v : view) (n b : N) : outcome (list N) :=
  if v_size v <=? n then Throws IndexOutOfRange else store mem (ptr_add (v_addr v) n) [b].

(** include/solace/mutableMemoryView.hpp:190-198 *)
Definition construct_in (mem : list N) (v : view) (bs : list N) : outcome (list N) :=
  if size bs <=? v_size v then put_as mem v None bs else Throws AssertFailed.

(** include/solace/stringView.hpp:276-278: texts are indexed without a check; views are checked
    (src/memoryView.cpp:42-47, src/mutableMemoryView.cpp:31-36) *)
Definition kind_index (k : vkind) (mem : list N) (v : view) (n : N) : outcome N :=
  match k with
  | Tx => let! bs := load mem (ptr_add (v_addr v) n) 1 in match bs with b :: _ => Ret b | [] => UB end
  | _ => view_index mem v n
  end.
(** include/solace/stringView.hpp:262-266 *)
Definition text_charAt (mem : list N) (v : view) (n : N) : outcome N := view_index mem v n.

(** src/memoryView.cpp:82-93; src/stringView.cpp:38-52 compares the characters *)
Definition kind_equals (k : vkind) (mem : list N) (v w : view) : outcome bool :=
  match k with
  | Tx => if negb (v_size v =? v_size w) then Ret false else
          let! a := load mem (v_addr v) (v_size v) in
          let! b := load mem (v_addr w) (v_size w) in
          Ret (sv_eq_loop a b)
  | _ => view_equals mem v w
  end.

(** One operation. *)
(** include/solace/memoryView.hpp:83-223, include/solace/mutableMemoryView.hpp:58-236, include/solace/stringView.hpp:48-278; lines per case below *)
Definition v_step (o : vop) (w : vworld) : outcome (vans * vworld) :=
  let mem := vw_mem w in
  let vars := vw_vars w in
  (* a new variable *)
  let make i k (r : outcome view) :=
    match vars i with
    | Some _ => UB
    | None => caught w (let! v := r in Ret (VDone, mkVW mem (vset vars i (Some (k, v)))))
    end in
  (* a function that changes the memory *)
  let change (r : outcome (list N)) := caught w (let! m := r in Ret (VDone, mkVW m vars)) in
  let answer (r : outcome vans) := caught w (let! a := r in Ret (a, w)) in
  let on i (f : vkind -> view -> outcome (vans * vworld)) :=
    match vars i with Some (k, v) => f k v | None => UB end in
  let on_rw i (f : view -> outcome (vans * vworld)) :=
    match vars i with Some (Rw, v) => f v | _ => UB end in
  match o with
  | VNew i k => make i k (Ret no_view)
  | VWrap i k p n => make i k (kind_ctor k p n)
  | VCopy i k j =>
      (* memoryView.hpp:105, mutableMemoryView.hpp:60 *)
      on j (fun kj v => if fits k kj then make i k (Ret v) else UB)
  | VMove i k j =>
      (* memoryView.hpp:109-113, mutableMemoryView.hpp:63; a StringView is copied (it declares no constructor, stringView.hpp:51-52) *)
      on j (fun kj v =>
        if negb (fits k kj) then UB else
        match vars i with
        | Some _ => UB
        | None => Ret (VDone, mkVW mem (vset (vset vars j (Some (kj, if fits Tx kj then v else no_view))) i (Some (k, v))))
        end)
  | VMutable i j =>
      (* mutableMemoryView.hpp:233-236 *)
      on j (fun kj v => if fits Ro kj then make i Rw (view_ctor (v_addr v) (v_size v)) else UB)
  | VAssign i j =>
      (* memoryView.hpp:106, mutableMemoryView.hpp:61 *)
      on i (fun ki _ => on j (fun kj v =>
        if fits ki kj then Ret (VDone, mkVW mem (vset vars i (Some (ki, v)))) else UB))
  | VMoveAssign i j =>
      (* memoryView.hpp:116-118, mutableMemoryView.hpp:65-67: a swap, also when x_j is of the
         derived type; a StringView is copied *)
      on i (fun ki vi => on j (fun kj vj =>
        if negb (fits ki kj) then UB else
        if fits Tx kj then Ret (VDone, mkVW mem (vset vars i (Some (ki, vj)))) else
        Ret (VDone, mkVW mem (vset (vset vars i (Some (ki, vj))) j (Some (kj, vi))))))
  | VSwap i j =>
      (* memoryView.hpp:120-127, 281-284: swap(MemoryView&, MemoryView&) accepts the derived type;
         stringView.hpp:91-98 *)
      on i (fun ki vi => on j (fun kj vj =>
        if Bool.eqb (fits Tx ki) (fits Tx kj)
        then Ret (VDone, mkVW mem (vset (vset vars i (Some (ki, vj))) j (Some (kj, vi)))) else UB))
  | VSlice i k j from to =>
      on j (fun kj v => if fits k kj then make i k (kind_slice k v from to) else UB)
  | VSliceFor i k j tsz off cnt =>
      on j (fun kj v => if (fits k kj && fits Ro k)%bool then make i k (kind_sliceFor k v tsz off cnt) else UB)
  | VFill i b => on_rw i (fun v => change (mview_fill mem v b))
  | VFillRange i b from to => on_rw i (fun v => change (mview_fill_range mem v b from to))
  | VWrite i j =>
      on_rw i (fun v => on j (fun kj s => if fits Ro kj then
        let! p := mview_write mem v s in Ret (VRes (fst p), mkVW (snd p) vars) else UB))
  | VRead i j =>
      on_rw i (fun v => on_rw j (fun d =>
        let! p := mview_read mem v d in Ret (VRes (fst p), mkVW (snd p) vars)))
  | VIndex i n => on i (fun k v => answer (let! b := kind_index k mem v n in Ret (VByte b)))
  | VSet i n b => on_rw i (fun v => change (put_index mem v n b))
  | VData i off tsz =>
      on i (fun k v => if fits Ro k then answer (let! bs := data_as mem v off tsz in Ret (VBytes bs)) else UB)
  | VPut i off bs => on_rw i (fun v => change (put_as mem v off bs))
  | VConstruct i bs => on_rw i (fun v => change (construct_in mem v bs))
  | VAddress i off => on i (fun k v => if fits Ro k then Ret (VAt (view_offsetAddress v off), w) else UB)
  | VEquals i j => on i (fun ki v => on j (fun kj v' =>
      if Bool.eqb (fits Tx ki) (fits Tx kj) then answer (let! b := kind_equals ki mem v v' in Ret (VFlag b)) else UB))
  | VSize i => on i (fun _ v => Ret (VNum (v_size v), w))
  | VEmpty i => on i (fun _ v => Ret (VFlag (v_size v =? 0), w))
  | VBool i =>
      (* memoryView.hpp:136-138; stringView.hpp:294-296 *)
      on i (fun k v => Ret (VFlag (match k with
                                   | Tx => negb (v_size v =? 0)
                                   | _ => match v_addr v with Some _ => true | None => false end
                                   end), w))
  | VText i j => on j (fun kj v => if fits Ro kj then make i Tx (Ret (text_of v)) else UB)
  | VTextC i p => make i Tx (text_of_cstr mem p)
  | VTextView i j =>
      (* stringView.hpp:413-415 *)
      on j (fun kj v => if fits Tx kj then make i Ro (checked v) else UB)
  | VCharAt i n => on i (fun k v => if fits Tx k then answer (let! b := text_charAt mem v n in Ret (VByte b)) else UB)
  end.

(** A program. *)
(** include/solace/memoryView.hpp:83-223, include/solace/mutableMemoryView.hpp:58-236, include/solace/stringView.hpp:48-278 *)
Fixpoint v_run (os : list vop) (w : vworld) : outcome (list vans * vworld) :=
  match os with
  | [] => Ret ([], w)
  | o :: t => let! p := v_step o w in
              let! q := v_run t (snd p) in
              Ret (fst p :: fst q, snd q)
  end.
(** include/solace/memoryView.hpp:83: before the first declaration *)
Definition v_start (mem : list N) : vworld := mkVW mem (fun _ => None).
