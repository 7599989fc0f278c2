(** Model of Vector<T> and Array<T> (include/solace/vector.hpp, array.hpp, arrayView.hpp,
    details/array_utils.hpp): which elements exist, and when constructors and destructors
    of elements run.

    [A] is the element type and [sz] is sizeof(T).  A buffer of [b] bytes has b / sz places
    for elements; a place is raw memory ([None]) or holds an object.  Every object carries
    the number of its construction, so that the log of constructor and destructor calls
    tells objects apart.  A constructor call given [None] throws.  Destructors do not
    throw (simplification). Releasing the buffer is MemoryModel.v. *)
From Verif Require Import Base MemViewModel MemoryModel.

(** include/solace/utils.hpp:124-132: ctor and dtor, with the number of the object *)
Inductive life := Ctor (id : nat) | Dtor (id : nat).
Notation slot A := (option (nat * A)) (only parsing).
(** include/solace/vector.hpp:293-294, include/solace/array.hpp:299-300: the bytes of the buffer and the objects that live in it *)
Record buf (A : Type) := mkBuf { b_bytes : N; b_slots : list (slot A) }.
Arguments mkBuf {A}. Arguments b_bytes {A}. Arguments b_slots {A}.
(** include/solace/vector.hpp:293-294, array.hpp:299-300: the buffer and the counter
    (_nextInsertPosition or _size). *)
Record cont (A : Type) := mkCont { c_buf : buf A; c_n : N }.
Arguments mkCont {A}. Arguments c_buf {A}. Arguments c_n {A}.

Definition no_buf {A} : buf A := mkBuf 0 [].
Definition raw_buf {A} (sz bytes : N) : buf A := mkBuf bytes (repeat None (N.to_nat (bytes / sz))).

(** The bytes of the buffer as a view starting at offset 0. *)
(** include/solace/memoryResource.hpp:98-99 view() *)
Definition bytes_view {A} (b : buf A) : view := mkView (Some 0) (b_bytes b).

(** include/solace/vector.hpp:193-199, array.hpp:211-224: view(), and arrayView.hpp:161-163:
    the number of its elements. *)
Definition cont_view {A} (sz : N) (c : cont A) : view :=
  mview_slice (bytes_view (c_buf c)) 0 (u64 (sz * c_n c)).
Definition view_size (sz : N) (v : view) : N := v_size v / sz.
Definition elems {A} (sz : N) (c : cont A) : list (slot A) :=
  firstn (N.to_nat (view_size sz (cont_view sz c))) (b_slots (c_buf c)).

(** include/solace/mutableMemoryView.hpp:184-187 sliceFor<T>(i), then the address of a T in
    it (dataAs<T>, memoryView.hpp:187-192 checks the room). *)
Definition place (sz : N) (v : view) (i : N) : view := mview_slice v (u64 (i * sz)) (u64 (u64 (i + 1) * sz)).
Definition place_slot (sz : N) (p : view) : outcome nat :=
  if sz <=? v_size p then
    match v_addr p with
    | Some off => if off mod sz =? 0 then Ret (N.to_nat (off / sz)) else UB
    | None => UB
    end
  else Throws AssertFailed.

(** include/solace/utils.hpp:118-132 ctor, dtor: placement new and destructor call. *)
Definition ctor_at {A} (b : buf A) (i : nat) (e : nat * A) : outcome (buf A) :=
  if Nat.ltb i (length (b_slots b)) then Ret (mkBuf (b_bytes b) (upd (b_slots b) i (Some e))) else UB.
Definition dtor_at {A} (b : buf A) (i : nat) : outcome (buf A * list life) :=
  match nth_error (b_slots b) i with
  | Some (Some e) => Ret (mkBuf (b_bytes b) (upd (b_slots b) i None), [Dtor (fst e)])
  | _ => UB
  end.

(** Destruction of consecutive elements (the loops in dispose). *)
(** include/solace/details/array_utils.hpp:32-45: the destructors of a range *)
Fixpoint dtors {A} (l : list (slot A)) : outcome (list (slot A) * list life) :=
  match l with
  | [] => Ret ([], [])
  | None :: _ => UB
  | Some e :: l' => let! p := dtors l' in Ret (None :: fst p, Dtor (fst e) :: snd p)
  end.
(** include/solace/vector.hpp:277-284, include/solace/array.hpp:288-293: all elements the view covers *)
Definition destroy_all {A} (sz : N) (c : cont A) : outcome (buf A * list life) :=
  let k := N.to_nat (view_size sz (cont_view sz c)) in
  let b := c_buf c in
  if Nat.ltb (length (b_slots b)) k then UB else
  let! p := dtors (firstn k (b_slots b)) in
  Ret (mkBuf (b_bytes b) (fst p ++ skipn k (b_slots b)), snd p).
(** include/solace/vector.hpp:277-284 *)
Definition vec_dispose {A} (sz : N) (c : cont A) : outcome (cont A * list life) :=
  let! p := destroy_all sz c in Ret (mkCont (fst p) 0, snd p).
(** include/solace/array.hpp:288-293: the size is kept *)
Definition arr_dispose {A} (sz : N) (c : cont A) : outcome (cont A * list life) :=
  let! p := destroy_all sz c in Ret (mkCont (fst p) (c_n c), snd p).

(** Construction of consecutive elements under a guard which destroys what was built, last
    first, when a constructor throws: array_utils.hpp:32-63 (ExceptionGuard, initArray),
    array_utils.hpp:66-144 (CopyConstructArray_), arrayView.hpp:365-404 (emplaceAll),
    vector.hpp:494-507.  [done]: what the guard holds.  [None]: an exception left. *)
Fixpoint guarded {A} (next : nat) (done : list (nat * A)) (args : list (option A)) (rest : list (slot A))
  : outcome (option (list (slot A)) * list life * nat) :=
  match args, rest with
  | [], _ => Ret (Some (map Some (rev done) ++ rest), [], next)
  | _ :: _, [] => UB
  | None :: _, _ => Ret (None, map (fun e => Dtor (fst e)) done, next)
  | Some v :: args', _ :: rest' =>
      let! p := guarded (S next) ((next, v) :: done) args' rest' in
      let '(r, ev, nx) := p in Ret (r, Ctor next :: ev, nx)
  end.
Definition make_cont {A} (sz : N) (next : nat) (n : N) (args : list (option A)) : outcome (option (cont A) * list life * nat) :=
  let bytes := u64 (n * sz) in
  let! p := guarded next [] args (b_slots (raw_buf sz bytes)) in
  let '(r, ev, nx) := p in
  Ret (match r with Some s => Some (mkCont (mkBuf bytes s) n) | None => None end, ev, nx).

(** What the caller sees. *)
(** include/solace/vector.hpp:201-264: how a call ends *)
Inductive ans := AOk | AError (e : N) | ARaised (x : exn).

(** include/solace/vector.hpp:124-145 *)
Definition vec_capacity {A} (sz : N) (c : cont A) : N := b_bytes (c_buf c) / sz.
Definition vec_size {A} (c : cont A) : N := c_n c.
Definition vec_empty {A} (c : cont A) : bool := c_n c =? 0.
Definition vec_full {A} (sz : N) (c : cont A) : bool := vec_capacity sz c =? vec_size c.
(** include/solace/array.hpp:136-146 *)
Definition arr_size {A} (c : cont A) : N := c_n c.
Definition arr_empty {A} (c : cont A) : bool := b_bytes (c_buf c) =? 0.

(** include/solace/vector.hpp:210-228 emplace_back *)
Definition vec_emplace {A} (sz : N) (next : nat) (c : cont A) (arg : option A) : outcome (cont A * list life * nat * ans) :=
  if vec_capacity sz c <=? vec_size c then Ret (c, [], next, AError BasicOverflow) else
  let arena := place sz (bytes_view (c_buf c)) (vec_size c) in
  if v_size arena =? 0 then Ret (c, [], next, AError BasicOverflow) else
  let! i := place_slot sz arena in
  match arg with
  | None => Ret (c, [], next, ARaised UserException)
  | Some v =>
      let! b := ctor_at (c_buf c) i (next, v) in
      Ret (mkCont b (u64 (c_n c + 1)), [Ctor next], S next, AOk)
  end.
(** include/solace/vector.hpp:244-253 pop_back *)
Definition vec_pop {A} (sz : N) (c : cont A) : outcome (cont A * list life) :=
  if vec_size c <? 1 then Ret (c, []) else
  let n := sub64 (c_n c) 1 in
  let! i := place_slot sz (place sz (bytes_view (c_buf c)) n) in
  let! p := dtor_at (c_buf c) i in
  Ret (mkCont (fst p) n, snd p).
(** include/solace/vector.hpp:260-264 clear *)
Fixpoint vec_clear {A} (fuel : nat) (sz : N) (c : cont A) : outcome (cont A * list life) :=
  match fuel with
  | O => OutOfFuel
  | S fuel' =>
      if 0 <? vec_size c then
        let! p := vec_pop sz c in
        let! q := vec_clear fuel' sz (fst p) in
        Ret (fst q, snd p ++ snd q)
      else Ret (c, [])
  end.
(** include/solace/arrayView.hpp:166-178 operator[] on view() (vector.hpp:234-236,
    array.hpp:148-154) *)
Definition elem_at {A} (sz : N) (c : cont A) (i : N) : outcome A :=
  let v := cont_view sz c in
  if view_size sz v <=? i then Throws IndexOutOfRange else
  if v_size v <? u64 (u64 (sz * i) + sz) then Throws AssertFailed else
  match nth_error (b_slots (c_buf c)) (N.to_nat i) with
  | Some (Some e) => Ret (snd e)
  | _ => UB
  end.
(** include/solace/arrayView.hpp:213-217 set (array.hpp:156-161); the source throws
    when [v] is None *)
Definition elem_set {A} (sz : N) (c : cont A) (i : N) (v : option A) : outcome (cont A * ans) :=
  let w := cont_view sz c in
  if view_size sz w <=? i then Ret (c, ARaised IndexOutOfRange) else
  if v_size w <? u64 (u64 (sz * i) + sz) then Ret (c, ARaised AssertFailed) else
  match nth_error (b_slots (c_buf c)) (N.to_nat i), v with
  | Some (Some e), Some v => Ret (mkCont (mkBuf (b_bytes (c_buf c)) (upd (b_slots (c_buf c)) (N.to_nat i) (Some (fst e, v)))) (c_n c), AOk)
  | Some (Some e), None => Ret (c, ARaised UserException)
  | _, _ => UB
  end.
(** include/solace/arrayView.hpp:225-231 emplace: destroys, then constructs *)
Definition elem_emplace {A} (sz : N) (next : nat) (c : cont A) (i : N) (arg : option A) : outcome (cont A * list life * nat * ans) :=
  let w := cont_view sz c in
  if view_size sz w <=? i then Ret (c, [], next, ARaised IndexOutOfRange) else
  let! k := place_slot sz (place sz w i) in
  let! p := dtor_at (c_buf c) k in
  match arg with
  | None => Ret (mkCont (fst p) (c_n c), snd p, next, ARaised UserException)
  | Some v =>
      let! b := ctor_at (fst p) k (next, v) in
      Ret (mkCont b (c_n c), snd p ++ [Ctor next], S next, AOk)
  end.
(** The values an iteration over view() meets (arrayView.hpp:180-194). *)
Fixpoint values {A} (l : list (slot A)) : outcome (list A) :=
  match l with
  | [] => Ret []
  | None :: _ => UB
  | Some e :: l' => let! r := values l' in Ret (snd e :: r)
  end.
Definition contents_of {A} (sz : N) (c : cont A) : outcome (list A) := values (elems sz c).

(** include/solace/arrayView.hpp:254-268 indexOf (vector.hpp:205-208, array.hpp:230-232) *)
Fixpoint index_loop {A} (eqb : A -> A -> bool) (x : A) (i : N) (l : list (slot A)) : outcome (option N) :=
  match l with
  | [] => Ret None
  | None :: _ => UB
  | Some e :: l' => if eqb x (snd e) then Ret (Some i) else index_loop eqb x (i + 1) l'
  end.
Definition elem_indexOf {A} (eqb : A -> A -> bool) (sz : N) (c : cont A) (x : A) : outcome (option N) :=
  index_loop eqb x 0 (elems sz c).

(** A program with any number of vectors and arrays. *)
(** include/solace/vector.hpp:49, include/solace/array.hpp:46: the two classes *)
Inductive kind := Vec | Arr.
(** include/solace/vector.hpp:49, include/solace/array.hpp:46 *)
Definition is_vec (k : kind) : bool := match k with Vec => true | Arr => false end.
(** include/solace/vector.hpp:49, include/solace/array.hpp:46: the objects a program has built *)
Record world (A : Type) := mkWorld { w_objs : list (option (kind * cont A)); w_next : nat }.
Arguments mkWorld {A}. Arguments w_objs {A}. Arguments w_next {A}.
(** include/solace/vector.hpp:49, include/solace/array.hpp:46: none at the start *)
Definition world0 {A} : world A := mkWorld [] 0.

(** include/solace/vector.hpp:67-284, 343-543, include/solace/array.hpp:64-293, 353-483: the operations *)
Inductive cop (A : Type) :=
| MakeVec (bytes : N)                        (** makeVector(MemoryResource&&) *)
| MakeVecN (n : N)                           (** makeVector(manager, n) *)
| MakeVecOf (args : list (option A))         (** makeVector(ArrayView), makeVectorOf *)
| MakeArr (n : N) (f : nat -> option A)      (** makeArray(manager, n) *)
| MakeArrOf (args : list (option A))         (** makeArray(n, carray), makeArrayOf *)
| Emplace (i : nat) (arg : option A) | Pop (i : nat) | Clear (i : nat)
| ToArray (i : nat)
| MoveC (i : nat) | SwapC (i j : nat)        (** swap and move assignment *)
| VecNull (i : nat) | ArrNull (i : nat)      (** operator=(nullptr) *)
| SetElem (i : nat) (k : N) (v : option A) | ViewEmplace (i : nat) (k : N) (arg : option A)
| DropC (i : nat).
Arguments MakeVec {A}. Arguments MakeVecN {A}. Arguments MakeVecOf {A}. Arguments MakeArr {A}. Arguments MakeArrOf {A}.
Arguments Emplace {A}. Arguments Pop {A}. Arguments Clear {A}. Arguments ToArray {A}. Arguments MoveC {A}. Arguments SwapC {A}.
Arguments VecNull {A}. Arguments ArrNull {A}. Arguments SetElem {A}. Arguments ViewEmplace {A}. Arguments DropC {A}.

(** include/solace/vector.hpp:49, include/solace/array.hpp:46: an object changed *)
Definition put {A} (w : world A) (i : nat) (x : option (kind * cont A)) : world A := mkWorld (upd (w_objs w) i x) (w_next w).
(** include/solace/vector.hpp:343-543, include/solace/array.hpp:353-483: an object built *)
Definition add {A} (w : world A) (k : kind) (c : cont A) (next : nat) : world A := mkWorld (w_objs w ++ [Some (k, c)]) next.
(** A container built by a factory that may throw. *)
(** include/solace/vector.hpp:405-453, 485-543, include/solace/array.hpp:353-483 *)
Definition added {A} (w : world A) (k : kind) (m : outcome (option (cont A) * list life * nat)) : outcome (world A * list life * ans) :=
  let! p := m in
  let '(r, ev, nx) := p in
  match r with
  | Some c => Ret (add w k c nx, ev, AOk)
  | None => Ret (mkWorld (w_objs w) nx, ev, ARaised UserException)
  end.

(** One operation; those on objects that do not exist (any more), or of the wrong class,
    cannot be written and are skipped.  A factory whose request for memory is refused
    returns the error before anything is built: nothing to model. *)
(** include/solace/vector.hpp:67-284, 343-543, include/solace/array.hpp:64-293, 353-483; lines per case below *)
Definition cstep {A} (sz : N) (w : world A) (o : cop A) : outcome (world A * list life * ans) :=
  match o with
  | MakeVec bytes =>
      (* include/solace/vector.hpp:357-359 *)
      Ret (add w Vec (mkCont (raw_buf sz bytes) 0) (w_next w), [], AOk)
  | MakeVecN n =>
      (* include/solace/vector.hpp:377-384 *)
      Ret (add w Vec (mkCont (raw_buf sz (u64 (n * sz))) 0) (w_next w), [], AOk)
  | MakeVecOf args =>
      (* include/solace/vector.hpp:407-418, 487-543 *)
      added w Vec (make_cont sz (w_next w) (N.of_nat (length args)) args)
  | MakeArr n f =>
      (* include/solace/array.hpp:356-367: as many elements as fit the buffer *)
      added w Arr (make_cont sz (w_next w) n (map f (seq 0 (N.to_nat (u64 (n * sz) / sz)))))
  | MakeArrOf args =>
      (* include/solace/array.hpp:391-404, 470-483 *)
      added w Arr (make_cont sz (w_next w) (N.of_nat (length args)) args)
  | Emplace i arg =>
      match get (w_objs w) i with
      | Some (Vec, c) =>
          let! p := vec_emplace sz (w_next w) c arg in
          let '(c', ev, nx, a) := p in Ret (mkWorld (upd (w_objs w) i (Some (Vec, c'))) nx, ev, a)
      | _ => Ret (w, [], AOk)
      end
  | Pop i =>
      match get (w_objs w) i with
      | Some (Vec, c) => let! p := vec_pop sz c in Ret (put w i (Some (Vec, fst p)), snd p, AOk)
      | _ => Ret (w, [], AOk)
      end
  | Clear i =>
      match get (w_objs w) i with
      | Some (Vec, c) => let! p := vec_clear (S (N.to_nat (c_n c))) sz c in Ret (put w i (Some (Vec, fst p)), snd p, AOk)
      | _ => Ret (w, [], AOk)
      end
  | ToArray i =>
      (* include/solace/vector.hpp:271-273 *)
      match get (w_objs w) i with
      | Some (Vec, c) => Ret (add (put w i (Some (Vec, mkCont no_buf 0))) Arr c (w_next w), [], AOk)
      | _ => Ret (w, [], AOk)
      end
  | MoveC i =>
      (* include/solace/vector.hpp:76-79, array.hpp:73-77 *)
      match get (w_objs w) i with
      | Some (k, c) => Ret (add (put w i (Some (k, mkCont no_buf 0))) k c (w_next w), [], AOk)
      | None => Ret (w, [], AOk)
      end
  | SwapC i j =>
      (* include/solace/vector.hpp:81-85, 101-107, array.hpp:89-95, 103-105 *)
      match get (w_objs w) i, get (w_objs w) j with
      | Some (k, c), Some (k', c') =>
          if Bool.eqb (is_vec k) (is_vec k') then Ret (put (put w i (Some (k, c'))) j (Some (k, c)), [], AOk) else Ret (w, [], AOk)
      | _, _ => Ret (w, [], AOk)
      end
  | VecNull i =>
      (* include/solace/vector.hpp:109-112 *)
      match get (w_objs w) i with
      | Some (Vec, c) => let! p := vec_dispose sz c in Ret (put w i (Some (Vec, fst p)), snd p, AOk)
      | _ => Ret (w, [], AOk)
      end
  | ArrNull i =>
      (* include/solace/array.hpp:97-101 *)
      match get (w_objs w) i with
      | Some (Arr, c) => let! p := arr_dispose sz c in Ret (put w i (Some (Arr, fst p)), snd p, AOk)
      | _ => Ret (w, [], AOk)
      end
  | SetElem i k v =>
      match get (w_objs w) i with
      | Some (kd, c) => let! p := elem_set sz c k v in Ret (put w i (Some (kd, fst p)), [], snd p)
      | None => Ret (w, [], AOk)
      end
  | ViewEmplace i k arg =>
      match get (w_objs w) i with
      | Some (kd, c) =>
          let! p := elem_emplace sz (w_next w) c k arg in
          let '(c', ev, nx, a) := p in Ret (mkWorld (upd (w_objs w) i (Some (kd, c'))) nx, ev, a)
      | None => Ret (w, [], AOk)
      end
  | DropC i =>
      (* include/solace/vector.hpp:67, array.hpp:64 *)
      match get (w_objs w) i with
      | Some (Vec, c) => let! p := vec_dispose sz c in Ret (put w i None, snd p, AOk)
      | Some (Arr, c) => let! p := arr_dispose sz c in Ret (put w i None, snd p, AOk)
      | None => Ret (w, [], AOk)
      end
  end.
Fixpoint crun {A} (sz : N) (w : world A) (ops : list (cop A)) : outcome (world A * list life) :=
  match ops with
  | [] => Ret (w, [])
  | o :: ops' =>
      let! p := cstep sz w o in
      let '(w1, ev, _) := p in
      let! q := crun sz w1 ops' in
      Ret (fst q, ev ++ snd q)
  end.
