(** Model of programs with many ArrayView<T> variables, of any element types, that look at
    the same memory (include/solace/arrayView.hpp).  The memory is made of bytes, an element
    is its bytes.  Variables are named by numbers; an exception is caught by the caller and
    appears as an answer; using a variable that does not exist or has the wrong type (a program
    that does not compile) is undefined.  Simplification: elements are trivially copyable and
    destructible, and == compares their bytes. *)
From Verif Require Import Base MemViewModel.

(** The type ArrayView<T> of a variable: sizeof(T), alignof(T), and whether T is const, which
    decides between MemoryView and MutableMemoryView. *)
(** include/solace/arrayView.hpp:40-46 *)
Record tkind := mkT { t_sz : N; t_al : N; t_const : bool }.

(** include/solace/arrayView.hpp:361, the memory and the variables *)
Record tworld := mkTW { tw_mem : list N; tw_vars : nat -> option (tkind * view) }.

(** include/solace/arrayView.hpp:86-100: a variable given a value *)
Definition tset (f : nat -> option (tkind * view)) (i : nat) (x : option (tkind * view)) : nat -> option (tkind * view) :=
  fun k => if Nat.eqb k i then x else f k.

(** include/solace/arrayView.hpp:60-64, an empty view *)
Definition t_none : view := mkView None 0.

(** Equality of types. *)
(** include/solace/arrayView.hpp:40-46 *)
Definition tkind_eqb (k j : tkind) : bool :=
  ((t_sz k =? t_sz j) && (t_al k =? t_al j) && Bool.eqb (t_const k) (t_const j))%bool.
(** include/solace/arrayView.hpp:270-276: T becomes T const *)
Definition as_const (k : tkind) : tkind := mkT (t_sz k) (t_al k) true.
(** include/solace/arrayView.hpp:274-276: a [j] is accepted where a [k] is expected *)
Definition accepts (k j : tkind) : bool := (tkind_eqb k j || tkind_eqb k (as_const j))%bool.

(** The operations; [x_i] is variable [i]. *)
(** include/solace/arrayView.hpp:60-356, 365-470 *)
Inductive top :=
| TNew (i : nat) (k : tkind)                         (** default constructed, or from nullptr *)
| TWrap (i : nat) (k : tkind) (p : option N) (n : N) (** arrayView(p, n); for an array of n elements arrayView(a) *)
| TRange (i : nat) (k : tkind) (p q : option N)      (** arrayView(p, q) *)
| TBytes (i : nat) (k : tkind) (p : option N) (n : N) (** arrayView<T>(wrapMemory(p, n)) *)
| TCopy (i j : nat)                                  (** x_i{x_j} *)
| TConst (i j : nat)                                 (** x_j.asConst(), ArrayView<T const> x_i = x_j *)
| TMove (i j : nat)                                  (** x_i{mv(x_j)} *)
| TAssign (i j : nat) | TMoveAssign (i j : nat) | TSwap (i j : nat)
| TSlice (i j : nat) (c : bool) (from to : N)        (** x_j.slice(from, to); c: x_j is a const object *)
| TView (i : nat)                                    (** x_i.view() *)
| TAt (i : nat) (n : N)                              (** x_i[n] *)
| TSet (i : nat) (n : N) (f : option (list N))       (** x_i.set(n, f), f gives a value or throws; x_i[n] = value *)
| TEmplace (i : nat) (n : N) (bs : list N)           (** x_i.emplace(n, value), _emplace_unintialized *)
| TEmplaceAll (i : nat) (l : list (option (list N))) (** x_i.emplaceAll(values ...), None: the constructor throws *)
| TFill (i : nat) (bs : list N) | TFillWith (i : nat) (f : N -> list N)
| TForEach (i : nat) (f : list N -> list N)          (** the callback changes the element *)
| TIndexOf (i : nat) (bs : list N) | TContains (i : nat) (bs : list N)
| TEquals (i j : nat) | TIsNull (i : nat) | TSize (i : nat) | TEmpty (i : nat) | TBool (i : nat).

(** The answers. *)
(** include/solace/arrayView.hpp:60-356 *)
Inductive tans :=
| TDone | TRaised (e : exn) | TElem (bs : list N) | TNum (n : N) | TFlag (b : bool) | TIndex (o : option N)
| TWhere (p : option N) (n : N).

(** An exception reaches the caller, who catches it. *)
(** include/solace/arrayView.hpp:166-177, 211-217, 223-245 *)
Definition t_caught (w : tworld) (r : outcome (tans * tworld)) : outcome (tans * tworld) :=
  match r with Throws e => Ret (TRaised e, w) | _ => r end.

(** Using an address as a T: it must be aligned. *)
(** include/solace/arrayView.hpp:166-177, 180-194 *)
Definition t_aligned (k : tkind) (p : option N) : bool :=
  match p with Some a => a mod t_al k =? 0 | None => false end.
(** include/solace/arrayView.hpp:169, 260: an element read *)
Definition t_load (k : tkind) (mem : list N) (p : option N) : outcome (list N) :=
  if t_aligned k p then load mem p (t_sz k) else UB.
(** include/solace/arrayView.hpp:216, 280, 293: an element assigned or constructed *)
Definition t_store (k : tkind) (mem : list N) (p : option N) (bs : list N) : outcome (list N) :=
  if (t_aligned k p && (size bs =? t_sz k))%bool then store mem p bs else UB.

(** include/solace/arrayView.hpp:161-163 size() *)
Definition t_count (k : tkind) (v : view) : N := v_size v / t_sz k.
(** include/solace/arrayView.hpp:180-194 begin() *)
Definition t_begin (v : view) : option N := if v_size v =? 0 then None else v_addr v.

(** include/solace/arrayView.hpp:439-450 with memoryView.hpp:98-103: sizeof(T) * length wraps *)
Definition t_wrap (k : tkind) (p : option N) (n : N) : outcome view := view_ctor p (u64 (t_sz k * n)).
(** include/solace/arrayView.hpp:459-470: the difference of the pointers is signed, a multiple
    of the element size, and is converted to size_t *)
Definition t_range (k : tkind) (p q : option N) : outcome view :=
  match p, q with
  | None, None => view_ctor None 0
  | Some a, Some b =>
      if ((if a <=? b then b - a else a - b) mod t_sz k =? 0)
      then view_ctor (Some a) (if a <=? b then b - a else 2 ^ 64 - (a - b)) else UB
  | _, _ => UB
  end.

(** include/solace/arrayView.hpp:198-205; the slices are built with the checking constructor
    in noexcept functions (src/memoryView.cpp:50-59, src/mutableMemoryView.cpp:84-100) *)
Definition t_slice (k : tkind) (c : bool) (v : view) (from to : N) : outcome view :=
  let s := if (c || t_const k)%bool then view_slice v (u64 (from * t_sz k)) (u64 (to * t_sz k))
           else mview_slice v (u64 (from * t_sz k)) (u64 (to * t_sz k)) in
  noexcept (view_ctor (v_addr s) (v_size s)).

(** include/solace/arrayView.hpp:166-177: the address of element [n], with the check of
    dataAs<T>(offset) (memoryView.hpp:194-200) *)
Definition t_elem (k : tkind) (v : view) (n : N) : outcome (option N) :=
  if t_count k v <=? n then Throws IndexOutOfRange else
  let off := u64 (t_sz k * n) in
  if v_size v <? u64 (off + t_sz k) then Throws AssertFailed else Ret (ptr_add (v_addr v) off).

(** include/solace/arrayView.hpp:211-217 *)
Definition t_set (k : tkind) (mem : list N) (v : view) (n : N) (f : option (list N)) : outcome (list N) :=
  let! p := t_elem k v n in
  match f with Some bs => t_store k mem p bs | None => Throws UserException end.

(** include/solace/arrayView.hpp:223-232, 238-245, mutableMemoryView.hpp:184-204: the slice of
    the element, its old value destroyed, the new one constructed *)
Definition t_emplace (k : tkind) (mem : list N) (v : view) (n : N) (bs : list N) : outcome (list N) :=
  if t_count k v <=? n then Throws IndexOutOfRange else
  let s := mview_slice v (u64 (n * t_sz k)) (u64 (u64 (n + 1) * t_sz k)) in
  if v_size s <? t_sz k then Throws AssertFailed else t_store k mem (v_addr s) bs.

(** include/solace/arrayView.hpp:365-404: the guard's position moves from begin() without a
    check; when a constructor throws, the objects made so far are destroyed, which leaves
    their bytes *)
Fixpoint t_emplace_all (k : tkind) (mem : list N) (p : option N) (l : list (option (list N))) : outcome (list N * bool) :=
  match l with
  | [] => Ret (mem, false)
  | None :: _ => Ret (mem, true)
  | Some bs :: l' => let! m := t_store k mem p bs in t_emplace_all k m (ptr_add p (t_sz k)) l'
  end.

(** include/solace/arrayView.hpp:278-297: [n] elements are left *)
Fixpoint t_fill (k : tkind) (f : N -> list N) (n : nat) (i : N) (p : option N) (mem : list N) : outcome (list N) :=
  match n with
  | O => Ret mem
  | S n' => let! m := t_store k mem p (f i) in t_fill k f n' (i + 1) (ptr_add p (t_sz k)) m
  end.
(** include/solace/arrayView.hpp:304-315 *)
Fixpoint t_each (k : tkind) (f : list N -> list N) (n : nat) (p : option N) (mem : list N) : outcome (list N) :=
  match n with
  | O => Ret mem
  | S n' => let! x := t_load k mem p in
            let! m := t_store k mem p (f x) in
            t_each k f n' (ptr_add p (t_sz k)) m
  end.
(** include/solace/arrayView.hpp:258-268 *)
Fixpoint t_find (k : tkind) (bs : list N) (n : nat) (i : N) (p : option N) (mem : list N) : outcome (option N) :=
  match n with
  | O => Ret None
  | S n' => let! x := t_load k mem p in
            if list_eqb bs x then Ret (Some i) else t_find k bs n' (i + 1) (ptr_add p (t_sz k)) mem
  end.
(** include/solace/arrayView.hpp:111-122 *)
Fixpoint t_same (k : tkind) (n : nat) (p q : option N) (mem : list N) : outcome bool :=
  match n with
  | O => Ret true
  | S n' => let! x := t_load k mem p in
            let! y := t_load k mem q in
            if list_eqb x y then t_same k n' (ptr_add p (t_sz k)) (ptr_add q (t_sz k)) mem else Ret false
  end.
(** include/solace/arrayView.hpp:102-123, 125-141 *)
Definition t_equals (k : tkind) (mem : list N) (v u : view) : outcome bool :=
  if negb (t_count k v =? t_count k u) then Ret false else
  if ptr_eqb (v_addr v) (v_addr u) then Ret true else
  t_same k (N.to_nat (t_count k v)) (t_begin v) (t_begin u) mem.

(** One operation. *)
(** include/solace/arrayView.hpp:60-356, 407-470; lines per case below *)
Definition t_step (o : top) (w : tworld) : outcome (tans * tworld) :=
  let mem := tw_mem w in
  let vars := tw_vars w in
  let make i k (r : outcome view) :=
    match vars i with
    | Some _ => UB
    | None => t_caught w (let! v := r in Ret (TDone, mkTW mem (tset vars i (Some (k, v)))))
    end in
  let change (r : outcome (list N)) := t_caught w (let! m := r in Ret (TDone, mkTW m vars)) in
  let answer (r : outcome tans) := t_caught w (let! a := r in Ret (a, w)) in
  let on i (f : tkind -> view -> outcome (tans * tworld)) :=
    match vars i with Some (k, v) => f k v | None => UB end in
  let on_mut i (f : tkind -> view -> outcome (tans * tworld)) :=
    on i (fun k v => if t_const k then UB else f k v) in
  match o with
  | TNew i k => make i k (Ret t_none)                       (* 60-64 *)
  | TWrap i k p n => make i k (t_wrap k p n)                (* 78-82, 439-455 *)
  | TRange i k p q => make i k (t_range k p q)              (* 459-470 *)
  | TBytes i k p n => make i k (view_ctor p n)              (* 74-76, 426-436 *)
  | TCopy i j => on j (fun k v => make i k (Ret v))         (* 66-68 *)
  | TConst i j => on j (fun k v => make i (as_const k) (Ret v))  (* 270-276 *)
  | TMove i j =>                                            (* 70-72 *)
      on j (fun k v =>
        match vars i with
        | Some _ => UB
        | None => Ret (TDone, mkTW mem (tset (tset vars j (Some (k, t_none))) i (Some (k, v))))
        end)
  | TAssign i j =>                                          (* 92-96 *)
      on i (fun k _ => on j (fun kj v =>
        if accepts k kj then Ret (TDone, mkTW mem (tset vars i (Some (k, v)))) else UB))
  | TMoveAssign i j =>                                      (* 98-100; through a converted temporary the source stays *)
      on i (fun k vi => on j (fun kj vj =>
        if tkind_eqb k kj then Ret (TDone, mkTW mem (tset (tset vars i (Some (k, vj))) j (Some (kj, vi)))) else
        if accepts k kj then Ret (TDone, mkTW mem (tset vars i (Some (k, vj)))) else UB))
  | TSwap i j =>                                            (* 86-90, 407-410 *)
      on i (fun k vi => on j (fun kj vj =>
        if tkind_eqb k kj then Ret (TDone, mkTW mem (tset (tset vars i (Some (k, vj))) j (Some (kj, vi)))) else UB))
  | TSlice i j c from to =>                                 (* 198-205 *)
      on j (fun k v => make i (if c then as_const k else k) (t_slice k c v from to))
  | TView i => on i (fun _ v => Ret (TWhere (v_addr v) (v_size v), w))   (* 207-209 *)
  | TAt i n =>                                              (* 166-177 *)
      on i (fun k v => answer (let! p := t_elem k v n in let! bs := t_load k mem p in Ret (TElem bs)))
  | TSet i n f => on_mut i (fun k v => change (t_set k mem v n f))       (* 211-217 *)
  | TEmplace i n bs => on_mut i (fun k v => change (t_emplace k mem v n bs))   (* 223-245 *)
  | TEmplaceAll i l =>                                      (* 396-404 *)
      on_mut i (fun k v =>
        let! r := t_emplace_all k mem (t_begin v) l in
        Ret ((if snd r then TRaised UserException else TDone), mkTW (fst r) vars))
  | TFill i bs => on_mut i (fun k v => change (t_fill k (fun _ => bs) (N.to_nat (t_count k v)) 0 (t_begin v) mem))  (* 278-284 *)
  | TFillWith i f => on_mut i (fun k v => change (t_fill k f (N.to_nat (t_count k v)) 0 (t_begin v) mem))  (* 286-297 *)
  | TForEach i f => on_mut i (fun k v => change (t_each k f (N.to_nat (t_count k v)) (t_begin v) mem))  (* 304-315 *)
  | TIndexOf i bs =>                                        (* 258-268 *)
      on i (fun k v => answer (let! r := t_find k bs (N.to_nat (t_count k v)) 0 (t_begin v) mem in Ret (TIndex r)))
  | TContains i bs =>                                       (* 254-256 *)
      on i (fun k v => answer (let! r := t_find k bs (N.to_nat (t_count k v)) 0 (t_begin v) mem in
                               Ret (TFlag match r with Some _ => true | None => false end)))
  | TEquals i j =>                                          (* 102-141 *)
      on i (fun k v => on j (fun kj u => if accepts k kj then answer (let! b := t_equals k mem v u in Ret (TFlag b)) else UB))
  | TIsNull i => on i (fun _ v => Ret (TFlag (v_size v =? 0), w))        (* 412-422 *)
  | TSize i => on i (fun k v => Ret (TNum (t_count k v), w))             (* 161-163 *)
  | TEmpty i => on i (fun _ v => Ret (TFlag (v_size v =? 0), w))         (* 147-149 *)
  | TBool i => on i (fun _ v => Ret (TFlag match v_addr v with Some _ => true | None => false end, w))  (* 152-154 *)
  end.

(** A program. *)
(** include/solace/arrayView.hpp:60-356, 407-470 *)
Fixpoint t_run (os : list top) (w : tworld) : outcome (list tans * tworld) :=
  match os with
  | [] => Ret ([], w)
  | o :: t => let! p := t_step o w in
              let! q := t_run t (snd p) in
              Ret (fst p :: fst q, snd q)
  end.
(** include/solace/arrayView.hpp:60: before the first declaration *)
Definition t_start (mem : list N) : tworld := mkTW mem (fun _ => None).
