(** Model of a Vector<T> whose operations are given references, possibly to its own
    elements (include/solace/vector.hpp, include/solace/arrayView.hpp).

    Arguments are taken by reference, and a reference is read when the element is copied,
    not when the call is made.  Copying an element does not throw (simplification; see
    ContainerModel.v for elements that do). *)
From Verif Require Import Base MemViewModel MemoryModel ContainerModel.

(** include/solace/vector.hpp:230-236: what the program writes as argument: a value from
    elsewhere, or v[j] *)
Inductive arg (A : Type) := Value (x : A) | Elem (j : N).
Arguments Value {A}. Arguments Elem {A}.
(** include/solace/vector.hpp:230-232, include/solace/arrayView.hpp:225-231: the reference
    that arrives: to an object elsewhere, or to a place in the buffer *)
Inductive reference (A : Type) := Other (x : A) | Place (i : nat).
Arguments Other {A}. Arguments Place {A}.

(** include/solace/vector.hpp:234-236, include/solace/arrayView.hpp:166-170: v[j] yields a
    reference; nothing is read *)
Definition refer {A} (sz : N) (c : cont A) (a : arg A) : outcome (reference A) :=
  match a with
  | Value x => Ret (Other x)
  | Elem j =>
      let v := cont_view sz c in
      if view_size sz v <=? j then Throws IndexOutOfRange else
      if v_size v <? u64 (u64 (sz * j) + sz) then Throws AssertFailed else Ret (Place (N.to_nat j))
  end.
(** include/solace/utils.hpp:124-127: the copy constructor reads the reference *)
Definition deref {A} (b : buf A) (r : reference A) : outcome A :=
  match r with
  | Other x => Ret x
  | Place i => match nth_error (b_slots b) i with Some (Some e) => Ret (snd e) | _ => UB end
  end.

(** include/solace/vector.hpp:205-264, include/solace/arrayView.hpp:213-284: the statements *)
Inductive aop (A : Type) :=
| APush (a : arg A)              (* v.push_back(a) *)
| APop                           (* v.pop_back() *)
| AReplace (i : N) (a : arg A)   (* v.view().emplace(i, a) *)
| ASet (i : N) (a : arg A)       (* v.view().set(i, [&] { return a; }) *)
| AFill (a : arg A)              (* v.view().fill(a) *)
| AFind (a : arg A)              (* v.indexOf(a) *)
| AGet (i : N).                  (* v[i] *)
Arguments APush {A}. Arguments APop {A}. Arguments AReplace {A}. Arguments ASet {A}. Arguments AFill {A}. Arguments AFind {A}. Arguments AGet {A}.
(** include/solace/vector.hpp:205-264: how a statement ends *)
Inductive aans (A : Type) := ADone | AFull | AThrew (x : exn) | AValue (x : A) | AIndex (o : option N).
Arguments ADone {A}. Arguments AFull {A}. Arguments AThrew {A}. Arguments AValue {A}. Arguments AIndex {A}.

(** include/solace/vector.hpp:210-232 push_back, emplace_back: the reference is read
    after the check for room *)
Definition push_ref {A} (sz : N) (next : nat) (c : cont A) (r : reference A) : outcome (cont A * nat * aans A) :=
  if vec_capacity sz c <=? vec_size c then Ret (c, next, AFull) else
  let! x := deref (c_buf c) r in
  let! p := vec_emplace sz next c (Some x) in
  let '(c', _, nx, a) := p in Ret (c', nx, match a with AOk => ADone | AError _ => AFull | ARaised e => AThrew e end).
(** include/solace/arrayView.hpp:225-231 emplace: the old element is destroyed, then the
    reference is read *)
Definition replace_ref {A} (sz : N) (next : nat) (c : cont A) (i : N) (r : reference A) : outcome (cont A * nat * aans A) :=
  let w := cont_view sz c in
  if view_size sz w <=? i then Ret (c, next, AThrew IndexOutOfRange) else
  let! k := place_slot sz (place sz w i) in
  let! p := dtor_at (c_buf c) k in
  let! x := deref (fst p) r in
  let! b := ctor_at (fst p) k (next, x) in
  Ret (mkCont b (c_n c), S next, ADone).
(** include/solace/arrayView.hpp:278-284 fill: every element is assigned in turn, and the
    reference is read each time; [n] elements are left, the next is in place [i] *)
Fixpoint fill_ref {A} (n i : nat) (b : buf A) (r : reference A) : outcome (buf A) :=
  match n with
  | O => Ret b
  | S n' =>
      let! x := deref b r in
      match nth_error (b_slots b) i with
      | Some (Some e) => fill_ref n' (S i) (mkBuf (b_bytes b) (upd (b_slots b) i (Some (fst e, x)))) r
      | _ => UB
      end
  end.
(** include/solace/arrayView.hpp:254-264 indexOf: the reference is read for every comparison *)
Fixpoint find_ref {A} (eqb : A -> A -> bool) (b : buf A) (r : reference A) (i : N) (l : list (slot A)) : outcome (option N) :=
  match l with
  | [] => Ret None
  | None :: _ => UB
  | Some e :: l' =>
      let! x := deref b r in
      if eqb x (snd e) then Ret (Some i) else find_ref eqb b r (i + 1) l'
  end.

(** A statement that may throw. *)
(** include/solace/vector.hpp:234-236: v[j] throws before the call is made *)
Definition with_ref {A} (sz : N) (next : nat) (c : cont A) (a : arg A) (k : reference A -> outcome (cont A * nat * aans A)) : outcome (cont A * nat * aans A) :=
  match refer sz c a with
  | Ret r => k r
  | Throws e => Ret (c, next, AThrew e)
  | Terminates => Terminates | UB => UB | OutOfFuel => OutOfFuel
  end.

(** include/solace/vector.hpp:205-264, include/solace/arrayView.hpp:166-284; lines per case below *)
Definition astep {A} (eqb : A -> A -> bool) (sz : N) (next : nat) (c : cont A) (o : aop A) : outcome (cont A * nat * aans A) :=
  match o with
  | APush a => with_ref sz next c a (push_ref sz next c)
  | APop =>
      (* include/solace/vector.hpp:244-253 *)
      let! p := vec_pop sz c in Ret (fst p, next, ADone)
  | AReplace i a => with_ref sz next c a (replace_ref sz next c i)
  | ASet i a =>
      (* include/solace/arrayView.hpp:213-217: the index is checked, then the callback runs *)
      if view_size sz (cont_view sz c) <=? i then Ret (c, next, AThrew IndexOutOfRange) else
      with_ref sz next c a (fun r =>
        let! x := deref (c_buf c) r in
        let! p := elem_set sz c i (Some x) in
        Ret (fst p, next, match snd p with AOk => ADone | AError _ => AFull | ARaised e => AThrew e end))
  | AFill a =>
      with_ref sz next c a (fun r =>
        let! b := fill_ref (N.to_nat (view_size sz (cont_view sz c))) 0 (c_buf c) r in
        Ret (mkCont b (c_n c), next, ADone))
  | AFind a =>
      with_ref sz next c a (fun r =>
        let! o := find_ref eqb (c_buf c) r 0 (elems sz c) in Ret (c, next, AIndex o))
  | AGet i =>
      (* include/solace/vector.hpp:234-236 *)
      match elem_at sz c i with
      | Ret x => Ret (c, next, AValue x)
      | Throws e => Ret (c, next, AThrew e)
      | Terminates => Terminates | UB => UB | OutOfFuel => OutOfFuel
      end
  end.
(** include/solace/vector.hpp:205-264: a program *)
Fixpoint arun {A} (eqb : A -> A -> bool) (sz : N) (next : nat) (c : cont A) (ops : list (aop A)) : outcome (cont A * list (aans A)) :=
  match ops with
  | [] => Ret (c, [])
  | o :: ops' =>
      let! p := astep eqb sz next c o in
      let '(c', nx, a) := p in
      let! q := arun eqb sz nx c' ops' in
      Ret (fst q, a :: snd q)
  end.
