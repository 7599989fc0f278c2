(** Model of ArrayView<T> (include/solace/arrayView.hpp).

    [mem] are the elements of the memory the program owns, one after the other, [sz] is
    sizeof(T), and an address counts bytes.  An address that is not a multiple of [sz]
    does not point to an element: using it as one is undefined.  Simplifications: the
    copies, assignments and comparisons of elements made by the view do not throw. *)
From Verif Require Import Base MemViewModel.

Section View.
Context {A : Type}.
Variable sz : N.
Implicit Types (mem : list A) (v w : view).

(** Using an address as a T: reading and assigning. *)
(** include/solace/mutableMemoryView.hpp:128-138, include/solace/memoryView.hpp:186-200: a T read through dataAs *)
Definition cell_load mem (p : option N) : outcome A :=
  match p with
  | Some a => if a mod sz =? 0 then match nnth mem (a / sz) with Some x => Ret x | None => UB end else UB
  | None => UB
  end.
(** include/solace/arrayView.hpp:211-217: a T assigned through dataAs *)
Definition cell_store mem (p : option N) (x : A) : outcome (list A) :=
  match p with
  | Some a => if a mod sz =? 0 then match nnth mem (a / sz) with Some _ => Ret (overwrite mem (a / sz) [x]) | None => UB end else UB
  | None => UB
  end.

(** arrayView.hpp:147-163 empty(), operator bool, size() *)
Definition av_empty v : bool := v_size v =? 0.
Definition av_bool v : bool := match v_addr v with Some _ => true | None => false end.
Definition av_size v : N := v_size v / sz.
(** arrayView.hpp:180-194 begin(); end() is size() elements further *)
Definition av_begin v : option N := if v_size v =? 0 then None else v_addr v.
(** arrayView.hpp:166-178 operator[]; memoryView.hpp:187-200 dataAs<T>(offset) *)
Definition av_elem v (i : N) : outcome (option N) :=
  if av_size v <=? i then Throws IndexOutOfRange else
  if v_size v <? u64 (u64 (sz * i) + sz) then Throws AssertFailed else
  Ret (ptr_add (v_addr v) (u64 (sz * i))).
Definition av_at mem v (i : N) : outcome A := let! p := av_elem v i in cell_load mem p.
(** arrayView.hpp:211-217 set(index, f): [f] gives the value, or throws when [None] *)
Definition av_set mem v (i : N) (f : option A) : outcome (list A) :=
  let! p := av_elem v i in
  match f with Some x => cell_store mem p x | None => Throws UserException end.
(** arrayView.hpp:198-205 slice() of a const view (memoryView.cpp) and of a mutable one *)
Definition av_slice (const : bool) v (from to : N) : view :=
  if const then view_slice v (u64 (from * sz)) (u64 (to * sz)) else mview_slice v (u64 (from * sz)) (u64 (to * sz)).

(** arrayView.hpp:278-297 fill(value), fill(f), both noexcept; [f] given the index gives
    the value, or throws when [None] *)
Fixpoint fill_loop (f : N -> option A) (n : nat) (i : N) (p : option N) mem : outcome (list A) :=
  match n with
  | O => Ret mem
  | S n' =>
      match f i with
      | None => Terminates
      | Some x => let! mem' := cell_store mem p x in fill_loop f n' (i + 1) (ptr_add p sz) mem'
      end
  end.
Definition av_fill mem v (x : A) : outcome (list A) := fill_loop (fun _ => Some x) (N.to_nat (av_size v)) 0 (av_begin v) mem.
Definition av_fill_with mem v (f : N -> option A) : outcome (list A) := fill_loop f (N.to_nat (av_size v)) 0 (av_begin v) mem.

(** arrayView.hpp:304-356 forEach.  The callback has a state, may change the object it is
    given, and may throw (third component).  [keep]: it is given the element itself
    (line 310 auto& x), otherwise a constant (line 321 const auto& x) or a copy (lines 334
    and 350 auto item). *)
Fixpoint each_loop {St} (keep : bool) (body : St -> N -> A -> St * A * bool) (n : nat) (i : N) (p : option N) mem (st : St)
  : outcome (list A * St * bool) :=
  match n with
  | O => Ret (mem, st, false)
  | S n' =>
      let! x := cell_load mem p in
      let '(st', x', threw) := body st i x in
      let! mem' := if keep then cell_store mem p x' else Ret mem in
      if threw : bool then Ret (mem', st', true) else each_loop keep body n' (i + 1) (ptr_add p sz) mem' st'
  end.
Definition av_forEach {St} mem v (body : St -> A -> St * A * bool) (st : St) : outcome (list A * St * bool) :=
  each_loop true (fun s _ x => body s x) (N.to_nat (av_size v)) 0 (av_begin v) mem st.
Definition av_forEach_index {St} mem v (body : St -> N -> A -> St * A * bool) (st : St) : outcome (list A * St * bool) :=
  each_loop false body (N.to_nat (av_size v)) 0 (av_begin v) mem st.

(** arrayView.hpp:254-268 contains, indexOf *)
Fixpoint find_loop (eqb : A -> A -> bool) (x : A) (n : nat) (i : N) (p : option N) mem : outcome (option N) :=
  match n with
  | O => Ret None
  | S n' => let! y := cell_load mem p in if eqb x y then Ret (Some i) else find_loop eqb x n' (i + 1) (ptr_add p sz) mem
  end.
Definition av_indexOf eqb mem v (x : A) : outcome (option N) := find_loop eqb x (N.to_nat (av_size v)) 0 (av_begin v) mem.
Definition av_contains eqb mem v (x : A) : outcome bool :=
  let! o := av_indexOf eqb mem v x in Ret (match o with Some _ => true | None => false end).

(** arrayView.hpp:102-123 equals; the sizes are the same when the loop starts *)
Fixpoint equal_loop (eqb : A -> A -> bool) (n : nat) (p q : option N) mem : outcome bool :=
  match n with
  | O => Ret true
  | S n' =>
      let! x := cell_load mem p in
      let! y := cell_load mem q in
      if negb (eqb x y) then Ret false else equal_loop eqb n' (ptr_add p sz) (ptr_add q sz) mem
  end.
Definition av_equals eqb mem v w : outcome bool :=
  if negb (av_size v =? av_size w) then Ret false else
  if ptr_eqb (v_addr v) (v_addr w) then Ret true else
  equal_loop eqb (N.to_nat (av_size v)) (av_begin v) (av_begin w) mem.

(** arrayView.hpp:412-419 operator==(ArrayView, nullptr): empty() *)
Definition av_is_null v : bool := av_empty v.

(** A program changing elements through views sliced from [v]. *)
(** include/solace/arrayView.hpp:173-177, 211-217, 278-356: the operations that change elements *)
Inductive avop :=
| ASet (i : N) (f : option A) | AFill (x : A) | AFillWith (f : N -> A)
| AForEach (f : A -> A) | AForEachIndex (f : N -> A -> A).
(** include/solace/arrayView.hpp:173-177, 211-217, 278-356: one of them; an exception is handed to the caller *)
Definition av_op mem v (o : avop) : outcome (list A * option exn) :=
  match o with
  | ASet i f => match av_set mem v i f with Ret m => Ret (m, None) | Throws e => Ret (mem, Some e) | Terminates => Terminates | UB => UB | OutOfFuel => OutOfFuel end
  | AFill x => let! m := av_fill mem v x in Ret (m, None)
  | AFillWith f => let! m := av_fill_with mem v (fun i => Some (f i)) in Ret (m, None)
  | AForEach f => let! r := av_forEach mem v (fun (_ : unit) x => (tt, f x, false)) tt in Ret (fst (fst r), None)
  | AForEachIndex f => let! r := av_forEach_index mem v (fun (_ : unit) i x => (tt, f i x, false)) tt in Ret (fst (fst r), None)
  end.
(** include/solace/arrayView.hpp:198-205 slice, applied repeatedly *)
Definition sliced v (path : list (N * N)) : view := fold_left (fun v r => av_slice false v (fst r) (snd r)) path v.
(** include/solace/arrayView.hpp:173-177, 198-205, 211-217, 278-356: a sequence of them, in order *)
Fixpoint av_run mem v (ops : list (list (N * N) * avop)) : outcome (list A * list (option exn)) :=
  match ops with
  | [] => Ret (mem, [])
  | (path, o) :: ops' =>
      let! p := av_op mem (sliced v path) o in
      let! q := av_run (fst p) v ops' in
      Ret (fst q, snd p :: snd q)
  end.
End View.
Arguments ASet {A}. Arguments AFill {A}. Arguments AFillWith {A}. Arguments AForEach {A}. Arguments AForEachIndex {A}.
