(** Model of copying and comparing Vector<T> and Array<T> (include/solace/vector.hpp, array.hpp)
    in programs with any number of them; what else can be done to them is [cstep] of
    ContainerModel.v.

    Simplifications: a copy of an element that does not throw has the value of the original, and
    comparing elements does not throw.  Different containers have different memory, so the test
    for equal addresses in ArrayView::equals (arrayView.hpp:107-109) succeeds only for a container
    compared with itself, or for two without memory, which have no elements. *)
From Verif Require Import Base MemViewModel MemoryModel ContainerModel.

Section Values.
Context {A : Type}.
Variable eqb : A -> A -> bool.
Variable sz : N.

(** What the constructors of the copies are called with; [fail]: number of the copy that throws. *)
(** include/solace/details/array_utils.hpp:66-144, include/solace/vector.hpp:405-453: the copy constructors *)
Definition copies (fail : option nat) (l : list A) : list (option A) :=
  match fail with Some k => upd (map Some l) k None | None => map Some l end.

(** include/solace/array.hpp:425-463, 388-404: size() elements from data() on.  [false] for [ok]:
    there is no memory. *)
Definition arr_copy (ok : bool) (fail : option nat) (next : nat) (c : cont A) : outcome (option (cont A) * list life * nat * ans) :=
  if negb ok then Ret (None, [], next, AError E_NOMEM) else
  if N.of_nat (length (b_slots (c_buf c))) <? arr_size c then UB else
  let! l := values (firstn (N.to_nat (arr_size c)) (b_slots (c_buf c))) in
  let! p := make_cont sz next (arr_size c) (copies fail l) in
  Ret (p, match fst (fst p) with Some _ => AOk | None => ARaised UserException end).
(** include/solace/vector.hpp:405-453: the elements of view() *)
Definition vec_copy (ok : bool) (fail : option nat) (next : nat) (c : cont A) : outcome (option (cont A) * list life * nat * ans) :=
  if negb ok then Ret (None, [], next, AError E_NOMEM) else
  let! l := contents_of sz c in
  let! p := make_cont sz next (view_size sz (cont_view sz c)) (copies fail l) in
  Ret (p, match fst (fst p) with Some _ => AOk | None => ARaised UserException end).

(** include/solace/arrayView.hpp:102-123 equals *)
Fixpoint same_elems (l l' : list (slot A)) : outcome bool :=
  match l, l' with
  | Some e :: t, Some e' :: t' => if negb (eqb (snd e) (snd e')) then Ret false else same_elems t t'
  | None :: _, _ :: _ | _ :: _, None :: _ => UB
  | _, _ => Ret true
  end.
(** include/solace/vector.hpp:114-117, array.hpp:108-111 equals; [same]: it is the same object *)
Definition cont_equals (same : bool) (c c' : cont A) : outcome bool :=
  if same then Ret true else
  if negb (view_size sz (cont_view sz c) =? view_size sz (cont_view sz c')) then Ret false else
  same_elems (elems sz c) (elems sz c').
(** include/solace/array.hpp:113-130 equals(initializer_list) *)
Fixpoint same_values (l : list (slot A)) (vs : list A) : outcome bool :=
  match l, vs with
  | Some e :: t, v :: t' => if negb (eqb (snd e) v) then Ret false else same_values t t'
  | None :: _, _ :: _ => UB
  | _, _ => Ret true
  end.
Definition arr_equals_list (c : cont A) (vs : list A) : outcome bool :=
  if negb (arr_size c =? N.of_nat (length vs)) then Ret false else same_values (elems sz c) vs.
(** include/solace/vector.hpp:298-305, array.hpp:308-316: comparing with nullptr *)
Definition is_null (k : kind) (c : cont A) : bool := match k with Vec => vec_empty c | Arr => arr_empty c end.

Inductive vcop :=
| Plain (o : cop A)
| CopyC (i : nat) (ok : bool) (fail : option nat)  (** makeVector(x_i), makeArray(x_i) *)
| EqualC (i j : nat) | DiffersC (i j : nat)        (** x_i == x_j, x_i != x_j *)
| EqualList (i : nat) (vs : list A)                (** x_i.equals({...}), for arrays *)
| IsNull (i : nat) | IsNotNull (i : nat)           (** x_i == nullptr, x_i != nullptr *)
| LookC (i : nat).                                 (** size() and the elements of an iteration *)
(** include/solace/vector.hpp:114-117, 298-335, include/solace/array.hpp:108-130, 308-326: the answers *)
Inductive cans := Answered (a : ans) | Said (b : bool) | Saw (n : N) (l : list A) | NoSuch.

(** include/solace/vector.hpp:307-335, array.hpp:318-326: operators == and != *)
Definition compared (neg : bool) (w : world A) (i j : nat) : outcome (world A * list life * cans) :=
  match get (w_objs w) i, get (w_objs w) j with
  | Some (k, c), Some (k', c') =>
      if Bool.eqb (is_vec k) (is_vec k') then
        let! b := cont_equals (Nat.eqb i j) c c' in Ret (w, [], Said (if neg then negb b else b))
      else Ret (w, [], NoSuch)
  | _, _ => Ret (w, [], NoSuch)
  end.

Definition vc_step (w : world A) (o : vcop) : outcome (world A * list life * cans) :=
  match o with
  | Plain o => let! p := cstep sz w o in let '(w', ev, a) := p in Ret (w', ev, Answered a)
  | CopyC i ok fail =>
      match get (w_objs w) i with
      | Some (k, c) =>
          let! p := (match k with Vec => vec_copy | Arr => arr_copy end) ok fail (w_next w) c in
          let '(r, ev, nx, a) := p in
          match r with
          | Some c' => Ret (add w k c' nx, ev, Answered a)
          | None => Ret (mkWorld (w_objs w) nx, ev, Answered a)
          end
      | None => Ret (w, [], NoSuch)
      end
  | EqualC i j => compared false w i j
  | DiffersC i j => compared true w i j
  | EqualList i vs =>
      match get (w_objs w) i with
      | Some (Arr, c) => let! b := arr_equals_list c vs in Ret (w, [], Said b)
      | _ => Ret (w, [], NoSuch)
      end
  | IsNull i => match get (w_objs w) i with Some (k, c) => Ret (w, [], Said (is_null k c)) | None => Ret (w, [], NoSuch) end
  | IsNotNull i => match get (w_objs w) i with Some (k, c) => Ret (w, [], Said (negb (is_null k c))) | None => Ret (w, [], NoSuch) end
  | LookC i =>
      match get (w_objs w) i with
      | Some (k, c) => let! l := contents_of sz c in Ret (w, [], Saw (c_n c) l)
      | None => Ret (w, [], NoSuch)
      end
  end.
Fixpoint vc_run (w : world A) (os : list vcop) : outcome (world A * list life * list cans) :=
  match os with
  | [] => Ret (w, [], [])
  | o :: t =>
      let! p := vc_step w o in
      let '(w1, ev, a) := p in
      let! q := vc_run w1 t in
      let '(w2, ev2, xs) := q in
      Ret (w2, ev ++ ev2, a :: xs)
  end.
End Values.
Arguments Plain {A}. Arguments CopyC {A}. Arguments EqualC {A}. Arguments DiffersC {A}. Arguments EqualList {A}.
Arguments IsNull {A}. Arguments IsNotNull {A}. Arguments LookC {A}.
Arguments Answered {A}. Arguments Said {A}. Arguments Saw {A}. Arguments NoSuch {A}.
