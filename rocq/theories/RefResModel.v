(** Model of Result<T&, E> (include/solace/result.hpp), as Vector::emplace_back returns it.

    The value of such a result is a std::reference_wrapper<T>: a pointer, whose moves are
    copies.  Elements are numbered; a wrapper is the number of the element it refers to.
    The tagged union is that of OptResModel. *)
From Verif Require Import Base MemoryModel OptResModel.

(** include/solace/result.hpp:588-603, include/solace/vector.hpp:211-228: the elements there are, and the results *)
Record rrworld (A E : Type) := mkRR { rr_elems : list A; rr_vars : list (resultv nat E) }.
Arguments mkRR {A E}. Arguments rr_elems {A E}. Arguments rr_vars {A E}.

(** include/solace/result.hpp:213-541: the operations *)
Inductive rrop (A E : Type) :=
| RRBind (c : nat)                        (** Result<T&, E>{okTag, in_place, element} *)
| RRFail (e : E)                          (** Err(e) *)
| RRMove (i : nat)                        (** Result{mv(i)} *)
| RRAssign (i j : nat)                    (** i = mv(j), i.swap(j) *)
| RRRead (i : nat) | RRWrite (i : nat) (x : A) | RRGetError (i : nat)
| RRValue (i : nat)                       (** Result<T, E>{mv(i)} *)
| RRThen (i : nat) (f : A -> A * A)       (** f leaves the first in the element and returns the second *)
| RRMapError (i : nat) (f : E -> E)       (** a new result, i is an lvalue *)
| RROrElse (i : nat) (f : E -> nat).      (** a new result; f picks another element *)
Arguments RRBind {A E}. Arguments RRFail {A E}. Arguments RRMove {A E}. Arguments RRAssign {A E}. Arguments RRRead {A E}.
Arguments RRWrite {A E}. Arguments RRGetError {A E}. Arguments RRValue {A E}. Arguments RRThen {A E}. Arguments RRMapError {A E}. Arguments RROrElse {A E}.

(** include/solace/result.hpp:345-404: the answers; Result<T, E> is answered by what it holds *)
Inductive rrans (A E : Type) := RRDone | RRGot (x : A) | RRErr (e : E) | RRRaised (x : exn).
Arguments RRDone {A E}. Arguments RRGot {A E}. Arguments RRErr {A E}. Arguments RRRaised {A E}.

(** include/solace/result.hpp:213-304: a result that is there *)
Definition rr_get {A E} (w : rrworld A E) (i : nat) : outcome (resultv nat E) :=
  match nth_error (rr_vars w) i with Some r => Ret r | None => UB end.
(** include/solace/result.hpp:547-569: a result changed *)
Definition rr_put {A E} (w : rrworld A E) (i : nat) (r : resultv nat E) : rrworld A E := mkRR (rr_elems w) (upd (rr_vars w) i r).
(** include/solace/result.hpp:225-304: a new result *)
Definition rr_new {A E} (w : rrworld A E) (r : resultv nat E) : rrworld A E := mkRR (rr_elems w) (rr_vars w ++ [r]).
(** include/solace/result.hpp:345-366: the element a wrapper refers to, read *)
Definition rr_load {A E} (w : rrworld A E) (c : nat) : outcome A :=
  match nth_error (rr_elems w) c with Some x => Ret x | None => UB end.
(** include/solace/result.hpp:345-366: and written *)
Definition rr_store {A E} (w : rrworld A E) (c : nat) (x : A) : outcome (rrworld A E) :=
  let! _ := rr_load w c in Ret (mkRR (upd (rr_elems w) c x) (rr_vars w)).

(** include/solace/result.hpp:547-553 destroy: the flag says which alternative; afterwards the storage is raw *)
Definition rr_destroy {E} (r : resultv nat E) : outcome (resultv nat E) :=
  match r_ok r, r_store r with
  | true, HasValue _ => Ret (mkRes true Raw)
  | false, HasError _ => Ret (mkRes false Raw)
  | _, _ => UB
  end.
(** include/solace/result.hpp:571-581 constructValue, constructError of variable [i] from the payload of
    variable [j], which is looked at after the destruction and left as a move leaves it: a wrapper as it was, an error as [moved] says *)
Definition rr_take {A E} (moved : E -> E) (w : rrworld A E) (i j : nat) : outcome (rrworld A E) :=
  let! rhs := rr_get w j in
  let ok := res_isOk rhs in
  let! r := rr_get w i in
  let! r := rr_destroy r in
  let w := rr_put w i r in
  let! rhs := rr_get w j in
  if ok then let! v := res_value rhs in Ret (rr_put w i (res_of v))
  else let! e := res_error rhs in Ret (rr_put (rr_put w j (mkRes (r_ok rhs) (HasError (moved e)))) i (res_err e)).
(** include/solace/result.hpp:571-581 constructValue, constructError from a temporary *)
Definition rr_give {A E} (w : rrworld A E) (i : nat) (t : resultv nat E) : outcome (rrworld A E) :=
  let! r := rr_get w i in
  let! _ := rr_destroy r in
  Ret (rr_put w i t).
(** include/solace/result.hpp:307-329 swap, :238-240 move assignment.  A result swapped with itself is constructed from
    the payload it has just destroyed: undefined, also for wrappers, which no implementation would notice. *)
Definition rr_swap {A E} (moved : E -> E) (w : rrworld A E) (i j : nat) : outcome (rrworld A E) :=
  let! r := rr_get w i in
  if res_isOk r then
    let! v := res_value r in
    let! w := rr_take moved w i j in
    rr_give w j (res_of v)
  else
    let! e := res_error r in
    let w := rr_put w i (mkRes (r_ok r) (HasError (moved e))) in
    let! w := rr_take moved w i j in
    rr_give w j (res_err e).

(** include/solace/result.hpp:213-541: one operation *)
Definition rr_step {A E} (moved : E -> E) (w : rrworld A E) (o : rrop A E) : outcome (rrans A E * rrworld A E) :=
  match o with
  | RRBind c => (* vector.hpp:227, result.hpp:288-291 *)
      let! _ := rr_load w c in Ret (RRDone, rr_new w (res_of c))
  | RRFail e => (* vector.hpp:212-222, result.hpp:257-262 *)
      Ret (RRDone, rr_new w (res_err e))
  | RRMove i => (* result.hpp:225-228 *)
      let! r := rr_get w i in
      if res_isOk r then let! v := res_value r in Ret (RRDone, rr_new w (res_of v))
      else let! e := res_error r in Ret (RRDone, rr_new (rr_put w i (mkRes (r_ok r) (HasError (moved e)))) (res_err e))
  | RRAssign i j => let! w := rr_swap moved w i j in Ret (RRDone, w)
  | RRRead i => (* result.hpp:345-363 *)
      let! r := rr_get w i in
      if res_isError r then Ret (RRRaised InvalidState, w)
      else let! c := res_value r in let! x := rr_load w c in Ret (RRGot x, w)
  | RRWrite i x => (* result.hpp:345, 356-363: assignment to what unwrap returns *)
      let! r := rr_get w i in
      if res_isError r then Ret (RRRaised InvalidState, w)
      else let! c := res_value r in let! w := rr_store w c x in Ret (RRDone, w)
  | RRGetError i => (* result.hpp:389-403 *)
      let! r := rr_get w i in
      if res_isOk r then Ret (RRRaised InvalidState, w)
      else let! e := res_error r in Ret (RRErr e, w)
  | RRValue i => (* result.hpp:230-236: T is constructed from the wrapper, that is, from a T& *)
      let! r := rr_get w i in
      if res_isOk r then let! c := res_value r in let! x := rr_load w c in Ret (RRGot x, w)
      else let! e := res_error r in Ret (RRErr e, rr_put w i (mkRes (r_ok r) (HasError (moved e))))
  | RRThen i f => (* result.hpp:450-461: f is handed the element; it returns a value *)
      let! r := rr_get w i in
      if res_isOk r then
        let! c := res_value r in let! x := rr_load w c in
        let! w := rr_store w c (fst (f x)) in Ret (RRGot (snd (f x)), w)
      else let! e := res_error r in Ret (RRErr e, rr_put w i (mkRes (r_ok r) (HasError (moved e))))
  | RRMapError i f => (* result.hpp:523-531 *)
      let! r := rr_get w i in
      if res_isOk r then let! c := res_value r in Ret (RRDone, rr_new w (res_of c))
      else let! e := res_error r in Ret (RRDone, rr_new w (res_err (f e)))
  | RROrElse i f => (* result.hpp:482-492: f returns a Result<T&, E> *)
      let! r := rr_get w i in
      if res_isOk r then let! c := res_value r in Ret (RRDone, rr_new w (res_of c))
      else
        let! e := res_error r in
        let! _ := rr_load w (f e) in
        Ret (RRDone, rr_new (rr_put w i (mkRes (r_ok r) (HasError (moved e)))) (res_of (f e)))
  end.

(** include/solace/result.hpp:213-541: a program *)
Fixpoint rr_run {A E} (moved : E -> E) (w : rrworld A E) (os : list (rrop A E)) : outcome (list (rrans A E) * rrworld A E) :=
  match os with
  | [] => Ret ([], w)
  | o :: os =>
      let! p := rr_step moved w o in
      let! q := rr_run moved (snd p) os in
      Ret (fst p :: fst q, snd q)
  end.
(** include/solace/result.hpp:213-304: elements, and no results yet *)
Definition rr_start {A E} (elems : list A) : rrworld A E := mkRR elems [].
