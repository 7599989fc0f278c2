(** Model of Optional<T> and Result<V, E> (include/solace/optional.hpp, result.hpp).

    Both are tagged unions: a flag that says which alternative is there, and storage that
    is raw memory or holds an object.  Looking at raw storage, or at the alternative that
    is not there, is undefined behaviour and a distinct outcome. *)
From Verif Require Import Base MemoryModel.

(** include/solace/optional.hpp:324-328 *)
Record optional (A : Type) := mkOpt { engaged : bool; storage : option A }.
Arguments mkOpt {A}. Arguments engaged {A}. Arguments storage {A}.
(** include/solace/result.hpp:588-603 *)
Inductive either (V E : Type) := Raw | HasValue (v : V) | HasError (e : E).
Arguments Raw {V E}. Arguments HasValue {V E}. Arguments HasError {V E}.
Record resultv (V E : Type) := mkRes { r_ok : bool; r_store : either V E }.
Arguments mkRes {V E}. Arguments r_ok {V E}. Arguments r_store {V E}.

Definition opt_payload {A} (o : optional A) : outcome A := match storage o with Some a => Ret a | None => UB end.
Definition res_value {V E} (r : resultv V E) : outcome V := match r_store r with HasValue v => Ret v | _ => UB end.
Definition res_error {V E} (r : resultv V E) : outcome E := match r_store r with HasError e => Ret e | _ => UB end.

(** * Optional: combinators

    A callback is a function into [outcome] (it may throw).  One that is handed a mutable
    reference or an rvalue reference also says what it leaves in the payload.  The last
    component of a result is the list of values callbacks were called with. *)

(** include/solace/optional.hpp:100-108, 298-305 *)
Definition opt_none {A} : optional A := mkOpt false None.
Definition opt_of {A} (v : A) : optional A := mkOpt true (Some v).
Definition opt_isSome {A} (o : optional A) : bool := engaged o.
Definition opt_isNone {A} (o : optional A) : bool := negb (engaged o).
(** include/solace/optional.hpp:110-132: from an Optional of a type D convertible to T *)
Definition opt_convert {D T} (conv : D -> outcome T) (o : optional D) : outcome (optional T) :=
  if opt_isSome o then let! d := opt_payload o in let! t := conv d in Ret (opt_of t) else Ret opt_none.
(** include/solace/optional.hpp:203-226 get, move *)
Definition opt_get {A} (o : optional A) : outcome A := if opt_isNone o then Throws InvalidState else opt_payload o.
(** include/solace/optional.hpp:200-201 operator*, declared noexcept *)
Definition opt_deref {A} (o : optional A) : outcome A := noexcept (opt_get o).
(** include/solace/optional.hpp:228-234 *)
Definition opt_orElse {A} (o : optional A) (t : A) : outcome A := if opt_isNone o then Ret t else opt_payload o.
(** include/solace/optional.hpp:236-250 map, for a callback whose result is not an Optional *)
Definition opt_map {A B} (o : optional A) (f : A -> outcome (B * A)) : outcome (optional B * optional A * list A) :=
  if opt_isSome o then
    let! a := opt_payload o in
    let! p := f a in
    Ret (opt_of (fst p), mkOpt (engaged o) (Some (snd p)), [a])
  else Ret (opt_none, o, []).
(** include/solace/optional.hpp:236-250 map, for a callback that returns Optional<W>: the
    expression Optional<Optional<W>>{f(_payload)} picks the converting constructor of
    lines 126-132, which is more specialised than the one from any value (134-137). *)
Definition opt_map_nested {A W} (o : optional A) (f : A -> outcome (optional W * A))
  : outcome (optional (optional W) * optional A * list A) :=
  if opt_isSome o then
    let! a := opt_payload o in
    let! p := f a in
    let! r := opt_convert (fun w => Ret (opt_of w)) (fst p) in
    Ret (r, mkOpt (engaged o) (Some (snd p)), [a])
  else Ret (opt_none, o, []).
(** include/solace/optional.hpp:253-282 flatMap (const&, && and & overloads) *)
Definition opt_flatMap {A B} (o : optional A) (f : A -> outcome (optional B * A)) : outcome (optional B * optional A * list A) :=
  if opt_isSome o then
    let! a := opt_payload o in
    let! p := f a in
    Ret (fst p, mkOpt (engaged o) (Some (snd p)), [a])
  else Ret (opt_none, o, []).
(** include/solace/optional.hpp:284-289 filter *)
Definition opt_filter {A} (o : optional A) (p : A -> outcome bool) : outcome (optional A * list A) :=
  if opt_isSome o then
    let! a := opt_payload o in
    let! b := p a in
    Ret (if b : bool then o else opt_none, [a])
  else Ret (opt_none, []).

(** include/solace/optional.hpp:351-360 operator==; [same]: both arguments are one object *)
Definition opt_eq {A} (eqb : A -> A -> bool) (same : bool) (a b : optional A) : outcome bool :=
  if same then Ret true else
  if opt_isSome a && opt_isSome b then
    noexcept (let! x := opt_get a in let! y := opt_get b in Ret (eqb x y))
  else Ret (opt_isNone a && opt_isNone b).
(** include/solace/optional.hpp:362-371 operator!=; [neb]: the payload's operator!= *)
Definition opt_ne {A} (neb : A -> A -> bool) (same : bool) (a b : optional A) : outcome bool :=
  if same then Ret false else
  if opt_isSome a && opt_isSome b then
    let! x := opt_deref a in let! y := opt_deref b in Ret (neb x y)
  else Ret (negb (opt_isNone a && opt_isNone b)).
(** include/solace/optional.hpp:374-384 comparisons with a value *)
Definition opt_eq_value {A} (eqb : A -> A -> bool) (a : optional A) (v : A) : outcome bool :=
  if opt_isSome a then let! x := opt_deref a in Ret (eqb x v) else Ret false.
Definition opt_ne_value {A} (neb : A -> A -> bool) (a : optional A) (v : A) : outcome bool :=
  if opt_isNone a then Ret true else let! x := opt_deref a in Ret (neb x v).

(** * Result: combinators *)
(** include/solace/result.hpp:77-89, 276-279 *)
Definition res_of {V E} (v : V) : resultv V E := mkRes true (HasValue v).
(** include/solace/result.hpp:98-102, 282-285 *)
Definition res_err {V E} (e : E) : resultv V E := mkRes false (HasError e).
(** include/solace/result.hpp:337-339 *)
Definition res_isOk {V E} (r : resultv V E) : bool := r_ok r.
(** include/solace/result.hpp:341-343 *)
Definition res_isError {V E} (r : resultv V E) : bool := negb (r_ok r).
(** include/solace/result.hpp:345-404 unwrap, operator*, moveResult, getError, moveError *)
Definition res_unwrap {V E} (r : resultv V E) : outcome V := if res_isError r then Throws InvalidState else res_value r.
Definition res_getError {V E} (r : resultv V E) : outcome E := if res_isOk r then Throws InvalidState else res_error r.

(** Which continuation was called, and with what. *)
(** include/solace/result.hpp:414-477: a callback called *)
Inductive call (V E : Type) := OnValue (v : V) | OnError (e : E).
Arguments OnValue {V E}. Arguments OnError {V E}.

(** include/solace/result.hpp:414-448 then, for a callback that returns a Result (three
    overloads; [conv]: the error handed to the result's error type) *)
Definition res_then {V E W F} (conv : E -> F) (r : resultv V E) (f : V -> outcome (resultv W F)) : outcome (resultv W F * list (call V E)) :=
  if res_isOk r then let! v := res_value r in let! x := f v in Ret (x, [OnValue v])
  else let! e := res_error r in Ret (res_err (conv e), []).
(** include/solace/result.hpp:451-461 then, for a callback that returns a plain value *)
Definition res_then_value {V E W} (r : resultv V E) (f : V -> outcome W) : outcome (resultv W E * list (call V E)) :=
  if res_isOk r then let! v := res_value r in let! x := f v in Ret (res_of x, [OnValue v])
  else let! e := res_error r in Ret (res_err e, []).
(** include/solace/result.hpp:464-477 then, for a callback that returns nothing: a
    Result<void, E>, which is an Optional<E> (result.hpp:912-913) *)
Definition res_then_void {V E} (r : resultv V E) (f : V -> outcome unit) : outcome (optional E * list (call V E)) :=
  if res_isOk r then let! v := res_unwrap r in let! _ := f v in Ret (opt_none, [OnValue v])
  else let! e := res_error r in Ret (opt_of e, []).
(** include/solace/result.hpp:482-492 orElse, for a callback that returns a Result
    ([conv]: the value handed to the result's value type) *)
Definition res_orElse {V E W F} (conv : V -> W) (r : resultv V E) (f : E -> outcome (resultv W F)) : outcome (resultv W F * list (call V E)) :=
  if res_isOk r then let! v := res_unwrap r in Ret (res_of (conv v), [])
  else let! e := res_getError r in let! x := f e in Ret (x, [OnError e]).
(** include/solace/result.hpp:495-504 orElse, for a callback that returns a plain value *)
Definition res_orElse_value {V E W} (conv : V -> W) (r : resultv V E) (f : E -> outcome W) : outcome (resultv W E * list (call V E)) :=
  if res_isOk r then let! v := res_unwrap r in Ret (res_of (conv v), [])
  else let! e := res_getError r in let! x := f e in Ret (res_of x, [OnError e]).
(** include/solace/result.hpp:512-543 mapError (three overloads) *)
Definition res_mapError {V E F} (r : resultv V E) (f : E -> outcome F) : outcome (resultv V F * list (call V E)) :=
  if res_isOk r then let! v := res_unwrap r in Ret (res_of v, [])
  else let! e := res_getError r in let! x := f e in Ret (res_err x, [OnError e]).

(** Result<void, E>, an Optional<E> that is empty when all is well (result.hpp:608-914). *)
Definition void_isOk {E} (r : optional E) : bool := opt_isNone r.
(** include/solace/result.hpp:763-785 *)
Definition void_then {E W F} (conv : E -> F) (r : optional E) (f : unit -> outcome (resultv W F)) : outcome (resultv W F * list (call unit E)) :=
  if void_isOk r then let! x := f tt in Ret (x, [OnValue tt])
  else let! e := opt_get r in Ret (res_err (conv e), []).
(** include/solace/result.hpp:789-811 *)
Definition void_then_value {E W} (r : optional E) (f : unit -> outcome W) : outcome (resultv W E * list (call unit E)) :=
  if void_isOk r then let! x := f tt in Ret (res_of x, [OnValue tt])
  else let! e := opt_get r in Ret (res_err e, []).
(** include/solace/result.hpp:814-840 *)
Definition void_then_void {E} (r : optional E) (f : unit -> outcome unit) : outcome (optional E * list (call unit E)) :=
  if void_isOk r then let! _ := f tt in Ret (opt_none, [OnValue tt])
  else let! e := opt_get r in Ret (opt_of e, []).
(** include/solace/result.hpp:844-853 (for a callback that returns a Result<void, F>) *)
Definition void_orElse {E F} (r : optional E) (f : E -> outcome (optional F)) : outcome (optional F * list (call unit E)) :=
  if void_isOk r then Ret (opt_none, [])
  else let! e := opt_get r in let! x := f e in Ret (x, [OnError e]).
(** include/solace/result.hpp:866-877 (for a callback that returns nothing) *)
Definition void_orElse_void {E} (r : optional E) (f : E -> outcome unit) : outcome (optional E * list (call unit E)) :=
  if void_isOk r then Ret (opt_none, [])
  else let! e := opt_get r in let! _ := f e in Ret (opt_none, [OnError e]).
(** include/solace/result.hpp:886-896 *)
Definition void_mapError {E F} (r : optional E) (f : E -> outcome F) : outcome (optional F * list (call unit E)) :=
  if void_isOk r then Ret (opt_none, [])
  else let! e := opt_get r in let! x := f e in Ret (opt_of x, [OnError e]).

(** include/solace/result.hpp:951-955 operator==, declared noexcept *)
Definition res_eq {V E} (veq : V -> V -> bool) (eeq : E -> E -> bool) (a b : resultv V E) : outcome bool :=
  noexcept (
    let! l := (if res_isOk a && res_isOk b then let! x := res_unwrap a in let! y := res_unwrap b in Ret (veq x y) else Ret false) in
    if l : bool then Ret true else
    if res_isError a && res_isError b then let! x := res_getError a in let! y := res_getError b in Ret (eeq x y) else Ret false).
(** include/solace/result.hpp:930-948 comparisons with Ok(v) and Err(e) *)
Definition res_eq_ok {V E} (veq : V -> V -> bool) (a : resultv V E) (v : V) : outcome bool :=
  if res_isOk a then let! x := res_unwrap a in Ret (veq x v) else Ret false.
Definition res_eq_err {V E} (eeq : E -> E -> bool) (a : resultv V E) (e : E) : outcome bool :=
  if res_isError a then let! x := res_getError a in Ret (eeq x e) else Ret false.

(** * Lifetimes

    A program with any number of Optional<T> and Result<V, E> objects.  A payload is an
    object: the number of its construction and its value.  [mvd v] is what is left of the
    value [v] after moving from it.  [nm]: the payload's move constructor is noexcept.  The
    values and the errors of Results share the type [A] (simplification). *)
(** include/solace/optional.hpp:298-313, include/solace/result.hpp:547-581: construction, use and destruction of a payload *)
Inductive life := Born (id : nat) | Used (id : nat) | Died (id : nat).
Notation pl A := (nat * A)%type (only parsing).
(** include/solace/optional.hpp:87, include/solace/result.hpp:200 *)
Inductive obj (A : Type) := OOpt (o : optional (pl A)) | ORes (r : resultv (pl A) (pl A)).
Arguments OOpt {A}. Arguments ORes {A}.
(** include/solace/optional.hpp:87, include/solace/result.hpp:200: the objects of a program *)
Record oworld (A : Type) := mkOW { ow_objs : list (option (obj A)); ow_next : nat }.
Arguments mkOW {A}. Arguments ow_objs {A}. Arguments ow_next {A}.
(** include/solace/optional.hpp:87, include/solace/result.hpp:200: none at the start *)
Definition oworld0 {A} : oworld A := mkOW [] 0.

(** include/solace/optional.hpp:307-313 destroy *)
Definition o_destroy {A} (o : optional (pl A)) : outcome (optional (pl A) * list life) :=
  if engaged o then
    match storage o with Some p => Ret (mkOpt false None, [Died (fst p)]) | None => UB end
  else Ret (o, []).
(** include/solace/optional.hpp:298-305 construct from a value that is at hand *)
Definition o_construct {A} (o : optional (pl A)) (next : nat) (v : A) : optional (pl A) := mkOpt true (Some (next, v)).
(** include/solace/result.hpp:547-553 destroy: the flag says which alternative *)
Definition r_destroy {A} (r : resultv (pl A) (pl A)) : outcome (resultv (pl A) (pl A) * list life) :=
  match r_ok r, r_store r with
  | true, HasValue p => Ret (mkRes true Raw, [Died (fst p)])
  | false, HasError p => Ret (mkRes false Raw, [Died (fst p)])
  | _, _ => UB
  end.
(** include/solace/result.hpp:555-569 emplaceValue, emplaceError *)
Definition r_emplace {A} (ok : bool) (next : nat) (v : A) : resultv (pl A) (pl A) :=
  mkRes ok (if ok then HasValue (next, v) else HasError (next, v)).
(** The alternative that the flag of the result says is there. *)
(** include/solace/result.hpp:225-236, 599-603: what is moved *)
Definition r_payload {A} (r : resultv (pl A) (pl A)) : outcome (pl A) := if res_isOk r then res_value r else res_error r.
(** include/solace/result.hpp:225-236, 599-603: what is left *)
Definition r_leave {A} (r : resultv (pl A) (pl A)) (p : pl A) : resultv (pl A) (pl A) :=
  mkRes (r_ok r) (if r_ok r then HasValue p else HasError p).

(** include/solace/optional.hpp:93-289, include/solace/result.hpp:213-403: the operations *)
Inductive oop (A : Type) :=
| OptEmpty
| OptOf (arg : option A)             (** from a value; None: its constructor throws *)
| OptInPlace (arg : option A)
| OptCopy (i : nat) (fail : bool) | OptMove (i : nat) (fail : bool)
| OptReset (i : nat)                 (** = none *)
| OptSwap (i j : nat) (fail : bool)  (** swap and move assignment *)
| OptAssign (i : nat) (v : A) (fail : bool)        (** = T&&, a value from elsewhere *)
| OptAssignFrom (i j : nat) (fail : bool)          (** i = j.move() *)
| OptGet (i : nat)
| ResOk (arg : option A) | ResErr (arg : option A) (** okTag/errTag and a value *)
| ResOkInPlace (arg : option A) | ResErrInPlace (arg : option A)
| ResMove (i : nat) (fail : bool)
| ResSwap (i j : nat) (fail : bool)  (** swap and move assignment *)
| ResUnwrap (i : nat) | ResGetError (i : nat)
| DropO (i : nat).
Arguments OptEmpty {A}. Arguments OptOf {A}. Arguments OptInPlace {A}. Arguments OptCopy {A}. Arguments OptMove {A}.
Arguments OptReset {A}. Arguments OptSwap {A}. Arguments OptAssign {A}. Arguments OptAssignFrom {A}. Arguments OptGet {A}.
Arguments ResOk {A}. Arguments ResErr {A}. Arguments ResOkInPlace {A}. Arguments ResErrInPlace {A}. Arguments ResMove {A}.
Arguments ResSwap {A}. Arguments ResUnwrap {A}. Arguments ResGetError {A}. Arguments DropO {A}.

(** include/solace/optional.hpp:196-234, include/solace/result.hpp:333-403: the answers *)
Inductive oans (A : Type) := ODone | OGot (v : A) | ORaised (x : exn).
Arguments ODone {A}. Arguments OGot {A}. Arguments ORaised {A}.

(** include/solace/optional.hpp:87, include/solace/result.hpp:200: an object changed *)
Definition oput {A} (l : list (option (obj A))) (i : nat) (x : obj A) := upd l i (Some x).
(** A move throws only if the move constructor is not noexcept. *)
(** include/solace/optional.hpp:110-190, include/solace/result.hpp:225-304: a move constructor that throws *)
Definition mthrow (nm fail : bool) : bool := fail && negb nm.

(** include/solace/optional.hpp:149-169 swap, declared noexcept.  Two payloads are swapped
    by std::swap: a temporary, two assignments. *)
Definition opt_swap {A} (mvd : A -> A) (l : list (option (obj A))) (i j : nat) (next : nat) : outcome (list (option (obj A)) * list life * nat) :=
  match get l i, get l j with
  | Some (OOpt o), Some (OOpt r) =>
      let rhsSome := opt_isSome r in
      if opt_isSome o then
        if rhsSome then
          (* T tmp = mv(rhs) *)
          let! p := opt_payload r in
          let l1 := oput l j (OOpt (mkOpt (engaged r) (Some (fst p, mvd (snd p))))) in
          (* rhs = mv(lhs) *)
          match get l1 i with
          | Some (OOpt o1) =>
              let! q := opt_payload o1 in
              let l2 := oput l1 i (OOpt (mkOpt (engaged o1) (Some (fst q, mvd (snd q))))) in
              let l3 := oput l2 j (OOpt (mkOpt (engaged r) (Some (fst p, snd q)))) in
              (* lhs = mv(tmp) *)
              let l4 := oput l3 i (OOpt (mkOpt (engaged o) (Some (fst q, snd p)))) in
              Ret (l4, [Used (fst p); Born next; Used (fst q); Used (fst p); Used next; Used (fst q); Died next], S next)
          | _ => UB
          end
        else
          let! p := opt_payload o in
          let l1 := oput l j (OOpt (o_construct r next (snd p))) in
          let! d := o_destroy (mkOpt (engaged o) (Some (fst p, mvd (snd p)))) in
          Ret (oput l1 i (OOpt (fst d)), [Used (fst p); Born next] ++ snd d, S next)
      else
        if rhsSome then
          let! p := opt_payload r in
          let l1 := oput l i (OOpt (o_construct o next (snd p))) in
          let! d := o_destroy (mkOpt (engaged r) (Some (fst p, mvd (snd p)))) in
          Ret (oput l1 j (OOpt (fst d)), [Used (fst p); Born next] ++ snd d, S next)
        else Ret (l, [], next)
  | _, _ => Ret (l, [], next)
  end.

(** include/solace/result.hpp:308-331 swap, declared noexcept *)
Definition res_swap {A} (mvd : A -> A) (l : list (option (obj A))) (i j : nat) (next : nat) : outcome (list (option (obj A)) * list life * nat) :=
  match get l i, get l j with
  | Some (ORes a), Some (ORes b) =>
      (* StoredValue_type v{mv(_value)} or StoredError_type e{mv(_error)} *)
      let! p := r_payload a in
      let l1 := oput l i (ORes (r_leave a (fst p, mvd (snd p)))) in
      (* constructValue/constructError(mv(rhs...)): destroy, then build from rhs *)
      match get l1 i with
      | Some (ORes a1) =>
          let! d := r_destroy a1 in
          let l2 := oput l1 i (ORes (fst d)) in
          match get l2 j with
          | Some (ORes b2) =>
              let! q := r_payload b2 in
              let l3 := oput l2 j (ORes (r_leave b2 (fst q, mvd (snd q)))) in
              let l4 := oput l3 i (ORes (r_emplace (r_ok b2) (S next) (snd q))) in
              (* rhs.constructValue/constructError(mv(v)) *)
              match get l4 j with
              | Some (ORes b4) =>
                  let! d' := r_destroy b4 in
                  let l5 := oput l4 j (ORes (r_emplace (r_ok a) (S (S next)) (snd p))) in
                  Ret (l5, [Used (fst p); Born next] ++ snd d ++ [Used (fst q); Born (S next)] ++ snd d' ++
                           [Used next; Born (S (S next)); Died next], S (S (S next)))
              | _ => UB
              end
          | _ => UB
          end
      | _ => UB
      end
  | _, _ => Ret (l, [], next)
  end.

(** include/solace/optional.hpp:149-169: swap moves something, whose constructor can throw *)
Definition opt_swap_moves {A} (l : list (option (obj A))) (i j : nat) : bool :=
  match get l i, get l j with Some (OOpt o), Some (OOpt r) => opt_isSome o || opt_isSome r | _, _ => false end.
(** include/solace/result.hpp:308-331: swap moves something *)
Definition res_swap_moves {A} (l : list (option (obj A))) (i j : nat) : bool :=
  match get l i, get l j with Some (ORes _), Some (ORes _) => true | _, _ => false end.

(** include/solace/optional.hpp:87, include/solace/result.hpp:200: an object made *)
Definition oadd {A} (w : oworld A) (x : obj A) (next : nat) : oworld A := mkOW (ow_objs w ++ [Some x]) next.
(** include/solace/optional.hpp:87, include/solace/result.hpp:200: no such object *)
Definition oskip {A} (w : oworld A) : outcome (oworld A * list life * oans A) := Ret (w, [], ODone).
(** A constructor given its argument; [ne]: it is declared noexcept. *)
(** include/solace/optional.hpp:134-146, include/solace/result.hpp:276-304: construction *)
Definition omake {A} (w : oworld A) (ne : bool) (arg : option A) (mk : nat -> A -> obj A) : outcome (oworld A * list life * oans A) :=
  match arg with
  | Some v => Ret (oadd w (mk (ow_next w) v) (S (ow_next w)), [Born (ow_next w)], ODone)
  | None => if ne then Terminates else Ret (w, [], ORaised UserException)
  end.

(** One operation; those on objects that do not exist (any more), or of the wrong class,
    cannot be written and are skipped. *)
(** include/solace/optional.hpp:93-289, include/solace/result.hpp:213-403; lines per case below *)
Definition ostep {A} (mvd : A -> A) (nm : bool) (w : oworld A) (o : oop A) : outcome (oworld A * list life * oans A) :=
  let l := ow_objs w in let next := ow_next w in
  match o with
  | OptEmpty => Ret (oadd w (OOpt opt_none) next, [], ODone)
  | OptOf arg =>
      (* include/solace/optional.hpp:134-137 *)
      omake w nm arg (fun n v => OOpt (o_construct opt_none n v))
  | OptInPlace arg =>
      (* include/solace/optional.hpp:142-146 *)
      omake w nm arg (fun n v => OOpt (mkOpt true (Some (n, v))))
  | OptCopy i fail =>
      (* include/solace/optional.hpp:110-124 *)
      match get l i with
      | Some (OOpt x) =>
          if opt_isSome x then
            let! p := opt_payload x in
            if fail then Ret (w, [Used (fst p)], ORaised UserException)
            else Ret (oadd w (OOpt (o_construct opt_none next (snd p))) (S next), [Used (fst p); Born next], ODone)
          else Ret (oadd w (OOpt opt_none) next, [], ODone)
      | _ => oskip w
      end
  | OptMove i fail =>
      (* include/solace/optional.hpp:126-132 *)
      match get l i with
      | Some (OOpt x) =>
          if opt_isSome x then
            let! p := opt_payload x in
            if mthrow nm fail then Ret (w, [Used (fst p)], ORaised UserException)
            else Ret (mkOW (oput l i (OOpt (mkOpt (engaged x) (Some (fst p, mvd (snd p))))) ++ [Some (OOpt (o_construct opt_none next (snd p)))]) (S next),
                      [Used (fst p); Born next], ODone)
          else Ret (oadd w (OOpt opt_none) next, [], ODone)
      | _ => oskip w
      end
  | OptReset i =>
      (* include/solace/optional.hpp:172-176 *)
      match get l i with
      | Some (OOpt x) => let! d := o_destroy x in Ret (mkOW (oput l i (OOpt (fst d))) next, snd d, ODone)
      | _ => oskip w
      end
  | OptSwap i j fail =>
      if mthrow nm fail && opt_swap_moves l i j then Terminates else
      let! p := opt_swap mvd l i j next in
      let '(l', ev, nx) := p in Ret (mkOW l' nx, ev, ODone)
  | OptAssign i v fail =>
      (* include/solace/optional.hpp:185-190 *)
      match get l i with
      | Some (OOpt x) =>
          let! d := o_destroy x in
          if mthrow nm fail then Ret (mkOW (oput l i (OOpt (fst d))) next, snd d, ORaised UserException)
          else Ret (mkOW (oput l i (OOpt (o_construct (fst d) next v))) (S next), snd d ++ [Born next], ODone)
      | _ => oskip w
      end
  | OptAssignFrom i j fail =>
      (* include/solace/optional.hpp:185-190, 220-226 *)
      match get l i, get l j with
      | Some (OOpt x), Some (OOpt y) =>
          match opt_get y with
          | Throws e => Ret (w, [], ORaised e)
          | Ret _ =>
              let! d := o_destroy x in
              let l1 := oput l i (OOpt (fst d)) in
              match get l1 j with
              | Some (OOpt y1) =>
                  let! p := opt_payload y1 in
                  if mthrow nm fail then Ret (mkOW l1 next, snd d ++ [Used (fst p)], ORaised UserException)
                  else
                    let l2 := oput l1 j (OOpt (mkOpt (engaged y1) (Some (fst p, mvd (snd p))))) in
                    Ret (mkOW (oput l2 i (OOpt (o_construct (fst d) next (snd p)))) (S next), snd d ++ [Used (fst p); Born next], ODone)
              | _ => UB
              end
          | _ => UB
          end
      | _, _ => oskip w
      end
  | OptGet i =>
      match get l i with
      | Some (OOpt x) => match opt_get x with Ret p => Ret (w, [Used (fst p)], OGot (snd p)) | Throws e => Ret (w, [], ORaised e) | _ => UB end
      | _ => oskip w
      end
  | ResOk arg =>
      (* include/solace/result.hpp:276-279 *)
      omake w nm arg (fun n v => ORes (r_emplace true n v))
  | ResErr arg =>
      (* include/solace/result.hpp:282-285 *)
      omake w nm arg (fun n v => ORes (r_emplace false n v))
  | ResOkInPlace arg =>
      (* include/solace/result.hpp:288-291: not noexcept *)
      omake w false arg (fun n v => ORes (r_emplace true n v))
  | ResErrInPlace arg =>
      (* include/solace/result.hpp:293-296 *)
      omake w false arg (fun n v => ORes (r_emplace false n v))
  | ResMove i fail =>
      (* include/solace/result.hpp:225-228 *)
      match get l i with
      | Some (ORes r) =>
          let! p := r_payload r in
          if mthrow nm fail then Ret (w, [Used (fst p)], ORaised UserException)
          else Ret (mkOW (oput l i (ORes (r_leave r (fst p, mvd (snd p)))) ++ [Some (ORes (r_emplace (r_ok r) next (snd p)))]) (S next),
                    [Used (fst p); Born next], ODone)
      | _ => oskip w
      end
  | ResSwap i j fail =>
      if mthrow nm fail && res_swap_moves l i j then Terminates else
      let! p := res_swap mvd l i j next in
      let '(l', ev, nx) := p in Ret (mkOW l' nx, ev, ODone)
  | ResUnwrap i =>
      match get l i with
      | Some (ORes r) => match res_unwrap r with Ret p => Ret (w, [Used (fst p)], OGot (snd p)) | Throws e => Ret (w, [], ORaised e) | _ => UB end
      | _ => oskip w
      end
  | ResGetError i =>
      match get l i with
      | Some (ORes r) => match res_getError r with Ret p => Ret (w, [Used (fst p)], OGot (snd p)) | Throws e => Ret (w, [], ORaised e) | _ => UB end
      | _ => oskip w
      end
  | DropO i =>
      (* include/solace/optional.hpp:93-95, result.hpp:213-215 *)
      match get l i with
      | Some (OOpt x) => let! d := o_destroy x in Ret (mkOW (upd l i None) next, snd d, ODone)
      | Some (ORes r) => let! d := r_destroy r in Ret (mkOW (upd l i None) next, snd d, ODone)
      | None => oskip w
      end
  end.
Fixpoint orun {A} (mvd : A -> A) (nm : bool) (w : oworld A) (ops : list (oop A)) : outcome (oworld A * list life * list (oans A)) :=
  match ops with
  | [] => Ret (w, [], [])
  | o :: ops' =>
      let! p := ostep mvd nm w o in
      let '(w1, ev, a) := p in
      let! q := orun mvd nm w1 ops' in
      let '(w2, ev2, as2) := q in Ret (w2, ev ++ ev2, a :: as2)
  end.
