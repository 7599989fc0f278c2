(** Model of the comparison operators of Optional and Result with [none], with plain
    values and with each other, for payloads whose own operators may throw
    (include/solace/optional.hpp:336-391, include/solace/result.hpp:917-973). *)
From Verif Require Import Base OptResModel.

(** A comparison operator of a payload type. *)
(** include/solace/optional.hpp:351-384: what is used of T *)
Definition cmp (A : Type) := A -> A -> outcome bool.

(** include/solace/optional.hpp:336-337 *)
Definition none_eq_none : bool := true.
Definition none_ne_none : bool := false.
(** include/solace/optional.hpp:339-343, both orders *)
Definition opt_eq_none {A} (o : optional A) : bool := opt_isNone o.
(** include/solace/optional.hpp:345-349, both orders *)
Definition opt_ne_none {A} (o : optional A) : bool := opt_isSome o.

(** include/solace/optional.hpp:351-360 operator==, declared noexcept; [same]: both
    operands are one object *)
Definition optx_eq {A} (eq : cmp A) (same : bool) (a b : optional A) : outcome bool :=
  noexcept (
    if same then Ret true else
    if opt_isSome a && opt_isSome b
    then let! x := opt_get a in let! y := opt_get b in eq x y
    else Ret (opt_isNone a && opt_isNone b)).
(** include/solace/optional.hpp:362-371 operator!=, not noexcept; [ne]: operator!= of T *)
Definition optx_ne {A} (ne : cmp A) (same : bool) (a b : optional A) : outcome bool :=
  if same then Ret false else
  if opt_isSome a && opt_isSome b
  then let! x := opt_deref a in let! y := opt_deref b in ne x y
  else Ret (negb (opt_isNone a && opt_isNone b)).
(** include/solace/optional.hpp:374-378, both orders: the payload is on the left *)
Definition optx_eq_value {A} (eq : cmp A) (a : optional A) (v : A) : outcome bool :=
  if opt_isSome a then let! x := opt_deref a in eq x v else Ret false.
(** include/solace/optional.hpp:380-384, both orders *)
Definition optx_ne_value {A} (ne : cmp A) (a : optional A) (v : A) : outcome bool :=
  if opt_isNone a then Ret true else let! x := opt_deref a in ne x v.
(** include/solace/optional.hpp:387-391 operator||: the value of the Optional or the
    other operand *)
Definition opt_or {A} (a : optional A) (v : A) : outcome A := opt_orElse a v.

(** include/solace/result.hpp:917-921, both orders *)
Definition void_eq_none {E} (r : optional E) : bool := void_isOk r.
(** include/solace/result.hpp:923-927, both orders *)
Definition void_ne_none {E} (r : optional E) : bool := negb (void_isOk r).
(** include/solace/result.hpp:930-938, both orders *)
Definition resx_eq_ok {V E} (eq : cmp V) (r : resultv V E) (v : V) : outcome bool :=
  if res_isOk r then let! x := res_unwrap r in eq x v else Ret false.
(** include/solace/result.hpp:940-948, both orders *)
Definition resx_eq_err {V E} (eq : cmp E) (r : resultv V E) (e : E) : outcome bool :=
  if res_isError r then let! x := res_getError r in eq x e else Ret false.
(** include/solace/result.hpp:951-955 operator==, declared noexcept *)
Definition resx_eq {V E} (veq : cmp V) (eeq : cmp E) (a b : resultv V E) : outcome bool :=
  noexcept (
    let! l := (if res_isOk a && res_isOk b then let! x := res_unwrap a in let! y := res_unwrap b in veq x y else Ret false) in
    if l : bool then Ret true else
    if res_isError a && res_isError b then let! x := res_getError a in let! y := res_getError b in eeq x y else Ret false).
(** include/solace/result.hpp:957-961 operator== of Result<void, E>, declared noexcept *)
Definition voidx_eq {E} (eeq : cmp E) (a b : optional E) : outcome bool :=
  noexcept (
    if void_isOk a && void_isOk b then Ret true else
    if negb (void_isOk a) && negb (void_isOk b)
    then let! x := opt_get a in let! y := opt_get b in eeq x y
    else Ret false).
(** include/solace/result.hpp:963-967: a plain value on the left; the payload is the left
    operand of its operator *)
Definition resx_eq_value {V E} (eq : cmp V) (v : V) (r : resultv V E) : outcome bool :=
  if res_isOk r then let! x := res_unwrap r in eq x v else Ret false.
(** include/solace/result.hpp:969-973 *)
Definition resx_ne_value {V E} (ne : cmp V) (v : V) (r : resultv V E) : outcome bool :=
  if res_isError r then Ret true else let! x := res_unwrap r in ne x v.
