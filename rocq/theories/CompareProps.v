(** C130: comparisons of Optionals and Results with [none], with values and with each
    other. *)
From Verif Require Import Base BaseLemmas OptResModel OptResSpec OptResProofs CompareModel.

Ltac is_opt H := apply opt_is_eq in H; subst.
Ltac is_res H := apply res_is_eq in H; subst.

(** What equality of two things that may be absent means, given the payload's equality;
    an exception of the payload's operator is its outcome. *)
Definition same_option {A} (eq : cmp A) (m n : option A) : outcome bool :=
  match m, n with Some x, Some y => eq x y | None, None => Ret true | _, _ => Ret false end.
Definition same_sum {V E} (veq : cmp V) (eeq : cmp E) (s t : V + E) : outcome bool :=
  match s, t with inl x, inl y => veq x y | inr x, inr y => eeq x y | _, _ => Ret false end.
(** The negation of a comparison that may throw. *)
Definition opposite (x : outcome bool) : outcome bool := let! b := x in Ret (negb b).

(** Every operator, for an Optional [a] that stands for [m] and another one, [b]. *)
Theorem C130_optional : forall A (eq ne : cmp A) (a b : optional A) m n v, opt_is a m -> opt_is b n ->
  optx_eq eq false a b = noexcept (same_option eq m n) /\
  optx_eq_value eq a v = same_option eq m (Some v) /\
  Ret (opt_eq_none a) = same_option eq m None /\ opt_ne_none a = negb (opt_eq_none a) /\
  opt_or a v = Ret (match m with Some x => x | None => v end) /\
  ((forall x y, ne x y = opposite (eq x y)) ->
     optx_ne ne false a b = opposite (same_option eq m n) /\ optx_ne_value ne a v = opposite (same_option eq m (Some v))).
Proof.
  intros A eq ne a b m n v H1 H2. is_opt H1. is_opt H2.
  destruct m, n; (split; [reflexivity|]); (split; [reflexivity|]); (split; [reflexivity|]); (split; [reflexivity|]);
    (split; [reflexivity|]); intros N; split; try reflexivity; cbn; apply N.
Qed.
Print Assumptions C130_optional.

(** Every operator, for Results. *)
Theorem C130_result : forall V E (veq vne : cmp V) (eeq : cmp E) (a b : resultv V E) s t v e, res_is a s -> res_is b t ->
  resx_eq veq eeq a b = noexcept (same_sum veq eeq s t) /\
  resx_eq_ok veq a v = same_sum veq eeq s (inl v) /\ resx_eq_err eeq a e = same_sum veq eeq s (inr e) /\
  resx_eq_value veq v a = same_sum veq eeq s (inl v) /\
  ((forall x y, vne x y = opposite (veq x y)) -> resx_ne_value vne v a = opposite (same_sum veq eeq s (inl v))).
Proof.
  intros V E veq vne eeq a b s t v e H1 H2. is_res H1. is_res H2.
  destruct s as [x|x], t as [y|y]; (split; [cbn|]); (try (split; [reflexivity|]; split; [reflexivity|]; split; [reflexivity|]; intros N; cbn; try apply N; reflexivity));
    try reflexivity.
  unfold resx_eq. cbn. destruct (veq x y) as [[]| | | |]; reflexivity.
Qed.
Print Assumptions C130_result.

(** ... and for Result<void, E>; [m]: the error, if any. *)
Theorem C130_void : forall E (eeq : cmp E) (a b : optional E) m n, opt_is a m -> opt_is b n ->
  voidx_eq eeq a b = noexcept (same_option eeq m n) /\
  Ret (void_eq_none a) = same_option eeq m None /\ void_ne_none a = negb (void_eq_none a) /\
  none_eq_none = true /\ none_ne_none = false.
Proof.
  intros E eeq a b m n H1 H2. is_opt H1. is_opt H2. destruct m, n; repeat split.
Qed.
Print Assumptions C130_void.

(** Comparing with a value is comparing with an Optional or a Result made of it; comparing
    with none is comparing with an empty one. *)
Theorem C130_mixed : forall A E (eq : cmp A) (eeq : cmp E) (a : optional A) m (r : resultv A E) s v e, opt_is a m -> res_is r s ->
  optx_eq eq false a (opt_of v) = noexcept (optx_eq_value eq a v) /\
  optx_eq eq false a opt_none = Ret (opt_eq_none a) /\
  resx_eq eq eeq r (res_of v) = noexcept (resx_eq_ok eq r v) /\
  resx_eq eq eeq r (res_err e) = noexcept (resx_eq_err eeq r e) /\
  resx_eq_value eq v r = resx_eq_ok eq r v.
Proof.
  intros A E eq eeq a m r s v e H1 H2. is_opt H1. is_res H2.
  destruct m, s as [x|x]; repeat split; unfold resx_eq; cbn; try reflexivity; destruct (eq x v) as [[]| | | |]; reflexivity.
Qed.
Print Assumptions C130_mixed.

(** If the payloads' equality is an equivalence relation (and does not throw), so are ==
    on Optionals, on Results and on Result<void, E>. *)
Definition equivalence {X} (eq : X -> X -> outcome bool) : Prop :=
  (forall x y, exists b, eq x y = Ret b) /\ (forall x, eq x x = Ret true) /\
  (forall x y, eq x y = eq y x) /\ (forall x y z, eq x y = Ret true -> eq y z = Ret true -> eq x z = Ret true).
Definition lawful {X} (ok : X -> Prop) (eq : X -> X -> outcome bool) : Prop :=
  (forall x y, ok x -> ok y -> exists b, eq x y = Ret b) /\ (forall x, ok x -> eq x x = Ret true) /\
  (forall x y, ok x -> ok y -> eq x y = eq y x) /\
  (forall x y z, ok x -> ok y -> ok z -> eq x y = Ret true -> eq y z = Ret true -> eq x z = Ret true).
Theorem C130_equivalence : forall V E (veq : cmp V) (eeq : cmp E), equivalence veq -> equivalence eeq ->
  lawful (fun a => exists m, opt_is a m) (optx_eq veq false) /\
  lawful (fun a => exists s, res_is a s) (resx_eq veq eeq) /\
  lawful (fun a => exists m, opt_is a m) (voidx_eq eeq).
Proof.
  assert (forall A (eq : cmp A), equivalence eq -> forall m n k,
    (exists b, same_option eq m n = Ret b) /\ same_option eq m m = Ret true /\ same_option eq m n = same_option eq n m /\
    (same_option eq m n = Ret true -> same_option eq n k = Ret true -> same_option eq m k = Ret true)) as SO.
  { intros A eq (T & R & S & X) m n k.
    destruct m as [x|], n as [y|]; cbn.
    - split; [apply T|]. split; [apply R|]. split; [apply S|]. destruct k as [z|]; cbn; [apply X|discriminate].
    - split; [eauto|]. split; [apply R|]. split; [reflexivity|]. discriminate.
    - split; [eauto|]. split; [reflexivity|]. split; [reflexivity|]. discriminate.
    - split; [eauto|]. split; [reflexivity|]. split; [reflexivity|]. intros _. destruct k; cbn; auto. }
  intros V E veq eeq HV HE. pose proof HV as (T & R & S & X). pose proof HE as (T' & R' & S' & X').
  assert (forall s t u : V + E, (exists b, same_sum veq eeq s t = Ret b) /\ same_sum veq eeq s s = Ret true /\
    same_sum veq eeq s t = same_sum veq eeq t s /\
    (same_sum veq eeq s t = Ret true -> same_sum veq eeq t u = Ret true -> same_sum veq eeq s u = Ret true)) as SS.
  { intros s t u. destruct s as [x|x], t as [y|y]; cbn.
    - split; [apply T|]. split; [apply R|]. split; [apply S|]. destruct u as [z|z]; cbn; [apply X|discriminate].
    - split; [eauto|]. split; [apply R|]. split; [reflexivity|]. discriminate.
    - split; [eauto|]. split; [apply R'|]. split; [reflexivity|]. discriminate.
    - split; [apply T'|]. split; [apply R'|]. split; [apply S'|]. destruct u as [z|z]; cbn; [discriminate|apply X']. }
  assert (forall X Y (is : X -> Y -> Prop) (f : X -> X -> outcome bool) (g : Y -> Y -> outcome bool),
    (forall a b m n, is a m -> is b n -> f a b = noexcept (g m n)) ->
    (forall m n k, (exists b, g m n = Ret b) /\ g m m = Ret true /\ g m n = g n m /\ (g m n = Ret true -> g n k = Ret true -> g m k = Ret true)) ->
    lawful (fun a => exists m, is a m) f) as L.
  { intros X0 Y is f g F G.
    assert (forall a b m n, is a m -> is b n -> f a b = g m n) as W.
    { intros a b m n H1 H2. rewrite (F a b m n H1 H2). destruct (G m n n) as ((c & ->) & _). reflexivity. }
    split; [|split; [|split]].
    - intros x y (m & Hm) (n & Hn). rewrite (W x y m n Hm Hn). exact (proj1 (G m n n)).
    - intros x (m & Hm). rewrite (W x x m m Hm Hm). exact (proj1 (proj2 (G m m m))).
    - intros x y (m & Hm) (n & Hn). rewrite (W x y m n Hm Hn), (W y x n m Hn Hm). exact (proj1 (proj2 (proj2 (G m n n)))).
    - intros x y z (m & Hm) (n & Hn) (k & Hk). rewrite (W x y m n Hm Hn), (W y z n k Hn Hk), (W x z m k Hm Hk). exact (proj2 (proj2 (proj2 (G m n k)))). }
  split; [|split].
  - apply (L _ _ opt_is _ (same_option veq)); [|apply SO; exact HV].
    intros a b m n H1 H2. is_opt H1. is_opt H2. destruct m, n; reflexivity.
  - apply (L _ _ res_is _ (same_sum veq eeq)); [|exact SS].
    intros a b s t H1 H2. is_res H1. is_res H2. destruct s as [x|x], t as [y|y]; try reflexivity.
    unfold resx_eq. cbn. destruct (veq x y) as [[]| | | |]; reflexivity.
  - apply (L _ _ opt_is _ (same_option eeq)); [|apply SO; exact HE].
    intros a b m n H1 H2. apply (proj1 (C130_void E eeq a b m n H1 H2)).
Qed.
Print Assumptions C130_equivalence.

(** An exception of the payload's operator ends the program in == of two Optionals or of
    two Results, and reaches the caller in != and in the comparisons with a value. *)
Theorem C130_throwing : forall A E (eq : cmp A) (eeq : cmp E) (a b : optional A) (r q : resultv A E) x y e,
  opt_is a (Some x) -> opt_is b (Some y) -> res_is r (inl x) -> res_is q (inl y) -> eq x y = Throws e ->
  optx_eq eq false a b = Terminates /\ optx_ne eq false a b = Throws e /\
  optx_eq_value eq a y = Throws e /\ optx_ne_value eq a y = Throws e /\
  resx_eq eq eeq r q = Terminates /\ resx_eq_ok eq r y = Throws e /\ resx_ne_value eq y r = Throws e /\
  optx_eq eq true a a = Ret true.
Proof.
  intros A E eq eeq a b r q x y e H1 H2 H3 H4 H. is_opt H1. is_opt H2. is_res H3. is_res H4.
  unfold optx_eq, optx_ne, optx_eq_value, optx_ne_value, resx_eq, resx_eq_ok, resx_ne_value. cbn. rewrite H. repeat split.
Qed.
Print Assumptions C130_throwing.

(** A payload with a lawful equality, and one whose equality throws on 13. *)
(** An Optional compared with itself does not ask the payload: it is equal to itself even
    where the payload's operator throws or says otherwise, as for NaN.  Compared with a
    copy of itself, the payload decides. *)
Theorem C130_itself : forall A (eq ne : cmp A) (a b : optional A) m, opt_is a m -> opt_is b m ->
  optx_eq eq true a a = Ret true /\ optx_ne ne true a a = Ret false /\
  optx_eq eq false a b = match m with Some x => noexcept (eq x x) | None => Ret true end /\
  optx_ne ne false a b = match m with Some x => ne x x | None => Ret false end.
Proof. intros A eq ne a b m H1 H2. is_opt H1. is_opt H2. destruct m; repeat split. Qed.
Print Assumptions C130_itself.
Example C130_itself_case :
  let nan_eq := (fun x y : N => Ret (negb (x =? 7) && (x =? y))) in
  optx_eq nan_eq true (opt_of 7) (opt_of 7) = Ret true /\ optx_eq nan_eq false (opt_of 7) (opt_of 7) = Ret false /\
  opt_is (opt_of 7) (Some 7).
Proof. repeat split. Qed.

Example C130_ok :
  equivalence (fun x y : N => Ret (x =? y)) /\
  optx_eq (fun x y : N => Ret (x =? y)) false (opt_of 3) (opt_of 3) = Ret true /\
  optx_eq (fun x y : N => Ret (x =? y)) false (opt_of 3) opt_none = Ret false /\
  resx_eq (fun x y : N => Ret (x =? y)) (fun x y : N => Ret (x =? y)) (res_of 3) (res_err 3) = Ret false /\
  optx_eq (fun x y : N => if x =? 13 then Throws UserException else Ret (x =? y)) false (opt_of 13) (opt_of 5) = Terminates /\
  optx_ne (fun x y : N => if x =? 13 then Throws UserException else Ret (negb (x =? y))) false (opt_of 13) (opt_of 5) = Throws UserException /\
  opt_or opt_none 7 = Ret 7 /\ opt_or (opt_of 2) 7 = Ret 2.
Proof.
  split; [|repeat split].
  split; [eauto|]. split; [intros; f_equal; apply N.eqb_refl|]. split; [intros; f_equal; apply N.eqb_sym|].
  intros x y z H1 H2. injection H1 as H1. injection H2 as H2. apply N.eqb_eq in H1. apply N.eqb_eq in H2. subst. f_equal. apply N.eqb_refl.
Qed.
