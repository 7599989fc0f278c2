(** C87: random UUIDs. *)
From Verif Require Import Base BaseLemmas ByteIOModel ByteIOProofs UUIDModel UUIDSpec RandomModel.

Definition live (x : N) : Prop := 0 < x < modulus.
Lemma seed_live s : live (engine_seed s).
Proof.
  unfold live, engine_seed, modulus. destruct (s mod 2147483647 =? 0) eqn:E; [lia|]. apply N.eqb_neq in E. lia.
Qed.
(** 1407677000 is the inverse of 16807. *)
Lemma next_back x : x < modulus -> (1407677000 * engine_next x) mod modulus = x.
Proof.
  intros H. unfold engine_next. rewrite N.mul_mod_idemp_r by discriminate. rewrite N.mul_assoc.
  rewrite <- N.mul_mod_idemp_l by discriminate. replace (1407677000 * 16807 mod modulus) with 1 by reflexivity.
  rewrite N.mul_1_l. now apply N.mod_small.
Qed.
Lemma next_live x : live x -> live (engine_next x).
Proof.
  intros (H1 & H2). split; [|apply N.mod_lt; discriminate]. destruct (N.eq_dec (engine_next x) 0) as [E|E]; [|lia].
  pose proof (next_back x H2) as B. rewrite E in B. change ((1407677000 * 0) mod modulus) with 0 in B. lia.
Qed.
Lemma next_inj x y : x < modulus -> y < modulus -> engine_next x = engine_next y -> x = y.
Proof. intros H H' E. rewrite <- (next_back x H), <- (next_back y H'). now rewrite E. Qed.
Lemma rnd_value (be : bool) step v : v < 256 ^ N.of_nat step -> (if be then le_load (rev (rnd_bytes be step v)) else le_load (rnd_bytes be step v)) = v.
Proof. intros H. unfold rnd_bytes. destruct be; rewrite ?rev_involutive; now apply le_load_store. Qed.
Lemma rnd_length be step v : length (rnd_bytes be step v) = step.
Proof. unfold rnd_bytes. destruct be; rewrite ?rev_length; apply le_store_length. Qed.
Lemma le_store_ok n : forall v, bytes_ok (le_store n v).
Proof. induction n as [|n IH]; intros v; cbn [le_store]; constructor; [apply N.mod_lt; discriminate|apply IH]. Qed.
Lemma rnd_ok be step v : bytes_ok (rnd_bytes be step v).
Proof. unfold rnd_bytes. destruct be; [apply Forall_rev|]; apply le_store_ok. Qed.

Lemma random_eight be seed : let x := engine_next (engine_seed seed) in
  makeRandomUUID be 8 seed = Ret (rnd_bytes be 8 x ++ rnd_bytes be 8 (engine_next x)).
Proof. intros x. unfold makeRandomUUID. cbn -[engine_next engine_seed rnd_bytes]. now rewrite app_nil_r. Qed.
Lemma random_four be seed : let x := engine_next (engine_seed seed) in let y := engine_next x in let z := engine_next y in
  makeRandomUUID be 4 seed = Ret (rnd_bytes be 4 x ++ rnd_bytes be 4 y ++ rnd_bytes be 4 z ++ rnd_bytes be 4 (engine_next z)).
Proof. intros x y z. unfold makeRandomUUID. cbn -[engine_next engine_seed rnd_bytes]. now rewrite app_nil_r. Qed.

(** Either kind of host: the UUID begins with the bytes of the first number drawn. *)
Lemma random_head be step seed u : step = 4%nat \/ step = 8%nat -> makeRandomUUID be step seed = Ret u ->
  is_uuid u /\ firstn step u = rnd_bytes be step (engine_next (engine_seed seed)).
Proof.
  intros [-> | ->] E.
  - rewrite random_four in E. injection E as <-. split.
    + split; [rewrite !app_length, !rnd_length; reflexivity|]. unfold bytes_ok. repeat (apply Forall_app; split); apply rnd_ok.
    + rewrite firstn_app, rnd_length, Nat.sub_diag, firstn_O, app_nil_r. apply firstn_all2. now rewrite rnd_length.
  - rewrite random_eight in E. injection E as <-. split.
    + split; [rewrite !app_length, !rnd_length; reflexivity|]. unfold bytes_ok. repeat (apply Forall_app; split); apply rnd_ok.
    + rewrite firstn_app, rnd_length, Nat.sub_diag, firstn_O, app_nil_r. apply firstn_all2. now rewrite rnd_length.
Qed.
Lemma drawn_inj be step x y : step = 4%nat \/ step = 8%nat -> live x -> live y -> rnd_bytes be step x = rnd_bytes be step y -> x = y.
Proof.
  intros S (_ & X) (_ & Y) E. unfold modulus in *. assert (B : 2147483647 < 256 ^ N.of_nat step) by (destruct S as [-> | ->]; reflexivity).
  rewrite <- (rnd_value be step x) by lia. rewrite <- (rnd_value be step y) by lia. now rewrite E.
Qed.

(** Every seed gives sixteen bytes, never the null UUID. *)
Theorem C87_not_null : forall be step seed, step = 4%nat \/ step = 8%nat ->
  exists u, makeRandomUUID be step seed = Ret u /\ is_uuid u /\ u <> uuid_null /\ uuid_isNull u = false.
Proof.
  intros be step seed S. assert (exists u, makeRandomUUID be step seed = Ret u) as (u & E).
  { destruct S as [-> | ->]; [rewrite random_four|rewrite random_eight]; eauto. }
  exists u. split; [exact E|]. destruct (random_head be step seed u S E) as (U & H). split; [exact U|].
  pose proof (next_live _ (seed_live seed)) as L. set (x := engine_next (engine_seed seed)) in *. clearbody x.
  assert (Z : u <> uuid_null).
  { intros ->. assert (Q : rnd_bytes be step x = rnd_bytes be step 0).
    { rewrite <- H. unfold rnd_bytes. destruct S as [-> | ->]; destruct be; reflexivity. }
    assert (x = 0); [|unfold live in L; lia].
    assert (B : modulus < 256 ^ N.of_nat step) by (destruct S as [-> | ->]; reflexivity). unfold live in L.
    rewrite <- (rnd_value be step x) by lia. rewrite <- (rnd_value be step 0) by lia. now rewrite Q. }
  split; [exact Z|]. unfold uuid_isNull. apply N.eqb_neq. intros F. apply Z.
  assert (G : forall l a, fold_left (fun s v => s + v) l a = 0 -> a = 0 /\ l = repeat 0 (length l)).
  { clear. induction l as [|b l IH]; intros a Q; cbn in Q; [now split|]. apply IH in Q as (Q & R). cbn. split; [lia|]. f_equal; [lia|exact R]. }
  apply G in F as (_ & F). rewrite F. destruct U as (-> & _). reflexivity.
Qed.
Print Assumptions C87_not_null.

(** Two seeds below 2^31 - 1, not zero, give two different UUIDs, *)
Theorem C87_distinct_partial : forall be step s s' u u', step = 4%nat \/ step = 8%nat -> 0 < s < 2 ^ 31 - 1 -> 0 < s' < 2 ^ 31 - 1 ->
  makeRandomUUID be step s = Ret u -> makeRandomUUID be step s' = Ret u' -> u = u' -> s = s'.
Proof.
  intros be step s s' u u' S H H' E E' Q. change (2 ^ 31 - 1) with modulus in *.
  destruct (random_head be step s u S E) as (_ & F). destruct (random_head be step s' u' S E') as (_ & F'). rewrite Q, F' in F.
  apply drawn_inj in F; [|exact S|apply next_live, seed_live|apply next_live, seed_live].
  apply next_inj in F; [|apply seed_live|apply seed_live]. unfold engine_seed in F. rewrite !N.mod_small in F by lia.
  rewrite (proj2 (N.eqb_neq s 0)), (proj2 (N.eqb_neq s' 0)) in F by lia. congruence.
Qed.
Print Assumptions C87_distinct_partial.
Example C87_case : exists u u', makeRandomUUID false 8 1 = Ret u /\ makeRandomUUID false 8 2 = Ret u' /\ u <> u'.
Proof. do 2 eexists. split; [reflexivity|]. split; [reflexivity|]. discriminate. Qed.
(** but every seed s above has a twin: the UUID of s + 2^31 - 1 is the same.  There are at
    most 2^31 - 2 different ones. *)
Theorem C87_distinct_refuted : forall be step s, s + (2 ^ 31 - 1) < 2 ^ 32 ->
  makeRandomUUID be step (s + (2 ^ 31 - 1)) = makeRandomUUID be step s.
Proof.
  intros be step s _. unfold makeRandomUUID, engine_seed. change (2 ^ 31 - 1) with (1 * modulus). now rewrite N.mod_add by discriminate.
Qed.
Print Assumptions C87_distinct_refuted.
Theorem C87_few_refuted : forall be step seed u, makeRandomUUID be step seed = Ret u ->
  exists s, 0 < s < 2 ^ 31 - 1 /\ makeRandomUUID be step s = Ret u.
Proof.
  intros be step seed u E. exists (engine_seed seed). pose proof (seed_live seed) as (L1 & L2). change (2 ^ 31 - 1) with modulus. split; [now split|].
  rewrite <- E. unfold makeRandomUUID. f_equal. unfold engine_seed at 1. rewrite N.mod_small by exact L2.
  now rewrite (proj2 (N.eqb_neq (engine_seed seed) 0)) by lia.
Qed.
Print Assumptions C87_few_refuted.

(** On a 64-bit little-endian host half of the bytes are always zero, so no UUID made is a
    random (version 4) UUID of RFC 4122, *)
Theorem C87_zero_bytes_refuted : forall seed u, makeRandomUUID false 8 seed = Ret u ->
  firstn 4 (skipn 4 u) = [0; 0; 0; 0] /\ skipn 12 u = [0; 0; 0; 0] /\ nth 6 u 0 / 16 <> 4.
Proof.
  intros seed u E. pose proof (next_live _ (seed_live seed)) as L. pose proof (next_live _ L) as L'.
  assert (K : forall x, live x -> rnd_bytes false 8 x = le_store 4 x ++ [0; 0; 0; 0]).
  { intros x (_ & H). unfold modulus in H. unfold rnd_bytes. cbn [le_store app]. 
    assert (x / 256 / 256 / 256 / 256 = 0) as -> by lia. reflexivity. }
  rewrite random_eight, !K in E by assumption. assert (Q : forall a b : list N, Ret a = Ret b -> b = a) by congruence. apply Q in E. subst u. split; [reflexivity|]. split; [reflexivity|]. cbn. lia.
Qed.
Print Assumptions C87_zero_bytes_refuted.
(** and the second half follows from the first. *)
Theorem C87_predictable_refuted : forall be seed u, makeRandomUUID be 8 seed = Ret u ->
  exists x, live x /\ firstn 8 u = rnd_bytes be 8 x /\ skipn 8 u = rnd_bytes be 8 ((16807 * x) mod (2 ^ 31 - 1)).
Proof.
  intros be seed u E. destruct (random_head be 8 seed u (or_intror eq_refl) E) as (_ & F). rewrite random_eight in E. injection E as <-.
  exists (engine_next (engine_seed seed)). split; [apply next_live, seed_live|]. split; [exact F|].
  rewrite skipn_app, rnd_length, Nat.sub_diag, skipn_O, skipn_all2 by now rewrite rnd_length. reflexivity.
Qed.
Print Assumptions C87_predictable_refuted.
