From Verif Require Import Base BaseLemmas MemViewModel ByteIOModel ByteIOSpec ByteIOProofs.
From Verif Require Import LexSpec LexProofs AtomModel AtomSpec.

Lemma lor_shift n c : c < 256 -> N.lor (N.shiftl n 8) c = 256 * n + c.
Proof.
  intros H. assert (N.land (N.shiftl n 8) c = 0) as D.
  { apply N.bits_inj. intros i. rewrite N.land_spec, N.bits_0.
    destruct (N.lt_ge_cases i 8) as [L|L].
    - rewrite N.shiftl_spec_low by assumption. reflexivity.
    - assert (N.testbit c i = false) as ->; [|apply andb_false_r].
      destruct (N.eq_dec c 0) as [->|Z]; [apply N.bits_0|].
      apply N.bits_above_log2. apply N.log2_lt_pow2; [lia|].
      apply N.lt_le_trans with (2 ^ 8); [exact H|apply N.pow_le_mono_r; lia]. }
  rewrite <- N.lxor_lor by assumption. rewrite <- N.add_nocarry_lxor by assumption.
  rewrite N.shiftl_mul_pow2. change (2 ^ 8) with 256. lia.
Qed.

Lemma be_value_acc_lt bs : forall acc n, bytes_ok bs -> acc < 256 ^ n -> be_value_acc acc bs < 256 ^ (n + size bs).
Proof.
  induction bs as [|b t IH]; intros acc n F H; cbn [be_value_acc].
  - rewrite (@size_nil N), N.add_0_r. exact H.
  - inversion F as [|? ? Fb Ft]; subst. rewrite size_cons.
    replace (n + (size t + 1)) with (N.succ n + size t) by lia. apply IH; [assumption|].
    rewrite N.pow_succ_r'. unfold is_byte in Fb. nia.
Qed.

Lemma be_value_lt bs : bytes_ok bs -> be_value_acc 0 bs < 256 ^ size bs.
Proof. intros. apply (be_value_acc_lt bs 0 0); [assumption|reflexivity]. Qed.

Lemma be_value_acc_app a b acc : be_value_acc acc (a ++ b) = be_value_acc (be_value_acc acc a) b.
Proof. revert acc; induction a; intros; cbn; auto. Qed.

Lemma be_value_zeros k : forall acc, be_value_acc acc (repeat 0 k) = acc * 256 ^ N.of_nat k.
Proof.
  induction k as [|k IH]; intros acc; cbn [repeat be_value_acc].
  - cbn. lia.
  - rewrite IH, Nat2N.inj_succ, N.pow_succ_r'. lia.
Qed.

Definition pad8 (s : list N) : list N := s ++ repeat 0 (8 - length s).

(** The loop over NUL-free 7-bit characters computes the base-256 value. *)
Lemma wrap_loop_spec s : forall k tail i len n, Forall (fun c => 0 < c < 128) s ->
  (length s <= k)%nat -> i + size s <= len -> n * 256 ^ size s < 2 ^ 64 ->
  (k = length s \/ i + size s = len \/ exists t, tail = 0 :: t) -> n < 256 ^ i -> i + size s <= 8 ->
  wrap_loop k (s ++ tail) i len n = Ret (be_value_acc n s, i + size s).
Proof.
  induction s as [|c s IH]; intros k tail i len n F K L B E Hn H8.
  - rewrite (@size_nil N) in *. rewrite N.add_0_r in *. cbn [app be_value_acc].
    destruct k as [|k]; [reflexivity|]. cbn [wrap_loop].
    destruct (N.ltb_spec i len); [|reflexivity].
    destruct E as [E|[E|(t & ->)]]; [cbn in E; discriminate|lia|]. reflexivity.
  - inversion F as [|? ? Fc Fs]; subst. rewrite size_cons in *.
    destruct k as [|k]; [cbn in K; lia|]. cbn [app wrap_loop be_value_acc].
    destruct (N.ltb_spec i len); [|lia].
    destruct (N.eqb_spec c 0); [lia|].
    assert (256 ^ (size s + 1) = 256 * 256 ^ size s) as P by (rewrite N.add_1_r; apply N.pow_succ_r').
    assert (0 < 256 ^ size s) as P0 by (pose proof (N.pow_nonzero 256 (size s)); lia).
    assert (256 ^ (i + 1) = 256 * 256 ^ i) as Pi by (rewrite N.add_1_r; apply N.pow_succ_r').
    assert (256 ^ (i + 1) * 256 ^ size s <= 256 ^ 8) as P8.
    { rewrite <- N.pow_add_r. apply N.pow_le_mono_r; lia. }
    change (256 ^ 8) with (2 ^ 64) in P8.
    assert (char_to_u64 c = c) as -> by (unfold char_to_u64; destruct (N.ltb_spec c 128); [reflexivity|lia]).
    assert (256 * n + c < 256 ^ (i + 1)) as Hn' by nia.
    assert (256 * n + c < 2 ^ 64) as Hs by nia.
    assert (u64 (N.shiftl n 8) = N.shiftl n 8) as ->.
    { unfold u64. apply N.mod_small. rewrite N.shiftl_mul_pow2. change (2 ^ 8) with 256. lia. }
    rewrite lor_shift by lia. replace (256 * n + c) with (n * 256 + c) in * by lia.
    rewrite IH; auto.
    + do 2 f_equal. lia.
    + cbn in K. lia.
    + lia.
    + apply N.lt_le_trans with (256 ^ (i + 1) * 256 ^ size s); [nia|exact P8].
    + destruct E as [E|[E|E]]; [left; cbn in E; lia|right; left; lia|right; right; exact E].
    + lia.
Qed.

Lemma atom_wrap_spec s tail len : atom_text s -> size s <= len ->
  (length s = 8%nat \/ size s = len \/ exists t, tail = 0 :: t) ->
  atom_wrap (s ++ tail) len = Ret (be_value_acc 0 (pad8 s)).
Proof.
  intros (L & F) Hl E. unfold atom_wrap.
  rewrite (wrap_loop_spec s 8 tail 0 len 0); auto.
  - cbn [bind]. rewrite N.add_0_l. unfold pad8. rewrite be_value_acc_app, be_value_zeros.
    destruct (N.eqb_spec (size s) 0) as [Z|Z].
    { apply size_0_nil in Z as ->. reflexivity. }
    f_equal. rewrite N.shiftl_mul_pow2. unfold u64.
    replace (2 ^ ((8 - size s) * 8)) with (256 ^ N.of_nat (8 - length s)).
    2:{ change 256 with (2 ^ 8). rewrite <- N.pow_mul_r. f_equal. unfold size. lia. }
    apply N.mod_small.
    assert (bytes_ok s) as B by (revert F; apply Forall_impl; unfold is_byte; intros; lia).
    pose proof (be_value_lt s B) as V.
    apply N.lt_le_trans with (256 ^ size s * 256 ^ N.of_nat (8 - length s)).
    + apply N.mul_lt_mono_pos_r; [|exact V]. pose proof (N.pow_nonzero 256 (N.of_nat (8 - length s))). lia.
    + rewrite <- N.pow_add_r. change (2 ^ 64) with (256 ^ 8). apply N.pow_le_mono_r; [lia|]. unfold size. lia.
  - rewrite N.mul_0_l. reflexivity.
  - destruct E as [E|[E|E]]; [left; lia|right; left; lia|right; right; exact E].
  - reflexivity.
  - unfold size. lia.
Qed.

Lemma div_256_pow n k : N.shiftr n (k * 8) = n / 256 ^ k.
Proof. rewrite N.shiftr_div_pow2. f_equal. change 256 with (2 ^ 8). rewrite <- N.pow_mul_r. f_equal. lia. Qed.

Lemma atom_unwrap_be n : atom_unwrap n = be_bytes 8 n ++ [0].
Proof.
  unfold atom_unwrap. f_equal. cbn [map].
  repeat match goal with |- context [N.shiftr n ((8 - ?i - 1) * 8)] =>
    let j := eval cbv in (8 - i - 1) in change (8 - i - 1) with j; rewrite (div_256_pow n j) end.
  reflexivity.
Qed.

(** Big-endian digits of a big-endian value. *)
Lemma le_store_load bs : bytes_ok bs -> le_store (length bs) (le_load bs) = bs.
Proof.
  induction 1 as [|b t Hb _ IH]; [reflexivity|]. cbn [le_load length le_store]. unfold is_byte in Hb.
  replace ((b + 256 * le_load t) mod 256) with b by lia.
  replace ((b + 256 * le_load t) / 256) with (le_load t) by lia. now rewrite IH.
Qed.

Lemma be_bytes_value bs : bytes_ok bs -> be_bytes (length bs) (be_value_acc 0 bs) = bs.
Proof.
  intros F. unfold be_bytes. rewrite <- le_store_spec, be_value_acc_spec, N.mul_0_l, N.add_0_l.
  rewrite <- (rev_length bs), le_store_load by (apply Forall_rev; assumption). apply rev_involutive.
Qed.

Lemma pad8_ok s : atom_text s -> length (pad8 s) = 8%nat /\ bytes_ok (pad8 s).
Proof.
  intros (L & F). unfold pad8. split; [rewrite app_length, repeat_length; lia|].
  apply Forall_app. split; [revert F; apply Forall_impl; unfold is_byte; intros; lia|].
  apply Forall_forall. intros x Hx. apply repeat_spec in Hx as ->. reflexivity.
Qed.

Lemma atom_string s : atom_text s -> atom_unwrap (be_value_acc 0 (pad8 s)) = s ++ repeat 0 (9 - length s).
Proof.
  intros H. pose proof H as (L & F). destruct (pad8_ok s H) as (L8 & B).
  rewrite atom_unwrap_be. pose proof (be_bytes_value (pad8 s) B) as V. rewrite L8 in V. rewrite V. unfold pad8. rewrite <- app_assoc. f_equal.
  replace (9 - length s)%nat with (8 - length s + 1)%nat by lia. rewrite repeat_app. reflexivity.
Qed.

Lemma c_string_padded s k : Forall (fun c => 0 < c < 128) s -> (0 < k)%nat -> c_string (s ++ repeat 0 k) = s.
Proof.
  intros F K. induction F as [|c s Hc _ IH].
  - destruct k; [lia|]. reflexivity.
  - cbn [app c_string]. destruct (N.eqb_spec c 0); [lia|]. now f_equal.
Qed.

(** Order *)
Lemma be_value_cmp a b : length a = length b -> bytes_ok a -> bytes_ok b ->
  forall acc acc', be_value_acc acc a < be_value_acc acc' b <->
    acc < acc' \/ (acc = acc' /\ lexltb a b = true).
Proof.
  revert b. induction a as [|x a IH]; intros [|y b] L Fa Fb acc acc'; try discriminate.
  - cbn. split; [auto|]. intros [H|[_ H]]; [exact H|discriminate].
  - inversion Fa as [|? ? Hx Fa']; inversion Fb as [|? ? Hy Fb']; subst. cbn in L. injection L as L.
    cbn [be_value_acc lexltb]. rewrite IH by assumption. unfold is_byte in *.
    destruct (N.ltb_spec x y), (N.eqb_spec x y); try lia; split; intros H'; try lia; try nia.
    all: destruct H' as [H'|[H1 H2]]; try discriminate; try lia; subst;
      try (right; split; [lia|assumption]); try (left; lia).
Qed.

Lemma lexltb_pad s t : Forall (fun c => 0 < c < 128) s -> Forall (fun c => 0 < c < 128) t ->
  forall k m, (length s + k = length t + m)%nat -> lexltb (s ++ repeat 0 k) (t ++ repeat 0 m) = lexltb s t.
Proof.
  intros F. revert t. induction F as [|x s Hx _ IH]; intros t G k m E.
  - cbn [app]. destruct G as [|y t Hy G].
    + cbn [app lexltb]. cbn in E. subst. clear. induction m; [reflexivity|]. cbn. exact IHm.
    + cbn in E. destruct k as [|k]; [lia|]. cbn [repeat app lexltb]. destruct (N.ltb_spec 0 y); [reflexivity|lia].
  - destruct G as [|y t Hy G].
    + cbn in E. cbn [app]. destruct m as [|m]; [lia|]. cbn [repeat lexltb].
      destruct (N.ltb_spec x 0); [lia|]. destruct (N.eqb_spec x 0); [lia|reflexivity].
    + cbn [app lexltb]. cbn in E. rewrite IH by (assumption || lia). reflexivity.
Qed.

Lemma atom_order s t : atom_text s -> atom_text t ->
  be_value_acc 0 (pad8 s) < be_value_acc 0 (pad8 t) <-> lex_lt s t.
Proof.
  intros Hs Ht. destruct (pad8_ok s Hs) as (Ls & Bs), (pad8_ok t Ht) as (Lt & Bt).
  destruct Hs as (L1 & F1), Ht as (L2 & F2).
  rewrite be_value_cmp by (congruence || assumption). unfold pad8.
  rewrite lexltb_pad by (assumption || lia). rewrite lexltb_spec. split; [intros [H|[_ H]]; [lia|exact H]|auto].
Qed.

(** Any bytes *)
Lemma wrap_loop_total k : forall mem i len n, len <= i + size mem -> exists p, wrap_loop k mem i len n = Ret p.
Proof.
  induction k as [|k IH]; intros mem i len n H; cbn [wrap_loop]; [eauto|].
  destruct (N.ltb_spec i len); [|eauto]. destruct mem as [|c t].
  - rewrite (@size_nil N) in H. lia.
  - destruct (c =? 0); [eauto|]. apply IH. rewrite size_cons in H. lia.
Qed.

Lemma lor_high n c : 128 <= c -> c < 256 -> N.lor (u64 (N.shiftl n 8)) (2 ^ 64 - 256 + c) = 2 ^ 64 - 256 + c.
Proof.
  intros H1 H2. replace (2 ^ 64 - 256 + c) with (N.lor (N.shiftl (N.ones 56) 8) c).
  2:{ rewrite lor_shift by assumption. change (N.ones 56) with (2 ^ 56 - 1). lia. }
  apply N.bits_inj. intros i. rewrite !N.lor_spec. unfold u64.
  destruct (N.lt_ge_cases i 64) as [L|L].
  - rewrite N.mod_pow2_bits_low by assumption. destruct (N.lt_ge_cases i 8) as [L8|L8].
    + rewrite !N.shiftl_spec_low by assumption. reflexivity.
    + rewrite !N.shiftl_spec_high' by assumption. rewrite N.ones_spec_low by lia. now rewrite orb_true_r.
  - rewrite N.mod_pow2_bits_high by assumption. reflexivity.
Qed.

Lemma wrap_loop_high p : forall c k i n len, Forall (fun x => 0 < x < 256) p -> 128 <= c -> c < 256 ->
  (length p < k)%nat -> len = i + size p + 1 ->
  wrap_loop k (p ++ [c]) i len n = Ret (2 ^ 64 - 256 + c, i + size p + 1).
Proof.
  induction p as [|x p IH]; intros c k i n len F H1 H2 K ->.
  - destruct k as [|k]; [cbn in K; lia|]. cbn [app wrap_loop]. rewrite (@size_nil N).
    destruct (N.ltb_spec i (i + 0 + 1)); [|lia]. destruct (N.eqb_spec c 0); [lia|].
    unfold char_to_u64. destruct (N.ltb_spec c 128); [lia|]. rewrite lor_high by assumption.
    destruct k; cbn [wrap_loop]; [|destruct (N.ltb_spec (i + 1) (i + 0 + 1)); [lia|]]; do 2 f_equal; lia.
  - inversion F as [|? ? Fx Fp]; subst. destruct k as [|k]; [cbn in K; lia|]. cbn [app wrap_loop]. rewrite size_cons.
    destruct (N.ltb_spec i (i + (size p + 1) + 1)); [|lia]. destruct (N.eqb_spec x 0); [lia|].
    rewrite IH; auto; [do 2 f_equal; lia|cbn in K; lia|lia].
Qed.
