From Verif Require Import Base BaseLemmas FmtModel FmtSpec.
Ltac Zify.zify_post_hook ::= Z.div_mod_to_equations.

Lemma dec_value_acc_app a ds es : dec_value_acc a (ds ++ es) = dec_value_acc (dec_value_acc a ds) es.
Proof. revert a; induction ds as [|c t IH]; intros a; [reflexivity|]. cbn. apply IH. Qed.
Lemma dec_value_acc_lin a ds : dec_value_acc a ds = a * 10 ^ size ds + dec_value ds.
Proof.
  unfold dec_value. revert a; induction ds as [|c t IH]; intros a; cbn [dec_value_acc].
  - change (10 ^ size (@nil N)) with 1. lia.
  - rewrite IH, (IH (0 * 10 + (c - 48))), size_cons, N.pow_add_r. change (10 ^ 1) with 10. lia.
Qed.
Lemma dec_value_lt ds : Forall digit ds -> dec_value ds < 10 ^ size ds.
Proof.
  induction 1 as [|c t H F IH]; [reflexivity|]. unfold dec_value in *. cbn [dec_value_acc].
  rewrite dec_value_acc_lin, size_cons, N.pow_add_r. change (10 ^ 1) with 10. unfold dec_value. unfold digit in H. nia.
Qed.

Lemma dec_loop_spec fuel v acc : (0 < fuel)%nat -> v < 2 ^ N.of_nat (fuel - 1) -> exists ds, dec_loop fuel v acc = ds ++ acc /\ decimal v ds.
Proof.
  revert v acc; induction fuel as [|fuel IH]; intros v acc H Hv; [lia|]. cbn [dec_loop].
  destruct (N.ltb_spec v 10) as [L|L].
  - exists [48 + v mod 10]. split; [reflexivity|]. repeat split; [discriminate|repeat constructor; lia|cbn -[N.add N.mul N.sub N.modulo]; lia|cbn -[N.add N.modulo]; intros E; now rewrite E].
  - replace (S fuel - 1)%nat with fuel in Hv by lia.
    assert (P : (0 < fuel)%nat) by (destruct fuel; [cbn in Hv; lia|lia]).
    destruct (IH (v / 10) (48 + v mod 10 :: acc) P) as (ds & E & N1 & F & V & Z).
    { replace (N.of_nat fuel) with (N.of_nat (fuel - 1) + 1) in Hv by lia. rewrite N.pow_add_r in Hv. change (2 ^ 1) with 2 in Hv. lia. }
    exists (ds ++ [48 + v mod 10]). rewrite E, <- app_assoc. split; [reflexivity|]. repeat split.
    + now destruct ds.
    + apply Forall_app. split; [assumption|]. repeat constructor; lia.
    + unfold dec_value in *. rewrite dec_value_acc_app, V. cbn -[N.add N.mul N.sub N.modulo N.div]. lia.
    + destruct ds as [|d ds]; [congruence|]. cbn [hd app] in *. intros Hd. specialize (Z Hd). injection Z as -> ->.
      unfold dec_value in V. cbn in V. lia.
Qed.
Lemma dec_spec v : decimal v (dec v).
Proof.
  unfold dec. destruct (dec_loop_spec (S (N.size_nat v)) v []) as (ds & E & D); [lia| |].
  - replace (S (N.size_nat v) - 1)%nat with (N.size_nat v) by lia.
    destruct v as [|p]; [reflexivity|]. cbn [N.size_nat].
    replace (N.of_nat (Pos.size_nat p)) with (N.size (N.pos p)).
    + apply N.size_gt.
    + cbn. clear. induction p; cbn; lia.
  - rewrite E, app_nil_r. exact D.
Qed.

Lemma dec_lower ds d t : Forall digit ds -> ds = d :: t -> d <> 48 -> 10 ^ size t <= dec_value ds.
Proof.
  intros F -> H. inversion F as [|? ? D F']; subst. unfold dec_value. cbn [dec_value_acc]. rewrite dec_value_acc_lin. unfold digit in D.
  pose proof (N.pow_nonzero 10 (size t)). nia.
Qed.

Lemma decimal_size v ds es : decimal v ds -> decimal v es -> size ds <= size es.
Proof.
  intros (N1 & F1 & V1 & Z1) (N2 & F2 & V2 & Z2). destruct ds as [|d t]; [congruence|]. destruct es as [|e u]; [congruence|].
  destruct (N.eq_dec d 48) as [->|Hd].
  - cbn [hd] in Z1. rewrite (Z1 eq_refl). unfold size. cbn. lia.
  - pose proof (dec_lower _ d t F1 eq_refl Hd). pose proof (dec_value_lt _ F2). rewrite !size_cons in *.
    assert (10 ^ size t < 10 ^ (size u + 1)) by lia. apply N.pow_lt_mono_r_iff in H1; lia.
Qed.
Lemma decimal_unique v ds es : decimal v ds -> decimal v es -> ds = es.
Proof.
  intros D E. assert (S : size ds = size es) by (pose proof (decimal_size _ _ _ D E); pose proof (decimal_size _ _ _ E D); lia).
  destruct D as (_ & F1 & V1 & _), E as (_ & F2 & V2 & _). subst v. revert es S F2 V2.
  assert (G : forall a ds es, size ds = size es -> Forall digit ds -> Forall digit es -> dec_value_acc a es = dec_value_acc a ds -> ds = es).
  { clear. intros a ds. revert a. induction ds as [|d t IH]; intros a [|e u] S F1 F2 V; rewrite ?size_cons in S; try (unfold size in S; cbn in S; lia); [reflexivity|].
    inversion F1; inversion F2; subst. cbn [dec_value_acc] in V. unfold digit in *.
    assert (size t = size u) by lia. pose proof (dec_value_lt t H2). pose proof (dec_value_lt u H6).
    assert (d = e).
    { rewrite !(dec_value_acc_lin (_ + _)) in V. rewrite <- H in H3, V. set (k := 10 ^ size t) in *. nia. }
    subst e. f_equal. eapply IH; eauto. }
  intros. eapply G; eauto.
Qed.
Lemma dec_digits v : Forall digit (dec v).
Proof. apply dec_spec. Qed.
Lemma dec_pos v : 0 < size (dec v).
Proof. destruct (dec_spec v) as (H & _). unfold size. destruct (dec v); [congruence|cbn; lia]. Qed.
(** A 64-bit number has at most 20 digits. *)
Lemma dec_size v : v < 2 ^ 64 -> size (dec v) <= 20.
Proof.
  intros H. destruct (dec_spec v) as (N1 & F & V & Z). destruct (dec v) as [|d t] eqn:E; [congruence|].
  destruct (N.eq_dec d 48) as [->|Hd].
  - cbn [hd] in Z. rewrite (Z eq_refl). unfold size. cbn. lia.
  - pose proof (dec_lower _ d t F eq_refl Hd). rewrite size_cons. destruct (N.le_gt_cases (size t + 1) 20); [assumption|].
    assert (10 ^ 20 <= 10 ^ size t) by (apply N.pow_le_mono_r; lia). assert (2 ^ 64 < 10 ^ 20) by reflexivity. lia.
Qed.

Lemma c_digit_spec c : c_digit c = true <-> digit c.
Proof. unfold c_digit, digit. rewrite andb_true_iff, !N.leb_le. tauto. Qed.
Lemma c_digit_false c : c_digit c = false <-> ~ digit c.
Proof. rewrite <- c_digit_spec. now destruct (c_digit c). Qed.

Lemma scan_digits_spec ds c t acc used : Forall digit ds -> ~ digit c ->
  scan_digits (ds ++ c :: t) acc used = Ret (dec_value_acc acc ds, used + size ds).
Proof.
  intros F H. revert acc used; induction F as [|d ds D F IH]; intros acc used; cbn [app scan_digits dec_value_acc].
  - rewrite (proj2 (c_digit_false c) H), (@size_nil N). f_equal. f_equal. lia.
  - rewrite (proj2 (c_digit_spec d) D), IH, size_cons. f_equal. f_equal. lia.
Qed.
Lemma strtoul_digits ds c t : Forall digit ds -> ds <> [] -> ~ digit c -> dec_value ds < 2 ^ 64 ->
  strtoul (ds ++ c :: t) = Ret (dec_value ds, size ds).
Proof.
  intros F N1 H L. destruct ds as [|d ds]; [congruence|]. inversion F as [|? ? D F']; subst.
  unfold strtoul. cbn [app skip_spaces].
  assert (S1 : c_space d = false).
  { unfold c_space. unfold digit in D. destruct (N.leb_spec 9 d), (N.leb_spec d 13), (N.eqb_spec d 32); cbn; try reflexivity; lia. }
  rewrite S1. cbn [bind fst snd].
  assert (S2 : (d =? 43) || (d =? 45) = false).
  { unfold digit in D. destruct (N.eqb_spec d 43), (N.eqb_spec d 45); cbn; try reflexivity; lia. }
  rewrite S2. change (d :: ds ++ c :: t) with ((d :: ds) ++ c :: t). rewrite scan_digits_spec by assumption. cbn [bind fst snd].
  rewrite N.add_0_l. destruct (N.eqb_spec (size (d :: ds)) 0) as [Z|_]; [rewrite size_cons in Z; lia|].
  fold (dec_value (d :: ds)). destruct (N.leb_spec (2 ^ 64) (dec_value (d :: ds))); [lia|].
  destruct (N.eqb_spec d 45); [unfold digit in D; lia|]. f_equal.
Qed.
