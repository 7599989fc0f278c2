From Verif Require Import Base BaseLemmas LexSpec.

Fixpoint lexltb (l m : list N) : bool :=
  match l, m with
  | _, [] => false
  | [], _ :: _ => true
  | x :: l', y :: m' => if x <? y then true else if x =? y then lexltb l' m' else false
  end.

Lemma lexltb_spec l m : lexltb l m = true <-> lex_lt l m.
Proof.
  revert m. induction l as [|x l IH]; intros [|y m]; cbn [lexltb].
  - split; [discriminate|]. intros (k & _ & H). destruct k; cbn in H; destruct H.
  - split; [intros _; exists 0%nat; cbn; auto|reflexivity].
  - split; [discriminate|]. intros (k & _ & H). destruct k; cbn in H; [destruct H|]. destruct (nth_error l k), k; destruct H.
  - destruct (N.ltb_spec x y) as [L|L].
    + split; [intros _; exists 0%nat; cbn; auto|reflexivity].
    + destruct (N.eqb_spec x y) as [->|Ne].
      * rewrite IH. split; intros (k & E & H).
        -- exists (S k). cbn. split; [now f_equal|exact H].
        -- destruct k as [|k]; cbn in *; [lia|]. exists k. split; [congruence|exact H].
      * split; [discriminate|]. intros (k & E & H). destruct k as [|k]; cbn in *; [lia|congruence].
Qed.

Lemma lex_irrefl l : ~ lex_lt l l.
Proof. rewrite <- lexltb_spec. induction l as [|x l IH]; cbn; [discriminate|]. rewrite N.ltb_irrefl, N.eqb_refl. exact IH. Qed.

Lemma lex_trans l m n : lex_lt l m -> lex_lt m n -> lex_lt l n.
Proof.
  rewrite <- !lexltb_spec. revert m n. induction l as [|x l IH]; intros [|y m] [|z n]; cbn; try congruence.
  destruct (N.ltb_spec x y), (N.ltb_spec y z), (N.ltb_spec x z); try lia; try congruence;
  destruct (N.eqb_spec x y), (N.eqb_spec y z), (N.eqb_spec x z); try lia; try congruence. apply IH.
Qed.

Lemma lex_total l m : lex_lt l m \/ l = m \/ lex_lt m l.
Proof.
  rewrite <- !lexltb_spec. revert m. induction l as [|x l IH]; intros [|y m]; cbn; auto.
  destruct (N.ltb_spec x y), (N.ltb_spec y x); try lia; auto.
  destruct (N.eqb_spec x y), (N.eqb_spec y x); try lia; subst.
  destruct (IH m) as [H1|[->|H1]]; auto.
Qed.

Lemma lex_asym l m : lex_lt l m -> ~ lex_lt m l.
Proof. intros H1 H2. exact (lex_irrefl _ (lex_trans _ _ _ H1 H2)). Qed.
