From Verif Require Import Base BaseLemmas LexSpec LexProofs AtomModel StringSpec StringViewModel.

Lemma u16_small n : n < 2 ^ 16 -> u16 n = n.
Proof. intros H. unfold u16. apply N.mod_small. exact H. Qed.
Lemma peek_app_in s after i c : nnth s i = Some c -> peek (s ++ after) i = Ret c.
Proof. intros H. unfold peek. rewrite nnth_app. destruct (N.ltb_spec i (size s)) as [L|L]; [now rewrite H|]. apply nnth_Some_lt in H. lia. Qed.

Lemma size_pos (d : list N) : d <> [] -> 0 < size d.
Proof. destruct d; [congruence|]. intros _. rewrite size_cons. lia. Qed.

(** ** equals, substring *)
Lemma eq_loop_spec a b : size a = size b -> sv_eq_loop a b = true <-> a = b.
Proof.
  revert b. induction a as [|x a IH]; intros [|y b] H; cbn [sv_eq_loop].
  - tauto.
  - discriminate (size_0_nil _ (eq_sym H)).
  - discriminate (size_0_nil _ H).
  - rewrite !size_cons in H. destruct (N.eqb_spec x y) as [->|Ne]; cbn [negb].
    + rewrite IH by lia. split; congruence.
    + split; congruence.
Qed.
Lemma sv_equals_spec a b : sv_equals a b = true <-> a = b.
Proof.
  unfold sv_equals. destruct (N.eqb_spec (size a) (size b)) as [E|E]; cbn [negb].
  - now apply eq_loop_spec.
  - split; congruence.
Qed.
Lemma sv_equals_refl a : sv_equals a a = true.
Proof. now apply sv_equals_spec. Qed.

Lemma substring_spec s f t : sv_substring s f t = ntake (t - f) (ndrop f s).
Proof.
  unfold sv_substring. destruct (N.le_gt_cases (size s) f) as [H|H].
  - rewrite (ndrop_all f s) by lia. rewrite (ndrop_all (N.min f (size s)) s) by lia.
    rewrite !ntake_all by (rewrite ?(@size_nil N); lia). reflexivity.
  - rewrite (N.min_l f) by lia. destruct (N.le_gt_cases t (size s)) as [H2|H2].
    + f_equal. lia.
    + rewrite !ntake_all by (rewrite size_ndrop; lia). reflexivity.
Qed.
Lemma substring_from_spec s f : sv_substring_from s f = ndrop f s.
Proof. unfold sv_substring_from. rewrite substring_spec. apply ntake_all. rewrite size_ndrop. lia. Qed.

(** ** occurrences *)
Lemma occurs_alt d s i : occurs d s i <-> i + size d <= size s /\ ntake (size d) (ndrop i s) = d.
Proof.
  split.
  - intros (p & r & -> & <-). fold (size p). rewrite !size_app. split; [lia|].
    now rewrite ndrop_app_exact, ntake_app_exact.
  - intros (H & E). exists (ntake i s), (ndrop (size d) (ndrop i s)). split.
    + rewrite <- E at 1. now rewrite !ntake_ndrop.
    + fold (size (ntake i s)). rewrite size_ntake. lia.
Qed.
Lemma occurs_ndrop d s f i : f <= size s -> occurs d (ndrop f s) i <-> occurs d s (f + i).
Proof. intros H. rewrite !occurs_alt, ndrop_ndrop, size_ndrop. split; intros (A & B); split; auto; lia. Qed.

Lemma match_bool d s i : i + size d <= size s ->
  sv_equals d (sv_substring s i (i + size d)) = true <-> occurs d s i.
Proof.
  intros H. rewrite sv_equals_spec, occurs_alt, substring_spec.
  replace (i + size d - i) with (size d) by lia. split; [intros E; split; [exact H|now symmetry]|]. intros (_ & ->). reflexivity.
Qed.

Lemma match_at_spec s after d da i : sv_ok s -> d <> [] -> i + size d <= size s ->
  exists b, sv_match_at s after d da i = Ret b /\ (b = true <-> occurs d s i).
Proof.
  intros Hs Hd H. pose proof (size_pos d Hd). unfold sv_ok in Hs. unfold sv_match_at.
  destruct (nnth_lt_Some s i) as (c & Hc); [lia|]. rewrite (peek_app_in _ _ _ _ Hc). cbn [bind].
  destruct d as [|d0 d']; [congruence|]. set (d := d0 :: d') in *.
  change (peek (d ++ da) 0) with (Ret d0 : outcome N). cbn [bind].
  destruct (N.eqb_spec c d0) as [E|E].
  - rewrite u16_small by lia. eexists. split; [reflexivity|]. now apply match_bool.
  - exists false. split; [reflexivity|]. split; [congruence|]. rewrite occurs_alt. intros (_ & X). exfalso. apply E.
    assert (Y : nnth (ntake (size d) (ndrop i s)) 0 = Some d0) by (rewrite X; reflexivity).
    rewrite nnth_ntake, nnth_ndrop, N.add_0_r in Y by lia. congruence.
Qed.

Definition first_from (d s : list N) (from : N) (o : option N) : Prop :=
  match o with
  | Some i => from <= i /\ occurs d s i /\ forall j, from <= j < i -> ~ occurs d s j
  | None => forall j, from <= j -> ~ occurs d s j
  end.
Definition last_from (d s : list N) (from : N) (o : option N) : Prop :=
  match o with
  | Some i => from <= i /\ occurs d s i /\ forall j, i < j -> ~ occurs d s j
  | None => forall j, from <= j -> ~ occurs d s j
  end.

Lemma indexOf_loop_spec k s after d da i : sv_ok s -> d <> [] -> N.of_nat k + i + size d = size s + 1 ->
  exists o, sv_indexOf_loop k s after d da i = Ret o /\ first_from d s i o.
Proof.
  intros Hs Hd. pose proof (size_pos d Hd). revert i. induction k as [|k IH]; intros i Hk.
  - exists None. split; [reflexivity|]. intros j Hj. rewrite occurs_alt. lia.
  - cbn [sv_indexOf_loop]. destruct (match_at_spec s after d da i Hs Hd) as (b & -> & Hb); [lia|]. cbn [bind].
    destruct b.
    + exists (Some i). split; [reflexivity|]. cbn. split; [lia|]. split; [now apply Hb|]. intros j Hj. lia.
    + destruct (IH (i + 1)) as (o & -> & Ho); [lia|]. exists o. split; [reflexivity|].
      assert (NO : ~ occurs d s i) by (intros X; apply Hb in X; discriminate).
      destruct o as [r|]; cbn in *.
      * destruct Ho as (A & B & C). split; [lia|]. split; [exact B|]. intros j Hj.
        destruct (N.eq_dec j i) as [->|]; [exact NO|]. apply C. lia.
      * intros j Hj. destruct (N.eq_dec j i) as [->|]; [exact NO|]. apply Ho. lia.
Qed.

Lemma indexOf_spec s after d da from : sv_ok s -> d <> [] ->
  exists o, sv_indexOf s after d da from = Ret o /\ first_from d s from o.
Proof.
  intros Hs Hd. pose proof (size_pos d Hd). unfold sv_indexOf.
  destruct (_ || _ || _) eqn:E.
  - exists None. split; [reflexivity|]. intros j Hj. rewrite occurs_alt.
    rewrite !Bool.orb_true_iff, !N.ltb_lt in E. lia.
  - rewrite !Bool.orb_false_iff, !N.ltb_ge in E. unfold sv_ok in Hs. rewrite u16_small by lia.
    apply indexOf_loop_spec; auto. lia.
Qed.

Lemma lastIndexOf_loop_spec k s after d da i from acc : sv_ok s -> d <> [] -> N.of_nat k + i + size d = size s + 1 ->
  from <= i ->
  match acc with
  | Some r => from <= r < i /\ occurs d s r /\ forall j, r < j < i -> ~ occurs d s j
  | None => forall j, from <= j < i -> ~ occurs d s j
  end ->
  exists o, sv_lastIndexOf_loop k s after d da i acc = Ret o /\ last_from d s from o.
Proof.
  intros Hs Hd. pose proof (size_pos d Hd). revert i acc. induction k as [|k IH]; intros i acc Hk Hf Hacc.
  - exists acc. split; [reflexivity|]. destruct acc as [r|]; cbn.
    + destruct Hacc as (A & B & C). split; [lia|]. split; [exact B|]. intros j Hj.
      destruct (N.lt_ge_cases j i); [apply C; lia|]. rewrite occurs_alt. lia.
    + intros j Hj. destruct (N.lt_ge_cases j i); [apply Hacc; lia|]. rewrite occurs_alt. lia.
  - cbn [sv_lastIndexOf_loop]. destruct (match_at_spec s after d da i Hs Hd) as (b & -> & Hb); [lia|]. cbn [bind].
    apply IH; [lia|lia|]. destruct b.
    + split; [lia|]. split; [now apply Hb|]. intros j Hj. lia.
    + assert (NO : ~ occurs d s i) by (intros X; apply Hb in X; discriminate).
      destruct acc as [r|].
      * destruct Hacc as (A & B & C). split; [lia|]. split; [exact B|]. intros j Hj.
        destruct (N.eq_dec j i) as [->|]; [exact NO|]. apply C. lia.
      * intros j Hj. destruct (N.eq_dec j i) as [->|]; [exact NO|]. apply Hacc. lia.
Qed.

Lemma lastIndexOf_spec s after d da from : sv_ok s -> d <> [] ->
  exists o, sv_lastIndexOf s after d da from = Ret o /\ last_from d s from o.
Proof.
  intros Hs Hd. pose proof (size_pos d Hd). unfold sv_lastIndexOf.
  destruct (_ || _ || _) eqn:E.
  - exists None. split; [reflexivity|]. intros j Hj. rewrite occurs_alt.
    rewrite !Bool.orb_true_iff, !N.ltb_lt in E. lia.
  - rewrite !Bool.orb_false_iff, !N.ltb_ge in E. unfold sv_ok in Hs. rewrite u16_small by lia.
    apply lastIndexOf_loop_spec; auto; [lia|lia|]. intros j Hj. lia.
Qed.

Lemma occurs_char s c i : occurs [c] s i <-> nnth s i = Some c.
Proof.
  rewrite occurs_alt. change (size [c]) with 1. split.
  - intros (_ & E). assert (X : nnth (ntake 1 (ndrop i s)) 0 = Some c) by now rewrite E.
    rewrite nnth_ntake, nnth_ndrop, N.add_0_r in X by lia. exact X.
  - intros E. pose proof (nnth_Some_lt _ _ _ E). split; [lia|]. apply nnth_ext.
    + rewrite size_ntake, size_ndrop. change (size [c]) with 1. lia.
    + intros j. rewrite size_ntake, size_ndrop. intros Hj. assert (j = 0) by lia. subst j.
      rewrite nnth_ntake, nnth_ndrop, N.add_0_r by lia. exact E.
Qed.

Lemma indexOf_char_loop_spec k s c i : N.of_nat k + i = size s ->
  exists o, sv_indexOf_char_loop k s c i = Ret o /\ first_from [c] s i o.
Proof.
  revert i. induction k as [|k IH]; intros i Hk.
  - exists None. split; [reflexivity|]. intros j Hj. rewrite occurs_alt. change (size [c]) with 1. lia.
  - cbn [sv_indexOf_char_loop]. destruct (nnth_lt_Some s i) as (x & Hx); [lia|].
    unfold peek at 1. rewrite Hx. cbn [bind]. destruct (N.eqb_spec x c) as [->|Ne].
    + exists (Some i). split; [reflexivity|]. cbn. split; [lia|]. split; [now apply occurs_char|]. intros j Hj. lia.
    + destruct (IH (i + 1)) as (o & -> & Ho); [lia|]. exists o. split; [reflexivity|].
      assert (NO : ~ occurs [c] s i) by (rewrite occurs_char; congruence).
      destruct o as [r|]; cbn in *.
      * destruct Ho as (A & B & C). split; [lia|]. split; [exact B|]. intros j Hj.
        destruct (N.eq_dec j i) as [->|]; [exact NO|]. apply C. lia.
      * intros j Hj. destruct (N.eq_dec j i) as [->|]; [exact NO|]. apply Ho. lia.
Qed.
Lemma indexOf_char_spec s c from :
  exists o, sv_indexOf_char s c from = Ret o /\ first_from [c] s from o.
Proof.
  unfold sv_indexOf_char. destruct (N.ltb_spec (size s) from).
  - exists None. split; [reflexivity|]. intros j Hj. rewrite occurs_alt. change (size [c]) with 1. lia.
  - apply indexOf_char_loop_spec. lia.
Qed.
Lemma lastIndexOf_char_loop_spec k s c i from acc : N.of_nat k + i = size s ->
  from <= i ->
  match acc with
  | Some r => from <= r < i /\ occurs [c] s r /\ forall j, r < j < i -> ~ occurs [c] s j
  | None => forall j, from <= j < i -> ~ occurs [c] s j
  end ->
  exists o, sv_lastIndexOf_char_loop k s c i acc = Ret o /\ last_from [c] s from o.
Proof.
  revert i acc. induction k as [|k IH]; intros i acc Hk Hf Hacc.
  - exists acc. split; [reflexivity|]. assert (END : forall j, i <= j -> ~ occurs [c] s j)
      by (intros j Hj; rewrite occurs_alt; change (size [c]) with 1; lia).
    destruct acc as [r|]; cbn.
    + destruct Hacc as (A & B & C). split; [lia|]. split; [exact B|]. intros j Hj.
      destruct (N.lt_ge_cases j i); [apply C; lia|]. now apply END.
    + intros j Hj. destruct (N.lt_ge_cases j i); [apply Hacc; lia|]. now apply END.
  - cbn [sv_lastIndexOf_char_loop]. destruct (nnth_lt_Some s i) as (x & Hx); [lia|].
    unfold peek at 1. rewrite Hx. cbn [bind]. apply IH; [lia|lia|].
    destruct (N.eqb_spec x c) as [->|Ne].
    + split; [lia|]. split; [now apply occurs_char|]. intros j Hj. lia.
    + assert (NO : ~ occurs [c] s i) by (rewrite occurs_char; congruence).
      destruct acc as [r|].
      * destruct Hacc as (A & B & C). split; [lia|]. split; [exact B|]. intros j Hj.
        destruct (N.eq_dec j i) as [->|]; [exact NO|]. apply C. lia.
      * intros j Hj. destruct (N.eq_dec j i) as [->|]; [exact NO|]. apply Hacc. lia.
Qed.
Lemma lastIndexOf_char_spec s c from :
  exists o, sv_lastIndexOf_char s c from = Ret o /\ last_from [c] s from o.
Proof.
  unfold sv_lastIndexOf_char. destruct (N.ltb_spec (size s) from).
  - exists None. split; [reflexivity|]. intros j Hj. rewrite occurs_alt. change (size [c]) with 1. lia.
  - apply lastIndexOf_char_loop_spec; [lia|lia|]. intros j Hj. lia.
Qed.

(** ** compareTo *)
Lemma strncmp_spec a b : length a = length b -> Forall (fun c => c <> 0) a ->
  ((strncmp a b < 0)%Z <-> lex_lt a b) /\ (strncmp a b = 0%Z <-> a = b) /\ ((0 < strncmp a b)%Z <-> lex_lt b a).
Proof.
  rewrite <- !lexltb_spec. revert b. induction a as [|x a IH]; intros [|y b] H NZ; try discriminate H.
  - cbn. repeat split; try lia; try congruence.
  - cbn [strncmp lexltb]. inversion NZ as [|? ? NX NZ']; subst. injection H as H.
    destruct (N.eqb_spec x y) as [<-|Ne]; cbn [negb].
    + destruct (N.eqb_spec x 0); [contradiction|]. rewrite N.ltb_irrefl, N.eqb_refl.
      destruct (IH b H NZ') as (A & B & C). split; [exact A|]. split; [|exact C]. rewrite B. split; congruence.
    + destruct (N.eqb_spec y x); [congruence|].
      destruct (N.ltb_spec x y), (N.ltb_spec y x); repeat split; try lia; try congruence.
Qed.

Lemma plain_nnth s i c : plain s -> nnth s i = Some c -> 0 < c < 128.
Proof. intros H E. rewrite nnth_nth_error in E. unfold plain in H. rewrite Forall_forall in H. apply H. now apply nth_error_In in E. Qed.
Lemma charAt_plain s i : plain s -> i < size s -> exists z, sv_charAt s i = Ret z /\ (0 < z)%Z.
Proof.
  intros H Hi. unfold sv_charAt. destruct (N.leb_spec (size s) i); [lia|].
  destruct (nnth_lt_Some s i Hi) as (c & Hc). unfold peek. rewrite Hc. cbn [bind].
  pose proof (plain_nnth _ _ _ H Hc). unfold schar. destruct (N.ltb_spec c 128); [|lia].
  eexists. split; [reflexivity|lia].
Qed.

Lemma compareTo_plain a b : sv_ok a -> sv_ok b -> plain a -> plain b -> b <> [] ->
  exists z, sv_compareTo a b = Ret z /\ ((z < 0)%Z <-> shortlex_lt a b) /\ (z = 0%Z <-> a = b) /\ ((0 < z)%Z <-> shortlex_lt b a).
Proof.
  intros Ha Hb Pa Pb Nb. unfold sv_ok in *. pose proof (size_pos b Nb) as Sb. unfold sv_compareTo, shortlex_lt.
  assert (SUB : sub16 (size b) 1 = size b - 1) by (unfold sub16, sub_wrap; lia). rewrite SUB.
  destruct (N.ltb_spec (size b) (size a)) as [L|L].
  - destruct (charAt_plain a (size b - 1) Pa) as (z & -> & Hz); [lia|]. exists z. split; [reflexivity|].
    unfold size in L. split; [split; [lia|]|split; [split; [lia|intros ->; lia]|split; [intros _; left; lia|intros _; exact Hz]]].
    intros [X|(X & _)]; lia.
  - destruct (N.ltb_spec (size a) (size b)) as [L2|L2].
    + destruct (charAt_plain b (size b - 1) Pb) as (z & -> & Hz); [lia|]. exists (- z)%Z. split; [reflexivity|].
      unfold size in L2. split; [split; [intros _; left; lia|intros _; lia]|split; [split; [lia|intros ->; lia]|split; [lia|]]].
      intros [X|(X & _)]; lia.
    + assert (E : length a = length b) by (unfold size in *; lia). eexists. split; [reflexivity|].
      destruct (strncmp_spec a b E) as (A & B & C).
      { eapply Forall_impl; [|exact Pa]. cbn. intros; lia. }
      rewrite A, B, C. rewrite E. repeat split; try tauto; try (intros X; right; now split);
      intros [X|(_ & X)]; try exact X; lia.
Qed.

Lemma shortlex_irrefl a : ~ shortlex_lt a a.
Proof. intros [H|(_ & H)]; [lia|]. exact (lex_irrefl _ H). Qed.
Lemma shortlex_trans a b c : shortlex_lt a b -> shortlex_lt b c -> shortlex_lt a c.
Proof.
  intros [H|(E & H)] [H2|(E2 & H2)]; [left; lia|left; lia|left; lia|]. right. split; [lia|]. exact (lex_trans _ _ _ H H2).
Qed.
Lemma shortlex_total a b : shortlex_lt a b \/ a = b \/ shortlex_lt b a.
Proof.
  unfold shortlex_lt. destruct (Nat.lt_total (length a) (length b)) as [H|[H|H]]; [auto| |auto].
  destruct (lex_total a b) as [X|[X|X]]; auto.
Qed.

(** ** splitting *)
Lemma splits_det d s ps qs : d <> [] -> splits d s ps -> splits d s qs -> ps = qs.
Proof.
  intros Hd H. revert qs. induction H as [s H|p r ps H H' IH]; intros qs Q.
  - inversion Q as [? ?|p r qs' X X']; subst; [reflexivity|]. exfalso. apply (H (size p)). exists p, r. auto.
  - remember (p ++ d ++ r) as s eqn:Es. destruct Q as [s Q|p2 r2 qs Q Q'].
    + exfalso. apply (Q (size p)). exists p, r. auto.
    + assert (L : size p = size p2).
      { destruct (N.lt_trichotomy (size p) (size p2)) as [L|[L|L]]; [|exact L|]; exfalso.
        - apply (Q (size p) L). exists p, r. auto.
        - apply (H (size p2) L). exists p2, r2. auto. }
      assert (E1 : ntake (size p) (p2 ++ d ++ r2) = p) by (rewrite Es; apply ntake_app_exact).
      rewrite L, ntake_app_exact in E1. subst p2.
      apply app_inv_head in Es. apply app_inv_head in Es. subst r2. f_equal. now apply IH.
Qed.
Lemma splits_glue d s ps : splits d s ps -> glue d ps = s.
Proof.
  induction 1 as [s H|p r ps H H' IH]; [reflexivity|]. cbn [glue].
  destruct ps as [|q ps]; [inversion H'|]. now rewrite IH.
Qed.
Lemma splits_free d s ps : d <> [] -> splits d s ps -> Forall (fun p => forall i, ~ occurs d p i) ps.
Proof.
  intros Hd. pose proof (size_pos d Hd). induction 1 as [s H0|p r ps H0 H' IH]; constructor; auto.
  intros i O. pose proof O as O'. apply occurs_alt in O' as (L & _).
  apply (H0 i); [fold (size p); lia|]. destruct O as (a & b & -> & <-). exists a, (b ++ d ++ r).
  now rewrite <- !app_assoc.
Qed.
Lemma splits_nonempty d s ps : splits d s ps -> ps <> [].
Proof. destruct 1; discriminate. Qed.
Lemma splits_length d s ps : splits d s ps -> (N.of_nat (length ps) - 1) * size d <= size s.
Proof.
  induction 1 as [s H|p r ps H H' IH]; cbn [length]; [lia|]. rewrite !size_app.
  destruct ps as [|q ps]; [now apply splits_nonempty in H'|]. cbn [length] in *.
  replace (N.of_nat (S (S (length ps))) - 1) with (N.of_nat (S (length ps)) - 1 + 1) by lia. nia.
Qed.

Lemma ndrop_cut d s from to : from <= to -> occurs d s to ->
  ndrop from s = ntake (to - from) (ndrop from s) ++ d ++ ndrop (to + size d) s.
Proof.
  intros H O. apply occurs_alt in O as (L & E). rewrite <- E at 1.
  rewrite <- (ndrop_ndrop s (size d) to), ntake_ndrop.
  replace (ndrop to s) with (ndrop (to - from) (ndrop from s)) by (rewrite ndrop_ndrop; f_equal; lia).
  now rewrite ntake_ndrop.
Qed.

Lemma splits_cut d s from to ps : from <= to -> to <= size s -> occurs d s to ->
  (forall i, from <= i < to -> ~ occurs d s i) -> splits d (ndrop (to + size d) s) ps ->
  splits d (ndrop from s) (ntake (to - from) (ndrop from s) :: ps).
Proof.
  intros H1 H2 O NO S. pose proof (ndrop_cut d s from to H1 O) as E. rewrite E at 1.
  apply splits_first; [|exact S]. rewrite <- E. intros i Hi. fold (size (ntake (to - from) (ndrop from s))) in Hi.
  rewrite size_ntake, size_ndrop in Hi. rewrite occurs_ndrop by lia. apply NO. lia.
Qed.
Lemma splits_rest d s from to : from <= to -> from <= size s -> size s < to + size d ->
  (forall i, from <= i < to -> ~ occurs d s i) -> splits d (ndrop from s) [ndrop from s].
Proof.
  intros H1 H2 H3 NO. apply splits_last. intros i. rewrite occurs_ndrop by lia.
  destruct (N.lt_ge_cases (from + i) to); [apply NO; lia|]. rewrite occurs_alt. lia.
Qed.

Lemma split_loop_spec fuel d s to from count :
  sv_ok s -> d <> [] -> from <= to <= size s -> (forall i, from <= i < to -> ~ occurs d s i) ->
  (N.to_nat (size s - to) < fuel)%nat -> count < 2 ^ 16 ->
  exists ps, sv_split_loop fuel d s to from count = Ret (ps, u16 (count + (N.of_nat (length ps) - 1))) /\
    splits d (ndrop from s) ps.
Proof.
  intros Hs Hd. pose proof (size_pos d Hd). unfold sv_ok in Hs. revert to from count.
  induction fuel as [|fuel IH]; intros to from count Hft NO Hf Hc; [lia|].
  cbn [sv_split_loop]. destruct (N.leb_spec (to + size d) (size s)) as [L|L].
  - replace (to + (size d - 1) + 1) with (to + size d) by lia. rewrite u16_small by lia.
    destruct (sv_equals d (sv_substring s to (to + size d))) eqn:E.
    + apply match_bool in E; [|lia]. rewrite (u16_small (to + (size d - 1))) by lia.
      replace (to + (size d - 1) + 1) with (to + size d) by lia. rewrite !(u16_small (to + size d)) by lia.
      destruct (IH (to + size d) (to + size d) (u16 (count + 1))) as (ps & -> & S); [lia| |lia| |].
      { intros i Hi. lia. } { unfold u16. lia. }
      cbn [bind fst snd]. eexists. split.
      * do 2 f_equal. pose proof (splits_nonempty _ _ _ S). destruct ps as [|p ps]; [congruence|].
        cbn [length]. unfold u16. lia.
      * rewrite substring_spec. apply splits_cut; auto; lia.
    + assert (NE : ~ occurs d s to) by (intros X; apply match_bool in X; [congruence|lia]).
      rewrite u16_small by lia. apply IH; auto; try lia.
      intros i Hi. destruct (N.eq_dec i to) as [->|]; [exact NE|]. apply NO. lia.
  - exists [ndrop from s]. rewrite substring_from_spec. split.
    + do 2 f_equal. cbn [length]. replace (count + _) with count by lia. now rewrite u16_small.
    + eapply splits_rest; eauto; lia.
Qed.

Lemma split_spec fuel d s : sv_ok s -> d <> [] -> (length s < fuel)%nat ->
  exists ps, sv_split fuel d s = Ret (ps, u16 (N.of_nat (length ps))) /\ splits d s ps.
Proof.
  intros Hs Hd Hf. pose proof (size_pos d Hd). unfold sv_split. destruct (N.ltb_spec (size s) (size d)) as [L|L].
  - exists [s]. split; [reflexivity|]. apply splits_last. intros i. rewrite occurs_alt. lia.
  - destruct (N.eqb_spec (size d) 0); [lia|].
    destruct (split_loop_spec fuel d s 0 0 1) as (ps & E & S); auto; try lia.
    { unfold size. lia. }
    rewrite ndrop_0 in S. exists ps. split; [|exact S]. rewrite E. do 2 f_equal.
    pose proof (splits_nonempty _ _ _ S). destruct ps as [|p ps]; [congruence|]. cbn [length]. f_equal. lia.
Qed.

Lemma split_chars_spec k s to : sv_ok s -> N.of_nat k + to = size s ->
  sv_split_chars k s to = map (fun c => [c]) (ndrop to s).
Proof.
  intros Hs. unfold sv_ok in Hs. revert to. induction k as [|k IH]; intros to H; cbn [sv_split_chars].
  - now rewrite ndrop_all by lia.
  - rewrite u16_small by lia. rewrite IH by lia. rewrite substring_spec.
    rewrite <- (ntake_ndrop 1 (ndrop to s)) at 2. rewrite map_app, ndrop_ndrop.
    replace (to + 1 - to) with 1 by lia. destruct (ndrop to s) as [|c t] eqn:E.
    + assert (X : size (ndrop to s) = 0) by now rewrite E. rewrite size_ndrop in X. lia.
    + cbn. now rewrite ntake_0.
Qed.

Lemma count_loop_spec fuel d s i from cnt :
  sv_ok s -> d <> [] -> from <= i <= size s -> (forall j, from <= j < i -> ~ occurs d s j) ->
  (N.to_nat (size s - i) < fuel)%nat -> cnt < 2 ^ 16 ->
  exists ps, sv_count_loop fuel d s i cnt = Ret (u16 (cnt + (N.of_nat (length ps) - 1))) /\ splits d (ndrop from s) ps.
Proof.
  intros Hs Hd. pose proof (size_pos d Hd). unfold sv_ok in Hs. revert i from cnt.
  induction fuel as [|fuel IH]; intros i from cnt Hfi NO Hf Hc; [lia|].
  cbn [sv_count_loop]. destruct (N.leb_spec (i + size d) (size s)) as [L|L].
  - destruct (N.ltb_spec i (size s)); [|lia]. cbn [andb]. rewrite u16_small by lia.
    destruct (sv_equals d (sv_substring s i (i + size d))) eqn:E.
    + apply match_bool in E; [|lia].
      replace (u16 (sub16 (i + size d) 1 + 1)) with (i + size d) by (unfold u16, sub16, sub_wrap; lia).
      destruct (IH (i + size d) (i + size d) (u16 (cnt + 1))) as (ps & -> & S); [lia| |lia| |].
      { intros j Hj. lia. } { unfold u16. lia. }
      exists (ntake (i - from) (ndrop from s) :: ps). split; [|apply splits_cut; auto; lia].
      f_equal. pose proof (splits_nonempty _ _ _ S). destruct ps as [|p ps]; [congruence|]. cbn [length]. unfold u16. lia.
    + assert (NE : ~ occurs d s i) by (intros X; apply match_bool in X; [congruence|lia]).
      rewrite u16_small by lia. apply IH; auto; try lia.
      intros j Hj. destruct (N.eq_dec j i) as [->|]; [exact NE|]. apply NO. lia.
  - rewrite Bool.andb_false_r. exists [ndrop from s]. split.
    + f_equal. cbn [length]. replace (cnt + _) with cnt by lia. now rewrite u16_small.
    + eapply splits_rest; eauto; lia.
Qed.

(** the pieces with their indices from [i] on and the total *)
Fixpoint indexed (i n : N) (ps : list (list N)) : list (list N * N * N) :=
  match ps with
  | [] => []
  | p :: ps' => (p, i, n) :: indexed (i + 1) n ps'
  end.

Lemma split3_loop_spec fuel d s dc to from i ps :
  sv_ok s -> d <> [] -> from <= to <= size s -> (forall j, from <= j < to -> ~ occurs d s j) ->
  (N.to_nat (size s - to) < fuel)%nat -> dc < 2 ^ 16 ->
  splits d (ndrop from s) ps -> i + N.of_nat (length ps) = dc + 1 ->
  sv_split3_loop fuel d s dc to from i = Ret (indexed i (u16 (dc + 1)) ps).
Proof.
  intros Hs Hd. pose proof (size_pos d Hd). unfold sv_ok in Hs. revert to from i ps.
  induction fuel as [|fuel IH]; intros to from i ps Hft NO Hf Hc SP Hn; [lia|].
  cbn [sv_split3_loop]. destruct (N.leb_spec (to + size d) (size s)) as [L|L].
  - destruct (N.ltb_spec to (size s)); [|lia]. cbn [andb]. rewrite u16_small by lia.
    destruct (sv_equals d (sv_substring s to (to + size d))) eqn:E.
    + apply match_bool in E; [|lia].
      replace (u16 (sub16 (to + size d) 1 + 1)) with (to + size d) by (unfold u16, sub16, sub_wrap; lia).
      assert (exists ps', splits d (ndrop (to + size d) s) ps') as (ps' & S').
      { destruct (split_loop_spec (S (length s)) d s (to + size d) (to + size d) 1) as (ps' & _ & S'); auto; try lia.
        unfold size. lia. eauto. }
      pose proof (splits_det d _ _ _ Hd SP (splits_cut d s from to ps' ltac:(lia) ltac:(lia) E NO S')) as ->.
      cbn [length] in Hn. pose proof (splits_nonempty _ _ _ S'). destruct ps' as [|p1 ps1]; [congruence|].
      cbn [length] in Hn.
      rewrite (IH (to + size d) (to + size d) (u16 (i + 1)) (p1 :: ps1)); auto; try lia.
      * cbn [bind indexed]. rewrite substring_spec. rewrite (u16_small (i + 1)) by lia. reflexivity.
      * cbn [length]. rewrite u16_small; lia.
    + assert (NE : ~ occurs d s to) by (intros X; apply match_bool in X; [congruence|lia]).
      rewrite u16_small by lia. apply (IH (to + 1) from); auto; try lia.
      intros j Hj. destruct (N.eq_dec j to) as [->|]; [exact NE|]. apply NO. lia.
  - rewrite Bool.andb_false_r.
    pose proof (splits_det d _ _ _ Hd SP (splits_rest d s from to ltac:(lia) ltac:(lia) L NO)) as ->.
    cbn [length] in Hn. rewrite substring_from_spec. cbn [indexed]. repeat f_equal. lia.
Qed.

Lemma split3_spec fuel d s : sv_ok s -> d <> [] -> (length s < fuel)%nat ->
  exists ps, sv_split3 fuel d s = Ret (indexed 0 (u16 (N.of_nat (length ps))) ps, u16 (N.of_nat (length ps))) /\ splits d s ps.
Proof.
  intros Hs Hd Hf. unfold sv_split3.
  destruct (count_loop_spec fuel d s 0 0 0) as (ps & -> & S); auto; try lia.
  { unfold size. lia. }
  cbn [bind]. rewrite N.add_0_l. pose proof (splits_nonempty _ _ _ S) as NE.
  pose proof (splits_length _ _ _ S) as LE. rewrite size_ndrop, N.sub_0_r in LE. pose proof (size_pos d Hd). unfold sv_ok in Hs.
  assert (N.of_nat (length ps) - 1 < 2 ^ 16) by nia.
  assert (0 < N.of_nat (length ps)) by (destruct ps; [congruence|cbn [length]; lia]).
  rewrite (u16_small (N.of_nat (length ps) - 1)) by lia.
  rewrite (split3_loop_spec fuel d s _ 0 0 0 ps); auto; try lia.
  - cbn [bind]. exists ps. rewrite ndrop_0 in S. split; [|exact S]. repeat f_equal; lia.
  - unfold size. lia.
Qed.

Lemma split_char_loop_spec k c s to from count :
  sv_ok s -> from <= to -> N.of_nat k + to = size s -> (forall i, from <= i < to -> ~ occurs [c] s i) -> count < 2 ^ 16 ->
  exists ps, sv_split_char_loop k c s to from count = Ret (ps, u16 (count + (N.of_nat (length ps) - 1))) /\
    splits [c] (ndrop from s) ps.
Proof.
  intros Hs. unfold sv_ok in Hs. revert to from count.
  induction k as [|k IH]; intros to from count Hft Hk NO Hc; cbn [sv_split_char_loop].
  - exists [ndrop from s]. rewrite substring_from_spec. split.
    + do 2 f_equal. cbn [length]. replace (count + _) with count by lia. now rewrite u16_small.
    + eapply splits_rest; eauto; try lia. change (size [c]) with 1. lia.
  - destruct (nnth_lt_Some s to) as (x & Hx); [lia|]. unfold peek at 1. rewrite Hx. cbn [bind].
    rewrite u16_small by lia. destruct (N.eqb_spec x c) as [->|Ne].
    + apply occurs_char in Hx.
      destruct (IH (to + 1) (to + 1) (u16 (count + 1))) as (ps & -> & S); [lia|lia| | |].
      { intros i Hi. lia. } { unfold u16. lia. }
      cbn [bind fst snd]. eexists. split.
      * do 2 f_equal. pose proof (splits_nonempty _ _ _ S). destruct ps as [|p ps]; [congruence|].
        cbn [length]. unfold u16. lia.
      * rewrite substring_spec. apply splits_cut; auto; lia.
    + assert (NE : ~ occurs [c] s to) by (rewrite occurs_char; congruence).
      apply IH; auto; try lia. intros i Hi. destruct (N.eq_dec i to) as [->|]; [exact NE|]. apply NO. lia.
Qed.
Lemma split_char_spec c s : sv_ok s ->
  exists ps, sv_split_char c s = Ret (ps, u16 (N.of_nat (length ps))) /\ splits [c] s ps.
Proof.
  intros Hs. unfold sv_split_char. destruct (split_char_loop_spec (length s) c s 0 0 1) as (ps & E & S); auto; try lia.
  { unfold size; lia. }
  rewrite ndrop_0 in S. exists ps. split; [|exact S]. rewrite E. do 2 f_equal.
  pose proof (splits_nonempty _ _ _ S). destruct ps as [|p ps]; [congruence|]. cbn [length]. f_equal. lia.
Qed.

Lemma splits_repeat c n : splits [c] (repeat c n) (repeat [] (S n)).
Proof.
  induction n as [|n IH].
  - apply splits_last. intros i. rewrite occurs_char. destruct i; discriminate.
  - change (repeat c (S n)) with ([] ++ [c] ++ repeat c n).
    change (repeat (@nil N) (S (S n))) with (@nil N :: repeat (@nil N) (S n)).
    apply splits_first; [|exact IH]. cbn [length]. intros i Hi. lia.
Qed.

(** ** trim *)
Lemma trim_lead_spec p s : exists a r, s = a ++ r /\ Forall (fun c => p c = true) a /\ size a = sv_trim_lead p s /\
  match r with [] => True | c :: _ => p c = false end.
Proof.
  induction s as [|c s (a & r & -> & F & L & M)]; cbn [sv_trim_lead].
  - exists [], []. repeat split; constructor.
  - destruct (p c) eqn:E.
    + exists (c :: a), r. repeat split; auto. rewrite size_cons. lia.
    + exists [], (c :: a ++ r). repeat split; auto.
Qed.
Lemma trim_trail_spec p s from k : from + 1 <= N.of_nat k <= size s ->
  exists to, sv_trim_trail p s from k = Ret to /\ from + 1 <= to <= N.of_nat k /\
    (forall i, to <= i < N.of_nat k -> exists c, nnth s i = Some c /\ p c = true) /\
    (to = from + 1 \/ exists c, nnth s (to - 1) = Some c /\ p c = false).
Proof.
  induction k as [|k IH]; intros H; [lia|]. cbn [sv_trim_trail].
  destruct (N.ltb_spec (from + 1) (N.of_nat (S k))) as [L|L].
  - destruct (nnth_lt_Some s (N.of_nat (S k) - 1)) as (c & Hc); [lia|]. unfold peek at 1. rewrite Hc. cbn [bind].
    destruct (p c) eqn:E.
    + destruct IH as (to & -> & A & B & C); [lia|]. exists to. repeat split; auto; try lia.
      intros i Hi. destruct (N.eq_dec i (N.of_nat k)) as [->|].
      * exists c. split; [|exact E]. rewrite <- Hc. f_equal. lia.
      * apply B. lia.
    + exists (N.of_nat (S k)). split; [reflexivity|]. split; [lia|]. split; [intros i Hi; lia|]. right. eauto.
  - exists (N.of_nat (S k)). split; [reflexivity|]. split; [lia|]. split; [intros i Hi; lia|]. left. lia.
Qed.

Lemma last_nnth (t : list N) : t <> [] -> nnth t (size t - 1) = Some (last t 0).
Proof.
  intros H. destruct (exists_last H) as (l & x & ->). rewrite last_last, size_app. change (size [x]) with 1.
  rewrite nnth_app. destruct (N.ltb_spec (size l + 1 - 1) (size l)); [lia|].
  replace (size l + 1 - 1 - size l) with 0 by lia. reflexivity.
Qed.

Lemma trim_by_spec p s : exists t, sv_trim_by p s = Ret t /\ trimmed (fun c => p c = true) s t.
Proof.
  unfold sv_trim_by. destruct (trim_lead_spec p s) as (a & r & -> & F & L & M). rewrite <- L.
  destruct r as [|c r].
  - rewrite app_nil_r. assert (E : sv_trim_trail p a (size a) (length a) = Ret (size a)).
    { destruct a as [|x a]; [reflexivity|]. cbn [length sv_trim_trail].
      destruct (N.ltb_spec (size (x :: a) + 1) (N.of_nat (S (length a)))) as [X|X]; [unfold size in X; cbn [length] in X; lia|].
      reflexivity. }
    rewrite E. cbn [bind]. eexists. split; [reflexivity|]. rewrite substring_spec, N.sub_diag, ntake_0.
    exists a, []. cbn. rewrite app_nil_r. auto.
  - set (s := a ++ c :: r). assert (SZ : size s = size a + size r + 1) by (unfold s; rewrite size_app, size_cons; lia).
    destruct (trim_trail_spec p s (size a) (length s)) as (to & -> & A & B & C).
    { fold (size s). rewrite SZ. lia. }
    fold (size s) in A, B. cbn [bind]. eexists. split; [reflexivity|]. rewrite substring_spec.
    unfold s at 2. rewrite ndrop_app_exact. set (t := ntake (to - size a) (c :: r)).
    assert (SPLIT : s = a ++ t ++ ndrop to s).
    { unfold s at 1, t. f_equal. replace (ndrop to s) with (ndrop (to - size a) (c :: r)).
      - now rewrite ntake_ndrop.
      - unfold s. rewrite ndrop_app, (ndrop_all to a) by lia. reflexivity. }
    assert (ST : size t = to - size a) by (unfold t; rewrite size_ntake, size_cons; lia).
    exists a, (ndrop to s). split; [exact SPLIT|]. split; [exact F|]. split.
    + apply Forall_forall. intros x Hx. apply In_nth_error in Hx as (i & Hi).
      pose proof (nnth_nth_error (ndrop to s) (N.of_nat i)) as X. rewrite Nat2N.id, Hi, nnth_ndrop in X.
      pose proof (nnth_Some_lt _ _ _ X). destruct (B (to + N.of_nat i)) as (y & Y & Py); [lia|]. congruence.
    + destruct t as [|t0 t'] eqn:Et; [exact I|]. rewrite <- Et in *.
      assert (t0 = c). { unfold t in Et. cbn [ntake] in Et. destruct (N.eqb_spec (to - size a) 0); congruence. } subst t0.
      split; [congruence|].
      assert (Tn : t <> []) by (rewrite Et; discriminate).
      pose proof (last_nnth t Tn) as LA. rewrite ST in LA.
      assert (Y : nnth s (to - 1) = Some (last t 0)).
      { rewrite SPLIT, nnth_app. destruct (N.ltb_spec (to - 1) (size a)); [lia|]. rewrite nnth_app, ST.
        destruct (N.ltb_spec (to - 1 - size a) (to - size a)); [|lia]. rewrite <- LA. f_equal. lia. }
      destruct C as [->|(x & X & Px)].
      * replace (size a + 1 - size a - 1) with 0 in LA by lia. assert (Z : nnth t 0 = Some c) by now rewrite Et. congruence.
      * congruence.
Qed.

Lemma Forall_head_unique {A} (P : A -> Prop) (a a' x x' : list A) :
  Forall P a -> Forall P a' -> match x with [] => True | c :: _ => ~ P c end ->
  match x' with [] => True | c :: _ => ~ P c end -> a ++ x = a' ++ x' -> (x = [] <-> x' = []) -> x = x'.
Proof.
  revert a'. induction a as [|c a IH]; intros [|c' a'] F F' H H' E N; cbn in *.
  - exact E.
  - destruct x as [|d x]; [discriminate E|]. inversion F'; subst. injection E as -> _. contradiction.
  - destruct x' as [|d x']; [discriminate E|]. inversion F; subst. injection E as -> _. contradiction.
  - injection E as -> E. inversion F; inversion F'; subst. eauto.
Qed.

Lemma trimmed_unique P s t t' : trimmed P s t -> trimmed P s t' -> t = t'.
Proof.
  intros (a & b & -> & Fa & Fb & M) (a' & b' & E & Fa' & Fb' & M').
  assert (K : forall a b t a' b' t' : list N, a ++ t ++ b = a' ++ t' ++ b' -> Forall P a -> Forall P b ->
     match t' with [] => True | c :: _ => ~ P c /\ ~ P (last t' 0) end -> t = [] -> t' = []).
  { clear. intros a b t a' b' t' E Fa Fb M ->. destruct t' as [|c t']; [reflexivity|]. destruct M as (M & _). exfalso. apply M.
    assert (F : Forall P (a ++ [] ++ b)) by (apply Forall_app; auto). rewrite E in F.
    apply Forall_app in F as (_ & F). now inversion F. }
  assert (NN : t = [] <-> t' = []) by (split; intros X; [eapply K with (a := a) (a' := a')|eapply K with (a := a') (a' := a)]; eauto).
  destruct t as [|c t]; [symmetry; now apply NN|]. destruct t' as [|c' t']; [now apply NN|].
  destruct M as (M1 & M2), M' as (M1' & M2').
  assert (E1 : (c :: t) ++ b = (c' :: t') ++ b').
  { apply (Forall_head_unique P a a'); auto. cbn. split; discriminate. }
  apply (f_equal (@rev N)) in E1. rewrite !rev_app_distr in E1.
  assert (R : forall l : list N, l <> [] -> exists m, rev l = last l 0 :: m).
  { intros l Hl. destruct (exists_last Hl) as (m & x & ->). rewrite rev_app_distr, last_last. cbn. eauto. }
  destruct (R (c :: t)) as (m & Em); [discriminate|]. destruct (R (c' :: t')) as (m' & Em'); [discriminate|].
  assert (E2 : rev (c :: t) = rev (c' :: t')).
  { apply (Forall_head_unique P (rev b) (rev b')); auto using Forall_rev; rewrite ?Em, ?Em'; auto. split; discriminate. }
  apply (f_equal (@rev N)) in E2. now rewrite !rev_involutive in E2.
Qed.
Lemma trimmed_self P s t : trimmed P s t -> trimmed P t t.
Proof.
  intros (a & b & -> & Fa & Fb & M). exists [], []. rewrite app_nil_r. auto.
Qed.

Lemma isspace_spec c : isspace c = true <-> whitespace c.
Proof.
  unfold isspace, whitespace. rewrite Bool.orb_true_iff, Bool.andb_true_iff, !N.leb_le, N.eqb_eq. cbn. lia.
Qed.
Lemma trimmed_ext (P Q : N -> Prop) s t : (forall c, P c <-> Q c) -> trimmed P s t -> trimmed Q s t.
Proof.
  intros H (a & b & E & Fa & Fb & M). exists a, b. split; [exact E|].
  split; [eapply Forall_impl; [|exact Fa]; intros; now apply H|]. split; [eapply Forall_impl; [|exact Fb]; intros; now apply H|].
  destruct t; [exact I|]. now rewrite !H in M.
Qed.

(** ** hashCode *)
Lemma hash_spec s r : bytes_ok s -> forall z, Z.of_N r = (z mod 2 ^ 64)%Z ->
  Z.of_N (fold_left (fun result c => u64 (char_to_u64 c + u64 (result * 31))) s r) = (poly31 z s mod 2 ^ 64)%Z.
Proof.
  revert r. induction s as [|c s IH]; intros r F z Hz; cbn [fold_left poly31]; [exact Hz|].
  inversion F as [|? ? Hc F']; subst. apply IH; [exact F'|].
  unfold u64, char_to_u64, is_byte in *. rewrite <- N.add_mod_idemp_r, N.mod_mod, N.add_mod_idemp_r by lia.
  rewrite N2Z.inj_mod, N2Z.inj_add, N2Z.inj_mul, Hz.
  change (Z.of_N (2 ^ 64)) with (2 ^ 64)%Z. change (Z.of_N 31) with 31%Z.
  rewrite (Z.add_comm _ (_ * 31)). rewrite <- (Z.add_mod_idemp_l (z mod 2 ^ 64 * 31)), Z.mul_mod_idemp_l, Z.add_mod_idemp_l by lia.
  destruct (N.ltb_spec c 128) as [L|L]; [reflexivity|].
  rewrite N2Z.inj_add. change (Z.of_N (2 ^ 64 - 256)) with (2 ^ 64 - 256)%Z.
  replace (z * 31 + (2 ^ 64 - 256 + Z.of_N c))%Z with (z * 31 + (Z.of_N c - 256) + 1 * 2 ^ 64)%Z by lia.
  now rewrite Z.mod_add by lia.
Qed.
