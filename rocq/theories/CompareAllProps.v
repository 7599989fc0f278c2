(** C140: comparison of any two texts and of any two paths. *)
From Verif Require Import Base BaseLemmas LexSpec LexProofs StringViewModel StringViewProofs PathModel PathProofs CompareAllSpec.

(** Texts of bytes whose size fits its type. *)
Definition text_ok (s : list N) : Prop := size s < 2 ^ 16 /\ Forall (fun c => c < 256) s.

Lemma strncmp_nul a : forall b, length a = length b ->
  (strncmp a b ?= 0)%Z = (if list_eq_dec N.eq_dec (before_nul a) (before_nul b) then Eq else if lexltb (before_nul a) (before_nul b) then Lt else Gt).
Proof.
  induction a as [|x a IH]; intros [|y b] L; try discriminate L; [reflexivity|]. injection L as L. cbn [strncmp before_nul].
  destruct (N.eqb_spec x y) as [<-|N]; cbn [negb].
  - destruct (N.eqb_spec x 0); [reflexivity|]. rewrite IH by exact L. cbn [lexltb]. rewrite N.ltb_irrefl, N.eqb_refl.
    destruct (list_eq_dec N.eq_dec (before_nul a) (before_nul b)) as [E|E].
    + rewrite E. destruct (list_eq_dec N.eq_dec (x :: before_nul b) (x :: before_nul b)); congruence.
    + destruct (list_eq_dec N.eq_dec (x :: before_nul a) (x :: before_nul b)); [congruence|]. reflexivity.
  - destruct (N.eqb_spec x 0), (N.eqb_spec y 0); try lia.
    + destruct (list_eq_dec N.eq_dec [] (y :: before_nul b)); [discriminate|]. cbn [lexltb]. destruct (N.ltb_spec x y); [reflexivity|lia].
    + destruct (list_eq_dec N.eq_dec (x :: before_nul a) []); [discriminate|]. cbn [lexltb]. destruct (N.ltb_spec x y); [lia|reflexivity].
    + destruct (list_eq_dec N.eq_dec (x :: before_nul a) (y :: before_nul b)); [congruence|]. cbn [lexltb].
      destruct (N.ltb_spec x y); [reflexivity|]. destruct (N.eqb_spec y x); [congruence|]. destruct (N.eqb_spec x y); [congruence|]. reflexivity.
Qed.

Lemma compares_total a b : exists v, compares a b v.
Proof.
  destruct (Nat.lt_trichotomy (length a) (length b)) as [L|[L|L]].
  - destruct b as [|y b] using rev_ind; [cbn in L; lia|]. clear IHb. rewrite app_length in L. cbn in L. eexists. apply compares_shorter. lia.
  - destruct (lex_total (before_nul a) (before_nul b)) as [H|[H|H]]; eexists; [apply compares_less|apply compares_equal|apply compares_greater]; assumption.
  - destruct b as [|y b]; [destruct a; [cbn in L; lia|]; eexists; apply compares_nothing|]. cbn [length] in L.
    assert (K : (length b < length a)%nat) by lia. destruct (nth_error a (length b)) as [c|] eqn:E; [|apply nth_error_None in E; lia].
    apply nth_error_split in E. destruct E as (p & r & -> & P). eexists. apply compares_longer with (r := r).
    + intros ->. rewrite app_length in L. cbn in L. lia.
    + cbn. lia.
Qed.

Lemma sign_schar c : c < 256 -> (schar c ?= 0)%Z = sign c.
Proof.
  intros H. unfold schar, sign. destruct (N.eqb_spec c 0) as [->|N]; [reflexivity|]. destruct (N.ltb_spec c 128).
  - apply Z.compare_gt_iff. lia.
  - apply Z.compare_lt_iff. lia.
Qed.
Lemma charAt_at p c r : sv_charAt (p ++ c :: r) (size p) = Ret (schar c).
Proof.
  unfold sv_charAt. rewrite size_app, size_cons. destruct (N.leb_spec (size p + (size r + 1)) (size p)); [lia|].
  unfold peek. rewrite nnth_nth_error. unfold size. rewrite Nat2N.id, nth_error_app2, Nat.sub_diag by lia. reflexivity.
Qed.
Lemma compares_sound a b v : text_ok a -> text_ok b -> compares a b v -> answers (sv_compareTo a b) v.
Proof.
  intros (Sa & Ba) (Sb & Bb) C. unfold sv_compareTo.
  destruct C as [p c r b R L|a p c L|c a|a b L H|a b L H|a b L H]; cbn [answers].
  - assert (size b = size p + 1) as E by (unfold size; lia). rewrite E, size_app, size_cons.
    destruct r as [|x r]; [congruence|]. rewrite size_cons. destruct (N.ltb_spec (size p + 1) (size p + (size r + 1 + 1))); [|lia].
    rewrite size_app, !size_cons in Sa. replace (sub16 (size p + 1) 1) with (size p) by (unfold sub16, sub_wrap; lia). rewrite charAt_at. cbn [noexcept].
    eexists. split; [reflexivity|]. apply sign_schar. rewrite Forall_forall in Ba. apply Ba. apply in_or_app. right. now left.
  - assert (size a <= size p) as E by (unfold size; lia). rewrite size_app in *. change (size [c]) with 1 in *.
    destruct (N.ltb_spec (size p + 1) (size a)); [lia|]. destruct (N.ltb_spec (size a) (size p + 1)); [|lia].
    replace (sub16 (size p + 1) 1) with (size p) by (unfold sub16, sub_wrap; lia). rewrite charAt_at. cbn [noexcept bind].
    eexists. split; [reflexivity|]. rewrite <- sign_schar by (rewrite Forall_forall in Bb; apply Bb; apply in_or_app; right; now left).
    destruct (schar c); reflexivity.
  - rewrite size_cons in *. change (size (@nil N)) with 0. destruct (N.ltb_spec 0 (size a + 1)); [|lia]. unfold sv_charAt. rewrite size_cons.
    change (sub16 0 1) with 65535. destruct (N.leb_spec (size a + 1) 65535); [reflexivity|]. change (2 ^ 16) with 65536 in *. lia.
  - assert (size a = size b) as E by (unfold size; lia). rewrite E, N.ltb_irrefl. eexists. split; [reflexivity|]. rewrite strncmp_nul by exact L.
    destruct (list_eq_dec _ _ _) as [X|X]; [rewrite X in H; now apply lex_irrefl in H|]. apply lexltb_spec in H. now rewrite H.
  - assert (size a = size b) as E by (unfold size; lia). rewrite E, N.ltb_irrefl. eexists. split; [reflexivity|]. rewrite strncmp_nul by exact L.
    destruct (list_eq_dec _ _ _); congruence.
  - assert (size a = size b) as E by (unfold size; lia). rewrite E, N.ltb_irrefl. eexists. split; [reflexivity|]. rewrite strncmp_nul by exact L.
    destruct (list_eq_dec _ _ _) as [X|X]; [rewrite X in H; now apply lex_irrefl in H|].
    destruct (lexltb (before_nul a) (before_nul b)) eqn:Y; [|reflexivity]. apply lexltb_spec in Y. destruct (lex_irrefl _ (lex_trans _ _ _ H Y)).
Qed.
Lemma answers_fun r v w : answers r v -> answers r w -> v = w.
Proof. destruct v, w; cbn; intros A B; [|destruct A as (? & -> & _); discriminate|destruct B as (? & -> & _); discriminate|reflexivity]. destruct A as (z & -> & <-), B as (y & E & <-). injection E as <-. reflexivity. Qed.

(** Of all pairs of texts. *)
Theorem C140_text : forall a b, text_ok a -> text_ok b ->
  (exists v, compares a b v) /\ forall v, compares a b v <-> answers (sv_compareTo a b) v.
Proof.
  intros a b A B. split; [apply compares_total|]. intros v. split; [now apply compares_sound|]. intros H.
  destruct (compares_total a b) as (w & W). pose proof (compares_sound _ _ _ A B W) as K. now rewrite (answers_fun _ _ _ H K).
Qed.
Print Assumptions C140_text.

(** Of all pairs of paths. *)
Theorem C140_path : forall p q, Forall text_ok (p_comps p) -> Forall text_ok (p_comps q) ->
  (exists v, sequences_compare (p_comps p) (p_comps q) v) /\ forall v, sequences_compare (p_comps p) (p_comps q) v <-> answers (path_compareTo p q) v.
Proof.
  intros p q P Q.
  assert (T : forall a b, exists v, sequences_compare a b v).
  { induction a as [|x a IH]; intros [|y b]; try (eexists; constructor; fail). destruct (compares_total x y) as ([[]|] & V).
    - destruct (IH b) as (w & W). exists w. now apply seq_next.
    - eexists. eapply seq_here; [exact V|discriminate].
    - eexists. eapply seq_here; [exact V|discriminate].
    - eexists. eapply seq_here; [exact V|discriminate]. }
  assert (S : forall v, sequences_compare (p_comps p) (p_comps q) v -> answers (path_compareTo p q) v).
  { intros v. unfold path_compareTo.
    assert (G : forall k i, N.of_nat k + i = N.min (size (p_comps p)) (size (p_comps q)) ->
      sequences_compare (ndrop i (p_comps p)) (ndrop i (p_comps q)) v -> answers (compare_loop k p q i) v).
    { induction k as [|k IH]; intros i H C; cbn [compare_loop].
      - pose proof (size_ndrop i (p_comps p)) as Sp. pose proof (size_ndrop i (p_comps q)) as Sq.
        assert (D : ndrop i (p_comps p) = [] \/ ndrop i (p_comps q) = []).
        { destruct (N.le_gt_cases (size (p_comps p)) (size (p_comps q))); [left|right]; apply size_0_nil; lia. }
        inversion C as [X Y|y b X Y|x a X Y|x y a b w _ _ X Y|x y a b w _ _ X Y]; subst; rewrite <- X, <- Y in *; try (destruct D; discriminate);
          cbn [answers]; eexists; (split; [reflexivity|]); rewrite ?size_cons in *; change (size (@nil (list N))) with 0 in *; rewrite <- Z.compare_sub.
        all: rewrite N2Z.inj_compare; first [apply N.compare_eq_iff | apply N.compare_lt_iff | apply N.compare_gt_iff]; lia.
      - destruct (nnth_lt_Some (p_comps p) i) as (x & Hx); [lia|]. destruct (nnth_lt_Some (p_comps q) i) as (y & Hy); [lia|].
        unfold path_at. rewrite Hx, Hy. cbn [bind]. rewrite (ndrop_cons _ _ _ Hx), (ndrop_cons _ _ _ Hy) in C.
        assert (text_ok x) as TX by (rewrite nnth_nth_error in Hx; apply nth_error_In in Hx; rewrite Forall_forall in P; auto).
        assert (text_ok y) as TY by (rewrite nnth_nth_error in Hy; apply nth_error_In in Hy; rewrite Forall_forall in Q; auto).
        inversion C as [| | |x' y' a b w W NE|x' y' a b w W R]; subst.
        + pose proof (compares_sound _ _ _ TX TY W) as A. destruct v as [s|]; cbn [answers] in *.
          * destruct A as (z & -> & Z). cbn [bind]. destruct (Z.eqb_spec z 0) as [->|]; [cbn in Z; congruence|]. eexists. split; [reflexivity|exact Z].
          * rewrite A. reflexivity.
        + destruct (compares_sound _ _ _ TX TY W) as (z & -> & Z). apply Z.compare_eq_iff in Z. subst z. cbn [bind Z.eqb].
          apply IH; [lia|]. replace (i + 1) with (N.succ i) in * by lia. exact R. }
    intros C. apply G; [lia|]. now rewrite !ndrop_0. }
  split; [apply T|]. intros v. split; [apply S|]. intros H. destruct (T (p_comps p) (p_comps q)) as (w & W). now rewrite (answers_fun _ _ _ H (S w W)).
Qed.
Print Assumptions C140_path.

(** Every text and every path is equal to itself. *)
Theorem C140_self : forall a p, text_ok a -> Forall text_ok (p_comps p) ->
  answers (sv_compareTo a a) (Some Eq) /\ answers (path_compareTo p p) (Some Eq).
Proof.
  intros a p A P. split; [apply C140_text; auto; now apply compares_equal|]. apply C140_path; auto. clear P.
  induction (p_comps p) as [|c l IH]; [constructor|]. apply seq_next; [now apply compares_equal|exact IH].
Qed.
Print Assumptions C140_self.
(** Exactly the pairs of texts that are reported equal. *)
Theorem C140_zero : forall a b, text_ok a -> text_ok b ->
  (sv_compareTo a b = Ret 0%Z <->
   (length a = length b /\ before_nul a = before_nul b) \/
   (exists p r, a = p ++ 0 :: r /\ r <> [] /\ length b = S (length p)) \/
   (exists p, b = p ++ [0] /\ (length a <= length p)%nat)).
Proof.
  intros a b A B. assert (Q : sv_compareTo a b = Ret 0%Z <-> compares a b (Some Eq)).
  { rewrite (proj2 (C140_text a b A B)). cbn [answers]. split; [intros ->; eexists; split; reflexivity|]. intros (z & -> & Z). apply Z.compare_eq_iff in Z. now subst. }
  assert (S0 : forall c, sign c = Eq -> c = 0).
  { intros c. unfold sign. destruct (N.eqb_spec c 0); [auto|]. destruct (c <? 128); discriminate. }
  rewrite Q. split.
  - intros C. inversion C as [p c r b' R L X Y Z|a' p c L X Y Z| | |a' b' L H|]; subst.
    + right. left. exists p, r. now rewrite (S0 c Z).
    + right. right. exists p. rewrite (S0 c); [auto|]. destruct (sign c); (reflexivity || discriminate).
    + left. auto.
  - intros [(L & H)|[(p & r & -> & R & L)|(p & -> & L)]].
    + now apply compares_equal.
    + exact (compares_longer p 0 r b R L).
    + exact (compares_shorter a p 0 L).
Qed.
Print Assumptions C140_zero.
(** Texts of the same length compare the two ways round with opposite signs; others
    exactly when the two bytes looked at have the same sign. *)
Theorem C140_mirror : forall a b, text_ok a -> text_ok b ->
  (length a = length b -> exists s, answers (sv_compareTo a b) (Some s) /\ answers (sv_compareTo b a) (Some (CompOpp s))) /\
  (forall p c q d, a = p ++ c :: q ++ [d] -> length b = S (length p) ->
     ((exists s, answers (sv_compareTo a b) (Some s) /\ answers (sv_compareTo b a) (Some (CompOpp s))) <-> sign c = sign d)).
Proof.
  intros a b A B. pose proof (proj2 (C140_text a b A B)) as AB. pose proof (proj2 (C140_text b a B A)) as BA. split.
  - intros L. destruct (lex_total (before_nul a) (before_nul b)) as [H|[H|H]]; [exists Lt|exists Eq|exists Gt]; rewrite <- AB, <- BA; cbn [CompOpp]; split.
    + now apply compares_less. + now apply compares_greater.
    + now apply compares_equal. + now apply compares_equal.
    + now apply compares_greater. + now apply compares_less.
  - intros p c q d E L.
    assert (X : compares a b (Some (sign c))) by (rewrite E; apply compares_longer; [destruct q; discriminate|exact L]).
    assert (Y : compares b a (Some (CompOpp (sign d)))).
    { rewrite E. replace (p ++ c :: q ++ [d]) with ((p ++ c :: q) ++ [d]) by (rewrite <- app_assoc; reflexivity).
      apply compares_shorter. rewrite app_length. cbn. lia. }
    apply AB in X. apply BA in Y. split.
    + intros (s & S1 & S2). pose proof (answers_fun _ _ _ X S1) as F1. pose proof (answers_fun _ _ _ Y S2) as F2.
      injection F1 as F1. injection F2 as F2. rewrite F1. destruct (sign d), s; cbn in F2; congruence.
    + intros Q. exists (sign c). split; [exact X|]. rewrite Q. exact Y.
Qed.
Print Assumptions C140_mirror.

Example C140_ok : text_ok [98; 97] /\ text_ok [99] /\ text_ok [] /\
  answers (sv_compareTo [98; 97] [99]) (Some Gt) /\ answers (sv_compareTo [98; 0] [99]) (Some Gt) /\ answers (sv_compareTo [99] [98; 0]) (Some Eq) /\
  answers (path_compareTo (mkPath [[97]; [98; 0; 1]] 2) (mkPath [[97]; [98; 0; 2]; [99]] 3)) (Some Lt) /\
  answers (path_compareTo (mkPath [[97]] 1) (mkPath [[]; [98]] 2)) None.
Proof.
  assert (T : forall s, forallb (fun c => c <? 256) s = true -> size s < 2 ^ 16 -> text_ok s).
  { intros s H L. split; [exact L|]. rewrite forallb_forall in H. apply Forall_forall. intros c I. now apply N.ltb_lt, H. }
  repeat split; try (apply T; reflexivity); try (repeat constructor); try (eexists; split; reflexivity).
Qed.
