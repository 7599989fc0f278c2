(** Lemmas about the vocabulary of Base.v. *)
From Verif Require Import Base.

Ltac Zify.zify_post_hook ::= Z.div_mod_to_equations.

Lemma size_nil {A} : size (@nil A) = 0.
Proof. reflexivity. Qed.
Lemma size_cons {A} (x : A) l : size (x :: l) = size l + 1.
Proof. unfold size; cbn [length]; lia. Qed.
Lemma size_app {A} (l m : list A) : size (l ++ m) = size l + size m.
Proof. unfold size; rewrite app_length; lia. Qed.
Lemma size_rev {A} (l : list A) : size (rev l) = size l.
Proof. unfold size; now rewrite rev_length. Qed.
Lemma size_0_nil {A} (l : list A) : size l = 0 -> l = [].
Proof. unfold size; destruct l; cbn [length]; [reflexivity | lia]. Qed.

Lemma ntake_firstn {A} (l : list A) n : ntake n l = firstn (N.to_nat n) l.
Proof.
  revert n; induction l as [|x t IH]; intros n.
  - now rewrite firstn_nil.
  - cbn [ntake]. destruct (N.eqb_spec n 0) as [->|H]; [reflexivity|].
    rewrite IH. replace (N.to_nat n) with (S (N.to_nat (N.pred n))) by lia. reflexivity.
Qed.

Lemma ndrop_skipn {A} (l : list A) n : ndrop n l = skipn (N.to_nat n) l.
Proof.
  revert n; induction l as [|x t IH]; intros n.
  - now rewrite skipn_nil.
  - cbn [ndrop]. destruct (N.eqb_spec n 0) as [->|H]; [reflexivity|].
    rewrite IH. replace (N.to_nat n) with (S (N.to_nat (N.pred n))) by lia. reflexivity.
Qed.

Lemma nnth_nth_error {A} (l : list A) n : nnth l n = nth_error l (N.to_nat n).
Proof.
  revert n; induction l as [|x t IH]; intros n.
  - now destruct (N.to_nat n).
  - cbn [nnth]. destruct (N.eqb_spec n 0) as [->|H]; [reflexivity|].
    rewrite IH. replace (N.to_nat n) with (S (N.to_nat (N.pred n))) by lia. reflexivity.
Qed.

Lemma size_firstn {A} n (l : list A) : size (firstn n l) = N.min (N.of_nat n) (size l).
Proof. unfold size; rewrite firstn_length; lia. Qed.
Lemma size_skipn {A} n (l : list A) : size (skipn n l) = size l - N.of_nat n.
Proof. unfold size; rewrite skipn_length; lia. Qed.
Lemma size_ntake {A} n (l : list A) : size (ntake n l) = N.min n (size l).
Proof. rewrite ntake_firstn, size_firstn; lia. Qed.
Lemma size_ndrop {A} n (l : list A) : size (ndrop n l) = size l - n.
Proof. rewrite ndrop_skipn, size_skipn; lia. Qed.

Lemma ntake_all {A} n (l : list A) : size l <= n -> ntake n l = l.
Proof. intros H. rewrite ntake_firstn. apply firstn_all2. unfold size in H; lia. Qed.
Lemma ndrop_all {A} n (l : list A) : size l <= n -> ndrop n l = [].
Proof. intros H. rewrite ndrop_skipn. apply skipn_all2. unfold size in H; lia. Qed.
Lemma ndrop_0 {A} (l : list A) : ndrop 0 l = l.
Proof. destruct l; reflexivity. Qed.
Lemma ntake_0 {A} (l : list A) : ntake 0 l = [].
Proof. destruct l; reflexivity. Qed.
Lemma ntake_ndrop {A} n (l : list A) : ntake n l ++ ndrop n l = l.
Proof. rewrite ntake_firstn, ndrop_skipn. apply firstn_skipn. Qed.

Lemma nnth_Some_lt {A} (l : list A) n x : nnth l n = Some x -> n < size l.
Proof. rewrite nnth_nth_error; intros H. assert (N.to_nat n < length l)%nat by (apply nth_error_Some; congruence).
       unfold size; lia. Qed.
Lemma nnth_lt_Some {A} (l : list A) n : n < size l -> exists x, nnth l n = Some x.
Proof.
  rewrite nnth_nth_error; intros H. destruct (nth_error l (N.to_nat n)) as [x|] eqn:E; [now exists x|].
  apply nth_error_None in E. unfold size in H; lia.
Qed.
Lemma nnth_None {A} (l : list A) n : nnth l n = None <-> size l <= n.
Proof. rewrite nnth_nth_error, nth_error_None. unfold size; lia. Qed.

Lemma nnth_ntake {A} (l : list A) n i : i < n -> nnth (ntake n l) i = nnth l i.
Proof.
  revert n i; induction l as [|x t IH]; intros n i H; [reflexivity|].
  cbn [ntake]. destruct (N.eqb_spec n 0); [lia|]. cbn [nnth].
  destruct (N.eqb_spec i 0); [reflexivity|]. apply IH; lia.
Qed.
Lemma nnth_ndrop {A} (l : list A) n i : nnth (ndrop n l) i = nnth l (n + i).
Proof.
  revert n i; induction l as [|x t IH]; intros n i; [reflexivity|].
  cbn [ndrop]. destruct (N.eqb_spec n 0) as [->|Hn]; [now rewrite N.add_0_l|].
  rewrite IH. cbn [nnth]. destruct (N.eqb_spec (n + i) 0); [lia|]. f_equal; lia.
Qed.
Lemma nnth_app {A} (l m : list A) i :
  nnth (l ++ m) i = if i <? size l then nnth l i else nnth m (i - size l).
Proof.
  rewrite !nnth_nth_error. destruct (N.ltb_spec i (size l)) as [H|H]; unfold size in H.
  - rewrite nth_error_app1 by lia. reflexivity.
  - rewrite nth_error_app2 by lia. f_equal. unfold size. lia.
Qed.

Lemma nnth_ext {A} (l m : list A) : size l = size m -> (forall i, i < size l -> nnth l i = nnth m i) -> l = m.
Proof.
  revert m; induction l as [|x t IH]; intros m Hs H.
  - symmetry. apply size_0_nil. now rewrite <- Hs.
  - destruct m as [|y m]; [discriminate (size_0_nil _ Hs)|]. rewrite !size_cons in Hs.
    f_equal.
    + specialize (H 0). rewrite size_cons in H. cbn in H. assert (Some x = Some y) as E by (apply H; lia). congruence.
    + apply IH; [lia|]. intros i Hi. specialize (H (i + 1)). rewrite size_cons in H.
      cbn [nnth] in H. destruct (N.eqb_spec (i + 1) 0); [lia|]. replace (N.pred (i + 1)) with i in H by lia.
      apply H; lia.
Qed.

Lemma ntake_ntake {A} (l : list A) n m : ntake n (ntake m l) = ntake (N.min n m) l.
Proof. rewrite !ntake_firstn, firstn_firstn. f_equal. lia. Qed.
Lemma ndrop_ndrop {A} (l : list A) n m : ndrop n (ndrop m l) = ndrop (m + n) l.
Proof. apply nnth_ext; rewrite ?size_ndrop; [lia|]. intros i _. rewrite !nnth_ndrop. f_equal; lia. Qed.
Lemma ndrop_ntake {A} (l : list A) n m : ndrop n (ntake m l) = ntake (m - n) (ndrop n l).
Proof. rewrite !ntake_firstn, !ndrop_skipn, skipn_firstn_comm. f_equal. lia. Qed.

Lemma ntake_app {A} (l m : list A) n : ntake n (l ++ m) = ntake n l ++ ntake (n - size l) m.
Proof. rewrite !ntake_firstn, firstn_app. do 2 f_equal. unfold size; lia. Qed.
Lemma ndrop_app {A} (l m : list A) n : ndrop n (l ++ m) = ndrop n l ++ ndrop (n - size l) m.
Proof. rewrite !ndrop_skipn, skipn_app. do 2 f_equal. unfold size; lia. Qed.
Lemma ntake_app_exact {A} (l m : list A) : ntake (size l) (l ++ m) = l.
Proof. rewrite ntake_app, ntake_all, N.sub_diag, ntake_0, app_nil_r; [reflexivity | lia]. Qed.
Lemma ndrop_app_exact {A} (l m : list A) : ndrop (size l) (l ++ m) = m.
Proof. rewrite ndrop_app, ndrop_all, N.sub_diag, ndrop_0 by lia. reflexivity. Qed.

Lemma size_overwrite {A} (d s : list A) off : off + size s <= size d -> size (overwrite d off s) = size d.
Proof. intros H. unfold overwrite. rewrite !size_app, size_ntake, size_ndrop. lia. Qed.

Lemma nnth_overwrite {A} (d s : list A) off i : off + size s <= size d ->
  nnth (overwrite d off s) i =
  if (off <=? i) && (i <? off + size s) then nnth s (i - off) else nnth d i.
Proof.
  intros H. unfold overwrite. rewrite !nnth_app, size_ntake, !nnth_ndrop.
  replace (N.min off (size d)) with off by lia.
  destruct (N.ltb_spec i off) as [H1|H1]; destruct (N.leb_spec off i) as [H2|H2]; try lia; cbn [andb].
  - rewrite nnth_ntake by lia. reflexivity.
  - destruct (N.ltb_spec (i - off) (size s)); destruct (N.ltb_spec i (off + size s)); try lia; auto.
    f_equal; lia.
Qed.

Lemma bytes_ok_app l m : bytes_ok (l ++ m) <-> bytes_ok l /\ bytes_ok m.
Proof. apply Forall_app. Qed.
Lemma bytes_ok_ntake l n : bytes_ok l -> bytes_ok (ntake n l).
Proof. intros H. rewrite <- (ntake_ndrop n l) in H. apply bytes_ok_app in H. tauto. Qed.
Lemma bytes_ok_ndrop l n : bytes_ok l -> bytes_ok (ndrop n l).
Proof. intros H. rewrite <- (ntake_ndrop n l) in H. apply bytes_ok_app in H. tauto. Qed.

(** Every byte value is enumerated by [seq 0 256]: lifts a computed sweep to
    all bytes. *)
Lemma byte_sweep (f : N -> bool) :
  forallb (fun n => f (N.of_nat n)) (seq 0 256) = true -> forall b, is_byte b -> f b = true.
Proof.
  rewrite forallb_forall. intros H b Hb. unfold is_byte in Hb.
  specialize (H (N.to_nat b)). rewrite N2Nat.id in H. apply H. apply in_seq. lia.
Qed.
