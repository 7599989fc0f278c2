From Coq Require Import Lia Permutation.
From Verif Require Import Base BaseLemmas MemViewProofs ByteIOModel ByteIOProofs MemoryModel MemoryProofs ContainerProofs StringSpec StringModel StringViewModel
  StringViewProofs StringProofs FmtModel FmtSpec FmtProofs BuilderModel BuilderSpec BuilderProofs Base16Model Base16Spec HashModel HashProps
  UUIDModel UUIDSpec UUIDProofs VersionModel VersionSpec VersionProofs PathModel PathSpec PathProofs SystemModel SystemSpec SystemProofs.
Local Open Scope N_scope.

(** ** Well-formed worlds *)
Definition all_bufs (vars : list (option obj)) : list buf := flat_map var_bufs vars.
Definition heapy (b : buf) : Prop := b_own b = true \/ b_len b = 0.
Definition shape (o : obj) : Prop :=
  match o_kind o with
  | KString => o_nums o = [] /\ exists b, o_bufs o = [b] /\ b_use b < 2 ^ 16
  | KVector => o_nums o = [] /\ exists b, o_bufs o = [b] /\ heapy b
  | KArray | KDigest => o_nums o = [] /\ exists b, o_bufs o = [b]
  | KBuilder => exists b, o_nums o = [b_len b] /\ o_bufs o = [b] /\ heapy b
  | KVersion => exists a b c p q, o_nums o = [a; b; c] /\ o_bufs o = [p; q] /\ a < 2 ^ 32 /\ b < 2 ^ 32 /\ c < 2 ^ 32 /\ b_use p < 2 ^ 16 /\ b_use q < 2 ^ 16
  | KUUID => o_bufs o = [] /\ is_uuid (o_nums o)
  | KPath => o_nums o = [] /\ exists v bs, o_bufs o = v :: bs /\ (bs = [] <-> b_len v = 0) /\ size bs < 2 ^ 17 /\ Forall (fun b => b_use b < 2 ^ 16) bs
  end.
Definition wf (w : world) : Prop := owns w (all_bufs (y_vars w)) /\ forall i o, get (y_vars w) i = Some o -> shape o.

Lemma perm_upd vars i old new : nth_error vars i = Some old ->
  Permutation (var_bufs new ++ all_bufs vars) (var_bufs old ++ all_bufs (upd vars i new)).
Proof.
  intros H. destruct (upd_split _ _ _ H) as (a & b & -> & _ & E). rewrite E. unfold all_bufs. rewrite !flat_map_app. cbn [flat_map].
  rewrite !app_assoc. apply Permutation_app_tail.
  rewrite (Permutation_app_comm (_ ++ _) (var_bufs old)), (Permutation_app_comm (_ ++ _) (var_bufs new)), !app_assoc.
  apply Permutation_app_tail. apply Permutation_app_comm.
Qed.
Lemma perm_free vars i new : nth_error vars i = Some None -> Permutation (var_bufs new ++ all_bufs vars) (all_bufs (upd vars i new)).
Proof. intros H. exact (perm_upd vars i None new H). Qed.
Definition rest (vars : list (option obj)) (i : nat) : list buf := all_bufs (upd vars i None).
Lemma perm_rest vars i old : nth_error vars i = Some old -> Permutation (all_bufs vars) (var_bufs old ++ rest vars i).
Proof. intros H. exact (perm_upd vars i old None H). Qed.
Lemma perm_rest_upd vars i old new : nth_error vars i = Some old -> Permutation (all_bufs (upd vars i new)) (var_bufs new ++ rest vars i).
Proof.
  intros H. apply (Permutation_app_inv_l (var_bufs old)). rewrite <- (perm_upd vars i old new H).
  rewrite (Permutation_app_swap_app (var_bufs old)). apply Permutation_app_head. now apply perm_rest.
Qed.

Lemma nth_get {A} (l : list (option A)) i o : get l i = Some o <-> nth_error l i = Some (Some o).
Proof.
  unfold get. split.
  - intros H. destruct (nth_error l i) as [x|] eqn:E.
    + apply nth_error_nth with (d := None) in E. congruence.
    + apply nth_error_None in E. rewrite nth_overflow in H by assumption. discriminate.
  - intros H. now apply nth_error_nth with (d := None) in H.
Qed.
Lemma shown_nth w i : nth_error (shown w) i = option_map (option_map (value_of (y_heap w))) (nth_error (y_vars w) i).
Proof. unfold shown. now rewrite nth_error_map. Qed.
Lemma is_free_spec w i : is_free w i = true -> nth_error (y_vars w) i = Some None /\ free (shown w) i.
Proof.
  unfold is_free. destruct (nth_error (y_vars w) i) as [[o|]|] eqn:E; try discriminate. intros _. split; [reflexivity|].
  unfold free. now rewrite shown_nth, E.
Qed.
Lemma not_free w i : is_free w i = false -> ~ free (shown w) i.
Proof. unfold is_free, free. rewrite shown_nth. destruct (nth_error (y_vars w) i) as [[o|]|]; cbn; congruence. Qed.
Lemma obj_at_has w i o : obj_at w i = Some o -> has (shown w) i (value_of (y_heap w) o).
Proof. unfold obj_at, has. rewrite nth_get, shown_nth. now intros ->. Qed.
Lemma obj_none w i v : obj_at w i = None -> ~ has (shown w) i v.
Proof.
  unfold obj_at, has. rewrite shown_nth. intros H E. destruct (nth_error (y_vars w) i) as [[o|]|] eqn:X; cbn in E; try discriminate.
  apply nth_get in X. congruence.
Qed.
Lemma has_det s i v v' : has s i v -> has s i v' -> v = v'. Proof. unfold has. congruence. Qed.
Lemma free_has s i v : free s i -> has s i v -> False. Proof. unfold has, free. congruence. Qed.

Lemma in_all vars i o : get vars i = Some o -> incl (o_bufs o) (all_bufs vars).
Proof. intros H b I. apply nth_get, nth_error_In in H. unfold all_bufs. apply in_flat_map. exists (Some o). auto. Qed.
Lemma obj_good w i o : wf w -> obj_at w i = Some o -> shape o /\ Forall (good_buf (y_heap w)) (o_bufs o).
Proof.
  intros (O & S1) H. split; [eapply S1; eauto|]. pose proof (ow_good _ _ O) as F. rewrite Forall_forall in *. intros b I. apply F.
  eapply in_all; eauto.
Qed.

Lemma content_same h h' b : block h' b = block h b -> content h' b = content h b. Proof. unfold content. now intros ->. Qed.
Lemma value_same w w' o : same_on w w' (o_bufs o) -> value_of (y_heap w') o = value_of (y_heap w) o.
Proof.
  intros H. unfold value_of. f_equal. apply map_ext_in. intros b I. apply content_same, H. unfold text_bufs in I. destruct (o_kind o); auto.
  destruct (o_bufs o); [destruct I|right; exact I].
Qed.
Lemma shown_same w w' : y_vars w' = y_vars w -> same_on w w' (all_bufs (y_vars w)) -> shown w' = shown w.
Proof.
  intros V H. unfold shown. rewrite V. apply map_ext_in. intros [o|] I; [|reflexivity]. cbn. f_equal. apply value_same. eapply same_on_incl; [|exact H].
  intros b Ib. unfold all_bufs. apply in_flat_map. exists (Some o). auto.
Qed.
Lemma map_upd {A B} (f : A -> B) l : forall i x, map f (upd l i x) = upd (map f l) i (f x).
Proof. induction l as [|y l IH]; intros [|i] x; cbn; try reflexivity. now rewrite IH. Qed.
Lemma shown_put0 w i x : shown (put w i x) = upd (shown w) i (option_map (value_of (y_heap w)) x).
Proof. unfold shown, put. cbn [y_heap y_vars]. apply map_upd. Qed.
Lemma shown_put w w' i x : y_vars w' = y_vars w -> same_on w w' (rest (y_vars w) i) ->
  shown (put w' i x) = upd (shown w) i (option_map (value_of (y_heap w')) x).
Proof.
  intros V H. unfold shown, put. cbn [y_heap y_vars]. rewrite V. destruct (nth_error (y_vars w) i) as [old|] eqn:E.
  - unfold rest in H. destruct (upd_split _ _ _ E) as (a & b & EV & L & EU). rewrite map_upd.
    rewrite EU in H. unfold all_bufs in H. rewrite flat_map_app in H. cbn [flat_map var_bufs app] in H. rewrite EV, !map_app. cbn [map].
    assert (M : forall l, incl (flat_map var_bufs l) (flat_map var_bufs a ++ flat_map var_bufs b) ->
      map (option_map (value_of (y_heap w'))) l = map (option_map (value_of (y_heap w))) l).
    { intros l I. apply map_ext_in. intros [o|] Io; [|reflexivity]. cbn. f_equal. apply value_same. eapply same_on_incl; [|exact H].
      intros x0 Ib. apply I. apply in_flat_map. exists (Some o). auto. }
    rewrite (M a) by apply incl_appl, incl_refl. rewrite (M b) by apply incl_appr, incl_refl.
    subst i. rewrite <- (map_length (option_map (value_of (y_heap w))) a). now rewrite !upd_app_r.
  - assert (U : forall {A} (l : list A) i x, nth_error l i = None -> upd l i x = l).
    { clear. intros A l. induction l as [|y l IH]; intros [|i] x H; cbn in *; try reflexivity; try discriminate. now rewrite IH. }
    rewrite U by exact E. rewrite U by (rewrite nth_error_map, E; reflexivity).
    unfold rest in H. rewrite U in H by exact E. apply map_ext_in. intros [o|] Io; [|reflexivity]. cbn. f_equal. apply value_same. eapply same_on_incl; [|exact H].
    intros x0 Ib. unfold all_bufs. apply in_flat_map. exists (Some o). auto.
Qed.
Lemma rest_free vars i : nth_error vars i = Some None -> rest vars i = all_bufs vars.
Proof.
  intros E. unfold rest. destruct (upd_split _ _ _ E) as (a & b & EV & L & EU). rewrite EU. now rewrite EV at 1.
Qed.
Lemma rest_incl vars i : incl (rest vars i) (all_bufs vars).
Proof.
  destruct (nth_error vars i) as [old|] eqn:E.
  - intros b I. rewrite (perm_rest vars i old E). apply in_or_app. now right.
  - unfold rest. revert i E. induction vars as [|v vars IH]; intros [|i] E; cbn in *; try discriminate; try apply incl_refl.
    apply incl_app_app; [apply incl_refl|now apply IH].
Qed.

Lemma shape_put w i o : (forall i o, get (y_vars w) i = Some o -> shape o) -> (forall x, o = Some x -> shape x) ->
  forall j x, get (upd (y_vars w) i o) j = Some x -> shape x.
Proof. intros H H1 j x G. apply get_upd_cases in G as [G|G]; eauto. Qed.
Lemma wf_put w i o : owns w (all_bufs (upd (y_vars w) i o)) -> (forall i o, get (y_vars w) i = Some o -> shape o) -> (forall x, o = Some x -> shape x) ->
  wf (put w i o).
Proof. intros A B C. split; [apply owns_put; exact A|]. cbn [put y_vars]. now apply shape_put. Qed.
Lemma owns_null w L : owns w L -> owns w (null_buf :: L).
Proof. intros [A B C D E]. split; auto. constructor; [split; cbn; [lia|reflexivity]|exact A]. Qed.
Lemma owns_nulls w ns L : Forall (fun b => b = null_buf) ns -> owns w L -> owns w (ns ++ L).
Proof. induction 1 as [|b ns -> _ IH]; [auto|]. intros O. apply owns_null. now apply IH. Qed.

(** ** What one operation does *)
Definition outcome_ok (ma : machine) (w : world) (o : yop) (r : yans * world) : Prop :=
  let (a, w') := r in
  wf w' /\ y_cap w' = y_cap w /\ length (y_vars w') = length (y_vars w) /\ (y_calls w <= y_calls w')%nat /\
  (y_locked w = true \/ takes o = false -> y_calls w' = y_calls w /\ y_size w' <= y_size w) /\
  (o <> YLock -> o <> YUnlock -> y_locked w' = y_locked w) /\
  (fair o (shown w) ->
    (exists m, does o (shown w) m a (shown w') /\ granted w w' m) \/
    (exists m, (exists a' s', does o (shown w) m a' s') /\ fails o (shown w) a (shown w') /\ short ma w w' m /\ y_size w' = y_size w) \/
    (a = YNone /\ w' = w /\ ~ possible o (shown w))).

Lemma none_ok ma w o : wf w -> ~ possible o (shown w) -> outcome_ok ma w o (YNone, w).
Proof.
  intros W P. split; [exact W|]. split; [reflexivity|]. split; [reflexivity|]. split; [lia|]. split; [intros _; split; [reflexivity|lia]|]. split; [reflexivity|].
  intros _. right. right. auto.
Qed.
Lemma lock_not_takes o : takes o = true -> o <> YLock /\ o <> YUnlock. Proof. destruct o; cbn; split; congruence. Qed.

Definition gave (w w' : world) (m : list N) (L : list buf) : Prop :=
  stays w w' /\ same_on w w' L /\ y_locked w = false /\ sum m <= left_over w /\ y_calls w' = (y_calls w + length m)%nat /\
  y_size w' <= y_size w + sum m.
Lemma got_gave w w' m L : got w w' m L -> gave w w' m L.
Proof. intros (A & B & C & D & E & F). repeat (split; [assumption|]). lia. Qed.
Lemma got_ok ma w o i m w' new : wf w -> is_free w i = true -> takes o = true -> m <> [] -> gave w w' m (all_bufs (y_vars w)) ->
  owns w' (o_bufs new ++ all_bufs (y_vars w)) -> shape new ->
  (fair o (shown w) -> does o (shown w) m YDone (set (shown w) i (value_of (y_heap w') new))) ->
  outcome_ok ma w o (YDone, put w' i (Some new)).
Proof.
  intros W F T NE ((G1 & G2 & G3) & G4 & G5 & G6 & G7 & G8) O S1 D. apply is_free_spec in F as (F1 & F2).
  split; [|split; [exact G1|split; [cbn; rewrite length_upd; congruence|split; [cbn; lia|split; [|split; [intros _ _; exact G2|]]]]]].
  - apply wf_put; rewrite ?G3; [|apply W|intros x [= <-]; exact S1]. eapply owns_perm; [|exact O]. exact (perm_free (y_vars w) i (Some new) F1).
  - intros [H|H]; congruence.
  - intros FR. left. exists m. specialize (D FR). rewrite (shown_put w w' i (Some new)); [|exact G3|now rewrite rest_free].
    split; [exact D|]. split; [auto|]. split; [exact G6|]. cbn. split; [exact G7|lia].
Qed.
Lemma lost_wf ma w w' n : wf w -> lost ma w w' n (all_bufs (y_vars w)) -> wf w' /\ shown w' = shown w.
Proof.
  intros W ((G1 & G2 & G3) & O & G4 & G5 & G6 & G7 & G8). split; [|apply shown_same; assumption].
  split; rewrite G3; [exact O|apply W].
Qed.
Lemma lost_ok ma w o m w' a s1 : wf w -> takes o = true -> m <> [] -> lost ma w w' (sum m) (all_bufs (y_vars w)) ->
  fails o (shown w) a (shown w) ->
  (fair o (shown w) -> does o (shown w) m YDone s1) ->
  outcome_ok ma w o (a, w').
Proof.
  intros W T NE LO F D. pose proof (lost_wf _ _ _ _ W LO) as (W' & SH). destruct LO as ((G1 & G2 & G3) & O & G4 & G5 & G6 & G7 & G8).
  split; [exact W'|]. split; [exact G1|]. split; [now rewrite G3|]. split; [exact G6|]. split; [|split; [intros _ _; exact G2|]].
  - intros [H|H]; [|congruence]. split; [auto|lia].
  - intros FR. right. left. exists m. split; [exists YDone, s1; auto|]. rewrite SH. split; [exact F|]. split; [split; [exact NE|exact G8]|exact G5].
Qed.
Lemma shape_empty : shape (mkObj KString [] [null_buf]).
Proof. split; [reflexivity|]. exists null_buf. split; reflexivity. Qed.
Lemma lost_empty_ok ma w o i m w' s1 : wf w -> is_free w i = true -> takes o = true -> m <> [] -> lost ma w w' (sum m) (all_bufs (y_vars w)) ->
  fails o (shown w) YDone (set (shown w) i (text_val [])) ->
  (fair o (shown w) -> does o (shown w) m YDone s1) ->
  outcome_ok ma w o (YDone, put w' i (Some (mkObj KString [] [null_buf]))).
Proof.
  intros W FI T NE LO F D. pose proof (lost_wf _ _ _ _ W LO) as (W' & SH). apply is_free_spec in FI as (F1 & F2).
  destruct LO as ((G1 & G2 & G3) & O & G4 & G5 & G6 & G7 & G8).
  split; [|split; [exact G1|split; [cbn; rewrite length_upd; congruence|split; [exact G6|split; [|split; [intros _ _; exact G2|]]]]]].
  - apply wf_put; rewrite ?G3; [|apply W|intros x [= <-]; exact shape_empty]. eapply owns_perm; [|apply owns_null; exact O].
    exact (perm_free (y_vars w) i (Some (mkObj KString [] [null_buf])) F1).
  - intros [H|H]; [|congruence]. split; [auto|]. cbn. lia.
  - intros FR. right. left. exists m. split; [exists YDone, s1; auto|]. rewrite shown_put0, SH. split; [exact F|]. split; [split; [exact NE|exact G8]|exact G5].
Qed.

(** Operations that take one piece of memory. *)
Definition one_buf (mk : buf -> obj) (n : N) (t : list N) (v : value) : Prop :=
  forall h b, b_own b = true -> b_len b = n -> good_buf h b -> content h b = t -> o_bufs (mk b) = [b] /\ shape (mk b) /\ value_of h (mk b) = v.
Lemma made_ok ma w o i m n t p mk v : wf w -> is_free w i = true -> takes o = true -> m <> [] ->
  made ma w (all_bufs (y_vars w)) m n t p -> one_buf mk n t v ->
  (fair o (shown w) -> does o (shown w) m YDone (set (shown w) i v)) ->
  match p with
  | (Ok b, w') => outcome_ok ma w o (YDone, put w' i (Some (mk b)))
  | (Err e, w') =>
      memory_error e /\
      (fails o (shown w) (YRefused e) (shown w) -> outcome_ok ma w o (YRefused e, w')) /\
      (fails o (shown w) (YRaised InvalidState) (shown w) -> outcome_ok ma w o (YRaised InvalidState, w')) /\
      (fails o (shown w) YDone (set (shown w) i (text_val [])) -> outcome_ok ma w o (YDone, put w' i (Some (mkObj KString [] [null_buf]))))
  end.
Proof.
  intros W F T NE M OB D. destruct p as [[b|e] w'].
  - destruct M as (G & O & OW & LN & CT). destruct (OB (y_heap w') b OW LN (Forall_inv (ow_good _ _ O)) CT) as (B1 & B2 & B3).
    apply got_gave in G. eapply got_ok; eauto; [rewrite B1; exact O|rewrite B3; exact D].
  - destruct M as (ME & LO). split; [exact ME|]. split; [|split]; intros; eauto using lost_ok, lost_empty_ok.
Qed.
Lemma settle_ok ma w o i k m n t p v : wf w -> is_free w i = true -> takes o = true -> m <> [] ->
  made ma w (all_bufs (y_vars w)) m n t p -> one_buf (fun b => mkObj k [] [b]) n t v ->
  (fair o (shown w) -> does o (shown w) m YDone (set (shown w) i v)) ->
  (forall e, memory_error e -> fails o (shown w) (YRefused e) (shown w)) ->
  outcome_ok ma w o (settle i k p).
Proof.
  intros W F T NE M OB D FE. pose proof (made_ok ma w o i m n t p _ v W F T NE M OB D) as H. destruct p as [[b|e] w']; [exact H|].
  destruct H as (ME & H & _). apply H. now apply FE.
Qed.
Lemma settle_raise_ok ma w o i m n t p mk v : wf w -> is_free w i = true -> takes o = true -> m <> [] ->
  made ma w (all_bufs (y_vars w)) m n t p -> one_buf mk n t v ->
  (fair o (shown w) -> does o (shown w) m YDone (set (shown w) i v)) ->
  fails o (shown w) (YRaised InvalidState) (shown w) ->
  outcome_ok ma w o (settle_or_raise i mk p).
Proof.
  intros W F T NE M OB D FE. pose proof (made_ok ma w o i m n t p _ v W F T NE M OB D) as H. destruct p as [[b|e] w']; [exact H|].
  destruct H as (ME & _ & H & _). now apply H.
Qed.
Lemma settle_empty_ok ma w o i m n t p v : wf w -> is_free w i = true -> takes o = true -> m <> [] ->
  made ma w (all_bufs (y_vars w)) m n t p -> one_buf (fun b => mkObj KString [] [b]) n t v ->
  (fair o (shown w) -> does o (shown w) m YDone (set (shown w) i v)) ->
  fails o (shown w) YDone (set (shown w) i (text_val [])) ->
  outcome_ok ma w o (settle_or_empty i p).
Proof.
  intros W F T NE M OB D FE. pose proof (made_ok ma w o i m n t p _ v W F T NE M OB D) as H. destruct p as [[b|e] w']; [exact H|].
  destruct H as (ME & _ & _ & H). now apply H.
Qed.
Lemma one_string n t : size t < 2 ^ 16 -> one_buf (fun b => mkObj KString [] [b]) n t (text_val t).
Proof.
  intros Z h b OW LN G CT. split; [reflexivity|]. split.
  - split; [reflexivity|]. exists b. split; [reflexivity|]. rewrite <- (size_content _ _ G), CT. exact Z.
  - unfold value_of, text_val. cbn [o_kind o_nums o_bufs text_bufs map room]. now rewrite CT.
Qed.
Lemma one_vector n t : one_buf (fun b => mkObj KVector [] [b]) n t (vector_val t n).
Proof.
  intros h b OW LN G CT. split; [reflexivity|]. split.
  - split; [reflexivity|]. exists b. split; [reflexivity|now left].
  - unfold value_of, vector_val. cbn [o_kind o_nums o_bufs text_bufs map]. unfold room. cbn. now rewrite CT, LN.
Qed.
Lemma one_array n t : one_buf (fun b => mkObj KArray [] [b]) n t (array_val t).
Proof.
  intros h b OW LN G CT. split; [reflexivity|]. split; [split; [reflexivity|now exists b]|].
  unfold value_of, array_val. cbn [o_kind o_nums o_bufs text_bufs map room]. now rewrite CT.
Qed.
Lemma one_digest n t : one_buf (fun b => mkObj KDigest [] [b]) n t (digest_val t).
Proof.
  intros h b OW LN G CT. split; [reflexivity|]. split; [split; [reflexivity|now exists b]|].
  unfold value_of, digest_val. cbn [o_kind o_nums o_bufs text_bufs map room]. now rewrite CT.
Qed.
Lemma one_builder n : one_buf (fun b => mkObj KBuilder [b_len b] [b]) n [] (builder_val [] n).
Proof.
  intros h b OW LN G CT. split; [reflexivity|]. split; [exists b; split; [reflexivity|split; [reflexivity|now left]]|].
  unfold value_of, builder_val. cbn [o_kind o_nums o_bufs text_bufs map room]. now rewrite CT, LN.
Qed.
