From Coq Require Import Lia Permutation.
From Verif Require Import ContainerProofs OptResProofs Base BaseLemmas MemViewProofs ByteIOModel ByteIOProofs MemoryModel MemoryProofs StringSpec StringModel StringViewModel
  StringViewProofs StringProofs FmtModel FmtSpec FmtProofs BuilderModel BuilderSpec BuilderProofs ByteIOSpec Base16Model Base16Spec Base16Proofs HashModel HashProps
  UUIDModel UUIDSpec UUIDProofs VersionModel VersionSpec VersionProofs PathModel PathSpec PathProofs SystemModel SystemSpec SystemProofs SystemStepProofs.
Local Open Scope N_scope.

(** ** Operations that take no memory *)
Lemma quiet_ok ma w o a w' : wf w' -> y_cap w' = y_cap w -> y_vars w' = y_vars w \/ (exists l i x, y_vars w' = upd l i x /\ length l = length (y_vars w)) ->
  y_calls w' = y_calls w -> y_size w' <= y_size w ->
  (o <> YLock -> o <> YUnlock -> y_locked w' = y_locked w) -> (fair o (shown w) -> does o (shown w) [] a (shown w')) ->
  outcome_ok ma w o (a, w').
Proof.
  intros W C V K Z L D. split; [exact W|]. split; [exact C|]. split; [destruct V as [->|(l & i & x & -> & E)]; rewrite ?length_upd; auto|].
  split; [lia|]. split; [auto|]. split; [exact L|].
  intros F. left. exists []. split; [auto|]. split; [congruence|]. cbn [sum length]. split; [lia|]. split; [lia|lia].
Qed.

Lemma owns_upd w X vars i old new : nth_error vars i = Some old -> owns w (X ++ var_bufs new ++ all_bufs vars) ->
  owns w (X ++ var_bufs old ++ all_bufs (upd vars i new)).
Proof. intros H O. eapply owns_perm; [|exact O]. apply Permutation_app_head. now apply perm_upd. Qed.
Lemma nth_upd_other {A} (l : list A) i j x : i <> j -> nth_error (upd l i x) j = nth_error l j.
Proof. revert i j. induction l as [|y l IH]; intros [|i] [|j] H; cbn; try congruence; auto. Qed.
Lemma nth_upd_same {A} (l : list A) i x y : nth_error l i = Some y -> nth_error (upd l i x) i = Some x.
Proof. revert i. induction l as [|z l IH]; intros [|i] H; cbn in *; try congruence; auto. Qed.

Lemma perm2 vars i j x y x' y' : nth_error vars j = Some (Some y) -> nth_error (upd vars j (Some y')) i = Some (Some x) ->
  Permutation (o_bufs x' ++ o_bufs y') (o_bufs y ++ o_bufs x) ->
  Permutation (all_bufs vars) (all_bufs (upd (upd vars j (Some y')) i (Some x'))).
Proof.
  intros Hj Hi P. pose proof (perm_upd vars j _ (Some y') Hj) as P1. pose proof (perm_upd _ i _ (Some x') Hi) as P2. cbn [var_bufs] in *.
  apply (Permutation_app_inv_l (o_bufs x' ++ o_bufs y')). rewrite P at 2. rewrite <- !app_assoc. rewrite P1.
  rewrite (Permutation_app_swap_app (o_bufs x')). apply Permutation_app_head. exact P2.
Qed.

(** An object taken from slot [j] and put, wholly or in part, in the free slot [i]. *)
Lemma taken_wf w i j y y' x' : wf w -> is_free w i = true -> obj_at w j = Some y -> shape y' -> shape x' ->
  Forall (fun b => b = null_buf) (o_bufs y') ->
  (o_bufs x' = o_bufs y \/ exists b n, o_bufs y = [b] /\ o_bufs x' = [used b n] /\ n <= b_len b) ->
  wf (put (put w j (Some y')) i (Some x')).
Proof.
  intros (O & S0) F Hj Sy Sx NB BX. apply is_free_spec in F as (F1 & F2). unfold obj_at in Hj. pose proof Hj as Gj. rewrite nth_get in Hj.
  assert (NE : j <> i) by (intros ->; congruence).
  split.
  - apply owns_put, owns_put. cbn [put y_vars].
    assert (O1 : owns w (o_bufs y ++ all_bufs (upd (y_vars w) j (Some y')))).
    { apply (owns_upd w [] (y_vars w) j (Some y) (Some y') Hj). cbn [app var_bufs]. now apply owns_nulls. }
    assert (O2 : owns w (o_bufs x' ++ all_bufs (upd (y_vars w) j (Some y')))).
    { destruct BX as [->|(b & n & E1 & E2 & L)]; [exact O1|]. rewrite E1 in O1. rewrite E2. cbn [app] in *. now apply owns_used. }
    assert (Hi : nth_error (upd (y_vars w) j (Some y')) i = Some None) by now rewrite nth_upd_other.
    exact (owns_upd w [] _ i None (Some x') Hi O2).
  - cbn [put y_vars]. intros k o G. apply get_upd_cases in G as [G|G]; [injection G as <-; exact Sx|].
    apply get_upd_cases in G as [G|G]; [injection G as <-; exact Sy|]. eapply S0; eauto.
Qed.
Lemma taken_ok ma w o i j y y' x' : wf w -> is_free w i = true -> obj_at w j = Some y -> shape y' -> shape x' ->
  Forall (fun b => b = null_buf) (o_bufs y') ->
  (o_bufs x' = o_bufs y \/ exists b n, o_bufs y = [b] /\ o_bufs x' = [used b n] /\ n <= b_len b) ->
  (fair o (shown w) -> does o (shown w) [] YDone (set (set (shown w) j (value_of (y_heap w) y')) i (value_of (y_heap w) x'))) ->
  outcome_ok ma w o (YDone, put (put w j (Some y')) i (Some x')).
Proof.
  intros W F Hj Sy Sx NB BX D. apply quiet_ok; [eapply taken_wf; eauto|reflexivity| |reflexivity|cbn; lia|reflexivity|].
  - right. cbn [put y_vars]. do 3 eexists. split; [reflexivity|]. now rewrite length_upd.
  - intros FR. rewrite !shown_put0. apply D. exact FR.
Qed.

(** The bytes of one object rewritten in place. *)
Lemma modify w i k ns b bs ns' n : wf w -> obj_at w i = Some (mkObj k ns [b]) -> heapy b -> size bs = b_len b -> n <= b_len b ->
  shape (mkObj k ns' [used b n]) -> k <> KPath ->
  exists w1, store b bs w = Ret w1 /\
    let w' := put w1 i (Some (mkObj k ns' [used b n])) in
    wf w' /\ shown w' = set (shown w) i (mkVal k ns' [ntake n bs] (match k with KVector => b_len b | _ => 0 end)) /\
    y_cap w' = y_cap w /\ y_locked w' = y_locked w /\ y_calls w' = y_calls w /\ y_size w' = y_size w /\ y_vars w1 = y_vars w.
Proof.
  intros W H HP Z L SH NP. pose proof (obj_good _ _ _ W H) as (_ & G). cbn [o_bufs] in G. apply Forall_inv in G. destruct W as (O & S0).
  unfold obj_at in H. rewrite nth_get in H.
  pose proof (owns_perm _ _ _ (perm_rest _ _ _ H) O) as O1. cbn [var_bufs o_bufs app] in O1.
  destruct (store_spec w b _ bs O1) as (w1 & E1 & O2 & S2 & (T1 & T2 & T3) & C2 & Z2 & B2); [lia|exact HP|].
  exists w1. split; [exact E1|]. split; [|split; [|split; [exact T1|split; [exact T2|split; [exact C2|split; [exact Z2|exact T3]]]]]].
  - apply wf_put; rewrite ?T3; [|exact S0|intros x [= <-]; exact SH]. eapply owns_perm; [|exact (owns_used _ _ n _ O2 L)].
    symmetry. exact (perm_rest_upd (y_vars w) i _ (Some (mkObj k ns' [used b n])) H).
  - rewrite (shown_put w w1 i _ T3 S2). unfold set. do 2 f_equal. unfold value_of. cbn [option_map o_kind o_nums].
    assert (ET : map (content (y_heap w1)) (text_bufs (mkObj k ns' [used b n])) = [ntake n bs]).
    { unfold text_bufs. cbn [o_kind o_bufs]. destruct k; try congruence; cbn [map]; rewrite content_used, B2, overwrite_all; try reflexivity;
        rewrite (size_block _ _ G); auto. }
    rewrite ET. f_equal.
Qed.

Ltac impossible :=
  let X := fresh in
  intros (?m & ?a & ?s' & X); inversion X; subst; clear X;
  repeat match goal with
  | H : is_free _ _ = false |- _ => apply not_free in H
  | H : obj_at ?w ?i = None, K : has (shown ?w) ?i _ |- _ => exact (obj_none w i _ H K)
  | H : obj_at ?w ?i = Some _, K : has (shown ?w) ?i _ |- _ =>
      let E := fresh in pose proof (has_det _ _ _ _ (obj_at_has w i _ H) K) as E; apply (f_equal va_kind) in E; revert E; clear K; cbn; intros E
  end; try contradiction; try congruence.

Lemma step_lock ma host_be w o : wf w -> o = YLock \/ o = YUnlock \/ o = YSize \/ o = YLimit ->
  exists r, y_step ma host_be o w = Ret r /\ outcome_ok ma w o r.
Proof.
  intros W H. assert (WL : forall b, wf (set_lock w b)) by (intros b; destruct W as (O & S0); split; [now apply owns_lock|exact S0]).
  destruct H as [-> | [-> | [-> | ->]]]; cbn [y_step]; eexists; (split; [reflexivity|]).
  1,2: apply quiet_ok; auto; [cbn; lia|congruence|]. 3,4: apply quiet_ok; auto; [lia|].
  all: intros _; constructor.
Qed.

Lemma step_pushpop ma host_be w o i : wf w -> (exists c, o = Push i c) \/ o = Pop i ->
  exists r, y_step ma host_be o w = Ret r /\ outcome_ok ma w o r.
Proof.
  intros W HO. assert (NP : forall v, ~ possible o v -> True) by auto. clear NP.
  assert (NO : (forall v, has (shown w) i v -> va_kind v <> KVector) -> outcome_ok ma w o (YNone, w)).
  { intros H. apply none_ok; [exact W|]. intros (m & a & s' & D). destruct HO as [(c & ->)| ->]; inversion D; subst;
      match goal with K : has _ _ _ |- _ => apply H in K; cbn in K; congruence end. }
  destruct (obj_at w i) as [[k ns bs]|] eqn:E.
  2:{ exists (YNone, w). split; [destruct HO as [(c & ->)| ->]; cbn [y_step]; now rewrite E|]. apply NO. intros v K. exfalso. exact (obj_none _ _ _ E K). }
  pose proof (obj_at_has _ _ _ E) as HV.
  assert (NK : k <> KVector -> outcome_ok ma w o (YNone, w)).
  { intros NE. apply NO. intros v K. rewrite <- (has_det _ _ _ _ HV K). exact NE. }
  pose proof (obj_good _ _ _ W E) as (SH & G).
  destruct k; try (exists (YNone, w); split; [destruct HO as [(c & ->)| ->]; cbn [y_step]; now rewrite E|apply NK; discriminate]).
  cbn in SH. destruct SH as (-> & b & -> & HP). cbn [o_bufs] in G. apply Forall_inv in G. clear NO NK.
  pose proof (size_block _ _ G) as SB. pose proof (size_content _ _ G) as SC. pose proof G as (U & _).
  assert (HV' : has (shown w) i (vector_val (content (y_heap w) b) (b_len b))) by exact HV.
  destruct HO as [(c & ->)| ->]; cbn [y_step]; rewrite E; cbn [o_kind].
  - destruct (N.leb_spec (b_len b) (b_use b)) as [Q|Q].
    + eexists. split; [reflexivity|]. apply quiet_ok; auto; [lia|]. intros _. eapply do_push_full; [exact HV'|lia].
    + rewrite buf_bytes_spec by exact G. cbn [bind].
      set (bs := overwrite (block (y_heap w) b) (b_use b) [c]).
      assert (Zb : size bs = b_len b) by (unfold bs; rewrite size_overwrite; change (size [c]) with 1; lia).
      destruct (modify w i KVector [] b bs [] (b_use b + 1) W E HP Zb) as (w1 & E1 & W1 & S1 & M1 & M2 & M3 & M4 & M5); [lia| |discriminate|].
      { split; [reflexivity|]. eexists. split; [reflexivity|exact HP]. }
      rewrite E1. cbn [bind]. eexists. split; [reflexivity|]. apply quiet_ok; auto; [|lia|].
      * right. cbn [put y_vars]. rewrite M5. eauto.
      * intros _. rewrite S1. replace (ntake (b_use b + 1) bs) with (content (y_heap w) b ++ [c]); [apply do_push; [exact HV'|lia]|].
        unfold bs, overwrite, content. cbn [app]. rewrite ntake_app, size_ntake, N.min_l by lia.
        replace (b_use b + 1 - b_use b) with 1 by lia. rewrite (ntake_all (b_use b + 1)) by (rewrite size_ntake; lia). f_equal.
        change (c :: ?l) with ([c] ++ l). rewrite ntake_app. change (size [c]) with 1. rewrite N.sub_diag, ntake_0. reflexivity.
  - destruct (N.ltb_spec (b_use b) 1) as [Q|Q].
    + eexists. split; [reflexivity|]. apply quiet_ok; auto; [lia|]. intros _. eapply do_pop_none. assert (content (y_heap w) b = []) as C0 by (apply size_0_nil; lia).
      rewrite C0 in HV'. exact HV'.
    + eexists. split; [reflexivity|].
      assert (NE : content (y_heap w) b <> []) by (intros C0; rewrite C0, (@size_nil N) in SC; lia).
      destruct (exists_last NE) as (t & c & ET).
      apply quiet_ok; auto; try reflexivity; try (cbn; lia).
      * apply wf_put; [|apply W|intros x [= <-]; split; [reflexivity|]; eexists; split; [reflexivity|exact HP]].
        destruct W as (O & S0). unfold obj_at in E. rewrite nth_get in E. pose proof (owns_perm _ _ _ (perm_rest _ _ _ E) O) as O1. cbn [var_bufs o_bufs app] in O1.
        eapply owns_perm; [|apply (owns_used _ b (b_use b - 1) (rest (y_vars w) i)); [exact O1|lia]]. symmetry. exact (perm_rest_upd (y_vars w) i _ (Some (mkObj KVector [] [used b (b_use b - 1)])) E).
      * right. cbn [put y_vars]. eauto.
      * intros _. rewrite shown_put0. unfold value_of. cbn [option_map text_bufs o_kind o_nums o_bufs map]. rewrite content_used. unfold room. cbn [o_kind o_bufs used b_len].
        rewrite ET in HV'. replace (ntake (b_use b - 1) (block (y_heap w) b)) with t; [exact (do_pop _ _ _ _ _ HV')|].
        unfold content in ET. assert (size t = b_use b - 1) as St by (unfold content in SC; rewrite ET, size_app in SC; change (size [c]) with 1 in SC; lia).
        transitivity (ntake (b_use b - 1) (ntake (b_use b) (block (y_heap w) b))).
        -- rewrite ET, ntake_app, St, N.sub_diag, ntake_0, app_nil_r. symmetry. apply ntake_all. lia.
        -- rewrite ntake_ntake. f_equal. lia.
Qed.

(** ** Operations that make an object out of nothing *)
Ltac no_op W := eexists; split; [reflexivity|apply none_ok; [exact W|impossible]].
Ltac memory_fails := intros ? [-> | ->]; cbn; auto.

Lemma wf_owns w : wf w -> owns w (all_bufs (y_vars w)). Proof. intros (O & _). exact O. Qed.

Lemma step_text ma host_be w i t : wf w -> size t < 2 ^ 16 ->
  exists r, y_step ma host_be (MkText i t) w = Ret r /\ outcome_ok ma w (MkText i t) r.
Proof.
  intros W T. cbn [y_step]. destruct (is_free w i) eqn:F; [|no_op W].
  destruct (make_of_made ma t w _ (wf_owns w W)) as (p & -> & M). cbn [bind]. eexists. split; [reflexivity|].
  eapply settle_ok; [exact W|exact F|reflexivity| |exact M|apply one_string; exact T| |memory_fails]; [discriminate|].
  intros _. constructor. now apply is_free_spec.
Qed.
Lemma step_literal ma host_be w i t : wf w -> size t < 2 ^ 16 ->
  exists r, y_step ma host_be (MkLiteral i t) w = Ret r /\ outcome_ok ma w (MkLiteral i t) r.
Proof.
  intros W T. cbn [y_step]. destruct (is_free w i) eqn:F; [|no_op W]. eexists. split; [reflexivity|].
  pose proof (is_free_spec _ _ F) as (F1 & F2). set (b := mkBuf (PLit t) (size t) false (size t)).
  apply quiet_ok; auto; try reflexivity; try (cbn; lia).
  - apply wf_put; [|apply W|intros x [= <-]; split; [reflexivity|]; exists b; split; [reflexivity|exact T]].
    apply (owns_upd w [] (y_vars w) i None (Some (mkObj KString [] [b])) F1). destruct (wf_owns w W) as [A B C D E]. cbn [app var_bufs o_bufs].
    split; auto. constructor; [|exact A]. split; cbn; [lia|auto].
  - right. cbn [put y_vars]. eauto.
  - intros _. rewrite shown_put0.
    assert (E : value_of (y_heap w) (mkObj KString [] [b]) = text_val t).
    { unfold value_of, text_val. cbn [text_bufs o_kind o_nums o_bufs map room]. unfold content, b. cbn [b_use block b_at]. rewrite ntake_all by lia. reflexivity. }
    cbn [option_map]. rewrite E. now apply do_literal.
Qed.
Lemma step_vector ma host_be w i n : wf w -> exists r, y_step ma host_be (MkVector i n) w = Ret r /\ outcome_ok ma w (MkVector i n) r.
Proof.
  intros W. cbn [y_step]. destruct (is_free w i) eqn:F; [|no_op W]. eexists. split; [reflexivity|].
  pose proof (allocate_made ma n w _ (wf_owns w W)) as M.
  eapply settle_ok; [exact W|exact F|reflexivity| |exact M|apply one_vector| |memory_fails]; [discriminate|].
  intros _. constructor. now apply is_free_spec.
Qed.
Lemma step_vector_of ma host_be w i bs : wf w -> exists r, y_step ma host_be (VectorOf i bs) w = Ret r /\ outcome_ok ma w (VectorOf i bs) r.
Proof.
  intros W. cbn [y_step]. destruct (is_free w i) eqn:F; [|no_op W].
  destruct (make_of_made ma bs w _ (wf_owns w W)) as (p & -> & M). cbn [bind]. eexists. split; [reflexivity|].
  eapply settle_ok; [exact W|exact F|reflexivity| |exact M|apply one_vector| |memory_fails]; [discriminate|].
  intros _. constructor. now apply is_free_spec.
Qed.
Lemma step_array_of ma host_be w i bs : wf w -> exists r, y_step ma host_be (ArrayOf i bs) w = Ret r /\ outcome_ok ma w (ArrayOf i bs) r.
Proof.
  intros W. cbn [y_step]. destruct (is_free w i) eqn:F; [|no_op W].
  destruct (make_of_made ma bs w _ (wf_owns w W)) as (p & -> & M). cbn [bind]. eexists. split; [reflexivity|].
  eapply settle_ok; [exact W|exact F|reflexivity| |exact M|apply one_array| |memory_fails]; [discriminate|].
  intros _. constructor. now apply is_free_spec.
Qed.
Lemma size_zeros n : size (repeat 0 (N.to_nat n)) = n. Proof. unfold size. rewrite repeat_length. lia. Qed.
Lemma step_array ma host_be w i n : wf w -> exists r, y_step ma host_be (MkArray i n) w = Ret r /\ outcome_ok ma w (MkArray i n) r.
Proof.
  intros W. cbn [y_step]. destruct (is_free w i) eqn:F; [|no_op W].
  assert (D : does (MkArray i n) (shown w) [n] YDone (set (shown w) i (array_val (repeat 0 (N.to_nat n))))) by (constructor; now apply is_free_spec).
  pose proof (allocate_made ma n w _ (wf_owns w W)) as M. destruct (allocate ma n w) as [[b|e] w1] eqn:EA.
  - destruct (fill_made ma n w _ b w1 (mkStr (repeat 0 (N.to_nat n)) n) (wf_owns w W) EA) as (w2 & E2 & M2); [apply size_zeros|cbn; lia|].
    cbn [st_buf st_size] in *. rewrite E2. cbn [bind]. eexists. split; [reflexivity|].
    unfold str_view in M2. cbn [st_buf st_size] in M2. rewrite size_zeros, N.min_id in M2. rewrite ntake_all in M2 by (rewrite size_zeros; lia).
    eapply settle_ok; [exact W|exact F|reflexivity| |exact M2|apply one_array| |memory_fails]; [discriminate|]. intros _. exact D.
  - eexists. split; [reflexivity|]. destruct M as (ME & LO). eapply lost_ok; [exact W|reflexivity| |exact LO| |intros _; exact D]; [discriminate|].
    destruct ME as [-> | ->]; cbn; auto.
Qed.
Lemma step_builder ma host_be w i n : wf w -> exists r, y_step ma host_be (MkBuilder i n) w = Ret r /\ outcome_ok ma w (MkBuilder i n) r.
Proof.
  intros W. cbn [y_step]. destruct (is_free w i) eqn:F; [|no_op W]. eexists. split; [reflexivity|].
  pose proof (allocate_made ma n w _ (wf_owns w W)) as M.
  eapply settle_raise_ok; [exact W|exact F|reflexivity| |exact M|apply one_builder| |]; [discriminate| |cbn; auto].
  intros _. constructor. now apply is_free_spec.
Qed.
Lemma step_digest ma host_be w i bs : wf w -> exists r, y_step ma host_be (MkDigest i bs) w = Ret r /\ outcome_ok ma w (MkDigest i bs) r.
Proof.
  intros W. cbn [y_step]. destruct (is_free w i) eqn:F; [|no_op W].
  destruct (make_of_made ma bs w _ (wf_owns w W)) as (p & -> & M). cbn [bind]. eexists. split; [reflexivity|].
  eapply settle_raise_ok; [exact W|exact F|reflexivity| |exact M|apply one_digest| |]; [discriminate| |cbn; auto].
  intros _. constructor. now apply is_free_spec.
Qed.
Lemma step_uuid ma host_be w i u : wf w -> bytes_ok u -> exists r, y_step ma host_be (MkUUID i u) w = Ret r /\ outcome_ok ma w (MkUUID i u) r.
Proof.
  intros W T. cbn [y_step]. destruct (is_free w i) eqn:F; [|no_op W]. destruct (N.eqb_spec (size u) 16) as [E|E]; [|no_op W].
  cbn [andb]. eexists. split; [reflexivity|]. pose proof (is_free_spec _ _ F) as (F1 & F2).
  apply quiet_ok; auto; try reflexivity; try (cbn; lia).
  - apply wf_put; [|apply W|intros x [= <-]; split; [reflexivity|]; split; [unfold size in E; cbn; lia|exact T]].
    apply (owns_upd w [] (y_vars w) i None (Some (mkObj KUUID u [])) F1). exact (wf_owns w W).
  - right. cbn [put y_vars]. eauto.
  - intros _. rewrite shown_put0. now apply do_uuid.
Qed.

(** ** Operations that make an object out of another *)
Ltac look_at W w j E HV SH G :=
  destruct (obj_at w j) as [[?k ?ns ?bs]|] eqn:E; [|no_op W];
  pose proof (obj_at_has _ _ _ E) as HV; pose proof (obj_good _ _ _ W E) as (SH & G).

Lemma step_copy_text ma host_be w i j : wf w -> exists r, y_step ma host_be (CopyText i j) w = Ret r /\ outcome_ok ma w (CopyText i j) r.
Proof.
  intros W. cbn [y_step]. destruct (is_free w i) eqn:F; [|no_op W]. look_at W w j E HV SH G. pose proof (is_free_spec _ _ F) as (F1 & F2).
  destruct k; try no_op W; cbn in SH.
  - destruct SH as (-> & b & -> & U). cbn [o_bufs] in G. apply Forall_inv in G.
    rewrite buf_text_spec by exact G. cbn [bind]. destruct (make_of_made ma (content (y_heap w) b) w _ (wf_owns w W)) as (p & -> & M). cbn [bind].
    eexists. split; [reflexivity|].
    eapply settle_ok; [exact W|exact F|reflexivity| |exact M|apply one_string; rewrite (size_content _ _ G); exact U| |memory_fails]; [discriminate|].
    intros _. now apply do_copy.
  - destruct SH as (b & -> & -> & HP). cbn [o_bufs] in G. apply Forall_inv in G.
    rewrite buf_text_spec by exact G. cbn [bind]. set (t := content (y_heap w) b) in *. set (t' := ntake (u16 (size t)) t).
    destruct (make_of_made ma t' w _ (wf_owns w W)) as (p & -> & M). cbn [bind].
    eexists. split; [reflexivity|].
    assert (T' : size t' < 2 ^ 16) by (unfold t'; rewrite size_ntake; unfold u16; pose proof (N.mod_lt (size t) (2 ^ 16)); lia).
    eapply settle_ok; [exact W|exact F|reflexivity| |exact M|apply one_string; exact T'| |memory_fails]; [discriminate|].
    intros FR. assert (ET : t' = t).
    { unfold t'. specialize (FR t (b_len b) HV). rewrite u16_small by exact FR. apply ntake_all. lia. }
    rewrite ET. eapply do_copy_built; [exact F2|exact HV].
Qed.
Lemma step_copy_bytes ma host_be w i j : wf w -> exists r, y_step ma host_be (CopyBytes i j) w = Ret r /\ outcome_ok ma w (CopyBytes i j) r.
Proof.
  intros W. cbn [y_step]. destruct (is_free w i) eqn:F; [|no_op W]. look_at W w j E HV SH G. pose proof (is_free_spec _ _ F) as (F1 & F2).
  destruct k; try no_op W; cbn in SH.
  - destruct SH as (-> & b & -> & HP). cbn [o_bufs] in G. apply Forall_inv in G.
    rewrite buf_text_spec by exact G. cbn [bind]. destruct (make_of_made ma (content (y_heap w) b) w _ (wf_owns w W)) as (p & -> & M). cbn [bind].
    eexists. split; [reflexivity|].
    eapply settle_ok; [exact W|exact F|reflexivity| |exact M|apply one_vector| |memory_fails]; [discriminate|].
    intros _. eapply do_copy_vector; [exact F2|exact HV].
  - destruct SH as (-> & b & ->). cbn [o_bufs] in G. apply Forall_inv in G.
    rewrite buf_text_spec by exact G. cbn [bind]. destruct (make_of_made ma (content (y_heap w) b) w _ (wf_owns w W)) as (p & -> & M). cbn [bind].
    eexists. split; [reflexivity|].
    eapply settle_ok; [exact W|exact F|reflexivity| |exact M|apply one_array| |memory_fails]; [discriminate|].
    intros _. eapply do_copy_array; [exact F2|exact HV].
Qed.

Lemma write_args_size host_be args : forall w, winv w -> w_lim w = size (w_buf w) -> Forall arg_ok args ->
  exists b w', write_args host_be w args = Ret (b, w') /\ size (w_buf w') = size (w_buf w).
Proof.
  induction args as [|a args IH]; intros w I LM F; cbn [write_args]; [eauto|]. inversion F as [|? ? Fa F']; subst.
  rewrite write_arg_spec by exact Fa.
  destruct (N.le_gt_cases (w_pos w + size (arg_text a)) (w_lim w)) as [L|L].
  - rewrite w_write_append by assumption. cbn [bind fst snd].
    assert (SZ : size (w_buf (append w (arg_text a))) = size (w_buf w)) by (unfold append; cbn [w_buf]; apply size_spliced; destruct I as (I1 & I2 & I3); lia).
    destruct (IH (append w (arg_text a)) (append_inv w _ I L)) as (b & w' & E & Z); [rewrite SZ; exact LM|exact F'|].
    exists b, w'. split; [exact E|]. now rewrite Z.
  - assert (B : size (arg_text a) < 2 ^ 64) by (destruct a as [c|s]; cbn in *; [reflexivity|unfold sv_ok in Fa; lia]).
    rewrite w_write_reject by assumption. cbn [bind fst snd]. eauto.
Qed.
