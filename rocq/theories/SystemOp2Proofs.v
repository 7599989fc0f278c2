From Coq Require Import Lia Permutation.
From Verif Require Import ContainerProofs OptResProofs Base BaseLemmas MemViewProofs ByteIOModel ByteIOProofs MemoryModel MemoryProofs StringSpec StringModel StringViewModel
  StringViewProofs StringProofs FmtModel FmtSpec FmtProofs BuilderModel BuilderSpec BuilderProofs ByteIOSpec Base16Model Base16Spec Base16Proofs HashModel HashProps
  UUIDModel UUIDSpec UUIDProofs VersionModel VersionSpec VersionProofs PathModel PathSpec PathProofs SystemModel SystemSpec SystemProofs SystemStepProofs SystemOpProofs.
Local Open Scope N_scope.


(** ** Operations that work in the memory they took *)
Lemma allocated ma n w d w1 : wf w -> allocate ma n w = (Ok d, w1) ->
  exists block, buf_bytes w1 d = Ret block /\ size block = n /\ n < 2 ^ 64 /\ owns w1 (d :: all_bufs (y_vars w)) /\ good_buf (y_heap w1) d.
Proof.
  intros W E. pose proof (allocate_made ma n w _ (wf_owns w W)) as M. rewrite E in M. destruct M as (G & O & OW & LN & _).
  pose proof (Forall_inv (ow_good _ _ O)) as GD. exists (block (y_heap w1) d). rewrite buf_bytes_spec by exact GD. split; [reflexivity|].
  rewrite (size_block _ _ GD). split; [exact LN|]. split; [|auto]. pose proof (ow_cap _ _ (wf_owns w W)) as (C1 & C2). destruct G as (_ & _ & _ & G & _).
  unfold left_over in G. cbn [sum] in G. lia.
Qed.

Lemma step_concat ma host_be w i j k : wf w -> exists r, y_step ma host_be (Concat i j k) w = Ret r /\ outcome_ok ma w (Concat i j k) r.
Proof.
  intros W. cbn [y_step]. destruct (is_free w i) eqn:F; [|no_op W]. look_at W w j E HV SH G. pose proof (is_free_spec _ _ F) as (F1 & F2).
  destruct k0; try no_op W; cbn in SH. destruct SH as (-> & b & -> & U).
  destruct (obj_at w k) as [[k2 ns2 bs2]|] eqn:E2; [|no_op W]. pose proof (obj_at_has _ _ _ E2) as HV2. pose proof (obj_good _ _ _ W E2) as (SH2 & G2).
  destruct k2; try no_op W; cbn in SH2. destruct SH2 as (-> & c & -> & U2).
  cbn [o_bufs] in G, G2. apply Forall_inv in G. apply Forall_inv in G2. rewrite !buf_text_spec by assumption. cbn [bind].
  set (x := content (y_heap w) b) in *. set (y := content (y_heap w) c) in *.
  assert (Sx : size x < 2 ^ 16) by (unfold x; rewrite size_content by assumption; exact U).
  assert (Sy : size y < 2 ^ 16) by (unfold y; rewrite size_content by assumption; exact U2).
  set (n := total_size [AText x; AText y]). pose proof (allocate_made ma n w _ (wf_owns w W)) as M.
  assert (EN : size x + size y < 2 ^ 16 -> n = size x + size y).
  { intros L. unfold n, total_size. cbn [fold_right arg_size]. rewrite N.add_0_r. now apply u16_small. }
  assert (N16 : n < 2 ^ 16) by (unfold n, total_size, u16; apply N.mod_lt; lia).
  assert (D : fair (Concat i j k) (shown w) -> does (Concat i j k) (shown w) [n] YDone (set (shown w) i (text_val (x ++ y)))).
  { intros FR. rewrite EN by (apply FR; [exact HV|exact HV2]). apply do_concat; [exact F2|exact HV|exact HV2]. }
  destruct (allocate ma n w) as [[d|e] w1] eqn:EA.
  2:{ eexists. split; [reflexivity|]. destruct M as (ME & LO). eapply lost_ok; [exact W|reflexivity| |exact LO| |exact D]; [discriminate|].
      destruct ME as [-> | ->]; cbn; auto. }
  destruct (allocated ma n w d w1 W EA) as (blk & EB & ZB & L64 & O1 & GD). rewrite EB. cbn [bind]. unfold str_concat. fold n.
  assert (AO : Forall arg_ok [AText x; AText y]) by (repeat constructor; assumption).
  assert (WI : winv (writer_make blk)) by (unfold winv, writer_make; cbn; lia).
  destruct (write_args_size host_be [AText x; AText y] (writer_make blk) WI eq_refl AO) as (ok & sb & EW & ZW).
  rewrite EW. cbn [bind snd w_buf]. change (w_buf (writer_make blk)) with blk in ZW.
  destruct (fill_made ma n w _ d w1 (mkStr (w_buf sb) n) (wf_owns w W) EA) as (w2 & E3 & M3); [cbn; congruence|cbn; lia|].
  cbn [st_buf st_size] in *. rewrite E3. cbn [bind]. eexists. split; [reflexivity|].
  assert (SV : size (str_view (mkStr (w_buf sb) n)) < 2 ^ 16) by (unfold str_view; cbn [st_buf st_size]; rewrite size_ntake; lia).
  eapply settle_ok; [exact W|exact F|reflexivity| |exact M3|apply one_string; exact SV| |memory_fails]; [discriminate|].
  intros FR. specialize (D FR). pose proof (FR x y HV HV2) as L. rewrite str_view_exact by congruence.
  assert (EQ : w_buf sb = x ++ y).
  { rewrite write_args_fits in EW; [|exact WI|exact AO|]; cbn [flat_map arg_text app] in *; rewrite ?app_nil_r in *.
    - injection EW as _ <-. apply append_make. rewrite size_app, ZB. now apply EN.
    - rewrite size_app. cbn. rewrite ZB, EN by assumption. lia. }
  rewrite EQ. exact D.
Qed.

Lemma step_append ma host_be w i o : wf w -> (exists s, o = Append i s /\ size s < 2 ^ 16) \/ (exists v, o = AppendNum i v /\ v < 2 ^ 64) ->
  exists r, y_step ma host_be o w = Ret r /\ outcome_ok ma w o r.
Proof.
  intros W HO.
  assert (NO : (forall v, has (shown w) i v -> va_kind v <> KBuilder) -> outcome_ok ma w o (YNone, w)).
  { intros H. apply none_ok; [exact W|]. intros (m & a & s' & D). destruct HO as [(s & -> & _)|(v & -> & _)]; inversion D; subst;
      match goal with K : has _ _ _ |- _ => apply H in K; cbn in K; congruence end. }
  destruct (obj_at w i) as [[k ns bs]|] eqn:E.
  2:{ exists (YNone, w). split; [destruct HO as [(s & -> & _)|(v & -> & _)]; cbn [y_step]; now rewrite E|]. apply NO. intros v K. exfalso. exact (obj_none _ _ _ E K). }
  pose proof (obj_at_has _ _ _ E) as HV.
  assert (NK : k <> KBuilder -> outcome_ok ma w o (YNone, w)).
  { intros NE. apply NO. intros v K. rewrite <- (has_det _ _ _ _ HV K). exact NE. }
  pose proof (obj_good _ _ _ W E) as (SH & G).
  destruct k; try (exists (YNone, w); split; [destruct HO as [(s & -> & _)|(v & -> & _)]; cbn [y_step]; now rewrite E|apply NK; discriminate]).
  cbn in SH. destruct SH as (b & -> & -> & HP). cbn [o_bufs] in G. apply Forall_inv in G. clear NO NK.
  pose proof (size_block _ _ G) as SB. pose proof (size_content _ _ G) as SC. pose proof G as (U & _).
  assert (HV' : has (shown w) i (builder_val (content (y_heap w) b) (b_len b))) by exact HV.
  assert (C64 : b_len b < 2 ^ 64).
  { pose proof (wf_owns w W) as O. assert (I : In b (all_bufs (y_vars w))) by (unfold obj_at in E; apply in_all in E; apply E; now left).
    pose proof (good_len w _ b O I HP). pose proof (ow_cap _ _ O). lia. }
  assert (HH : holds (b_len b) (mkWriter (b_use b) (b_len b) (block (y_heap w) b)) (content (y_heap w) b)).
  { unfold holds. cbn [w_buf w_lim w_pos]. rewrite SC, SB. repeat split; try lia; auto. }
  set (t := content (y_heap w) b) in *.
  assert (FIN : forall sb t', holds (b_len b) sb t' ->
    (does o (shown w) [] YDone (set (shown w) i (builder_val t' (b_len b)))) ->
    exists r, (let! w1 := store b (w_buf sb) w in Ret (YDone, put w1 i (Some (mkObj KBuilder [w_lim sb] [used b (w_pos sb)])))) = Ret r /\ outcome_ok ma w o r).
  { intros sb t' (A & B & C & D & _ & P) DO. rewrite B, C.
    destruct (modify w i KBuilder [b_len b] b (w_buf sb) [b_len b] (size t') W E HP A) as (w1 & E1 & W1 & S1 & M1 & M2 & M3 & M4 & M5); [lia| |discriminate|].
    { exists (used b (size t')). split; [reflexivity|]. split; [reflexivity|exact HP]. }
    rewrite E1. cbn [bind]. eexists. split; [reflexivity|]. apply quiet_ok; auto; [|lia|].
    - right. cbn [put y_vars]. rewrite M5. eauto.
    - intros _. rewrite S1, P. exact DO. }
  assert (SAME : set (shown w) i (builder_val t (b_len b)) = shown w).
  { unfold set. apply upd_id. unfold has in HV'. now apply nth_get. }
  destruct HO as [(s & -> & L)|(v & -> & L)]; cbn [y_step]; rewrite E; rewrite buf_bytes_spec by exact G; cbn [bind].
  - destruct (text_spec _ _ _ s HH) as (sb & ES & HS); [lia|]. rewrite ES. cbn [bind]. apply (FIN sb _ HS).
    destruct (N.leb_spec (size t + size s) (b_len b)); [now apply do_append|]. rewrite SAME. eapply do_append_full; [exact HV'|lia].
  - destruct (num_spec _ _ _ v HH L) as (sb & ES & HS). rewrite ES. cbn [bind]. apply (FIN sb _ HS).
    destruct (N.leb_spec (size t + size (dec v) + 1) (b_len b)); [apply do_append_num; [exact HV'|apply dec_spec|lia]|].
    rewrite SAME. eapply do_append_num_full; [exact HV'|apply dec_spec|lia].
Qed.

(** ** Moving memory between objects *)
Lemma null_content h : content h null_buf = []. Proof. reflexivity. Qed.
Lemma step_to_array ma host_be w i j : wf w -> exists r, y_step ma host_be (ToArray i j) w = Ret r /\ outcome_ok ma w (ToArray i j) r.
Proof.
  intros W. cbn [y_step]. destruct (is_free w i) eqn:F; [|no_op W]. look_at W w j E HV SH G. pose proof (is_free_spec _ _ F) as (F1 & F2).
  destruct k; try no_op W; cbn in SH. destruct SH as (-> & b & -> & HP). eexists. split; [reflexivity|].
  eapply taken_ok; [exact W|exact F|exact E| | |repeat constructor|left; reflexivity|].
  - split; [reflexivity|]. exists null_buf. split; [reflexivity|now right].
  - split; [reflexivity|now exists b].
  - intros _. exact (do_to_array _ i j _ _ F2 HV).
Qed.
Lemma step_build ma host_be w i j : wf w -> exists r, y_step ma host_be (Build i j) w = Ret r /\ outcome_ok ma w (Build i j) r.
Proof.
  intros W. cbn [y_step]. destruct (is_free w i) eqn:F; [|no_op W]. look_at W w j E HV SH G. pose proof (is_free_spec _ _ F) as (F1 & F2).
  destruct k; try no_op W; cbn in SH. destruct SH as (b & -> & -> & HP). eexists. split; [reflexivity|].
  cbn [o_bufs] in G. apply Forall_inv in G. pose proof (size_content _ _ G) as SC. pose proof G as (U & _).
  assert (U16 : u16 (b_use b) <= b_use b) by (unfold u16; apply N.mod_le; lia).
  assert (U17 : u16 (b_use b) < 2 ^ 16) by (unfold u16; apply N.mod_lt; lia).
  eapply taken_ok; [exact W|exact F|exact E| | |repeat constructor|right; exists b, (u16 (b_use b)); repeat split; lia|].
  - exists null_buf. split; [reflexivity|]. split; [reflexivity|now right].
  - split; [reflexivity|]. eexists. split; [reflexivity|exact U17].
  - intros FR. assert (L : b_use b < 2 ^ 16) by (rewrite <- SC; exact (FR _ _ HV)). rewrite u16_small by exact L.
    exact (do_build _ i j _ _ F2 HV).
Qed.
Lemma step_digest_of ma host_be w i j : wf w -> exists r, y_step ma host_be (DigestOf i j) w = Ret r /\ outcome_ok ma w (DigestOf i j) r.
Proof.
  intros W. cbn [y_step]. destruct (is_free w i) eqn:F; [|no_op W]. look_at W w j E HV SH G. pose proof (is_free_spec _ _ F) as (F1 & F2).
  destruct k; try no_op W; cbn in SH. destruct SH as (-> & b & ->). eexists. split; [reflexivity|].
  eapply taken_ok; [exact W|exact F|exact E| | |repeat constructor|left; reflexivity|].
  - split; [reflexivity|]. now exists null_buf.
  - split; [reflexivity|now exists b].
  - intros _. exact (do_digest_of _ i j _ F2 HV).
Qed.
Lemma shape_moved x : shape x -> shape (moved_from x) /\ Forall (fun b => b = null_buf) (o_bufs (moved_from x)) .
Proof.
  unfold shape, moved_from. destruct x as [k ns bs]. destruct k; cbn [o_kind o_nums o_bufs].
  - intros (-> & b & -> & _). split; [|repeat constructor]. split; [reflexivity|]. exists null_buf. split; reflexivity.
  - intros (-> & b & -> & _). split; [|repeat constructor]. split; [reflexivity|]. exists null_buf. split; [reflexivity|now right].
  - intros (-> & b & ->). split; [|repeat constructor]. split; [reflexivity|]. now exists null_buf.
  - intros (b & -> & -> & _). split; [|repeat constructor]. exists null_buf. split; [reflexivity|]. split; [reflexivity|now right].
  - intros (-> & b & ->). split; [|repeat constructor]. split; [reflexivity|]. now exists null_buf.
  - intros (a & b & c & p & q & -> & -> & L1 & L2 & L3 & _). split; [|repeat constructor]. exists a, b, c, null_buf, null_buf.
    split; [reflexivity|]. split; [reflexivity|]. repeat split; try assumption; reflexivity.
  - intros (-> & U). split; [auto|]. constructor.
  - intros (-> & v & l & -> & _). split; [|repeat constructor]. split; [reflexivity|]. exists null_buf, []. repeat split; constructor.
Qed.
Lemma value_moved h x : shape x -> value_of h (moved_from x) = emptied (value_of h x).
Proof.
  unfold shape, moved_from, emptied, value_of. destruct x as [k ns bs]. destruct k; cbn [o_kind o_nums o_bufs va_kind va_nums]; try reflexivity.
  - intros (-> & b & -> & _). reflexivity.
  - intros (-> & b & -> & _). reflexivity.
  - intros (-> & b & ->). reflexivity.
  - intros (-> & b & ->). reflexivity.
  - intros (a & b & c & p & q & -> & -> & _). reflexivity.
Qed.
Lemma step_move ma host_be w i j : wf w -> exists r, y_step ma host_be (Move i j) w = Ret r /\ outcome_ok ma w (Move i j) r.
Proof.
  intros W. cbn [y_step]. destruct (is_free w i) eqn:F; [|no_op W]. destruct (obj_at w j) as [x|] eqn:E; [|no_op W].
  pose proof (obj_at_has _ _ _ E) as HV. pose proof (obj_good _ _ _ W E) as (SH & G). pose proof (is_free_spec _ _ F) as (F1 & F2).
  destruct (shape_moved x SH) as (SM & NM). eexists. split; [reflexivity|].
  eapply taken_ok; [exact W|exact F|exact E|exact SM|exact SH|exact NM|left; reflexivity|].
  intros _. rewrite value_moved by exact SH. now apply do_move.
Qed.
Lemma kind_eqb_spec a b : kind_eqb a b = true <-> a = b. Proof. destruct a, b; cbn; split; congruence. Qed.
Lemma step_swap ma host_be w i j : wf w -> exists r, y_step ma host_be (Swap i j) w = Ret r /\ outcome_ok ma w (Swap i j) r.
Proof.
  intros W. cbn [y_step]. destruct (obj_at w i) as [x|] eqn:E; [|no_op W]. destruct (obj_at w j) as [y|] eqn:E2; [|no_op W].
  pose proof (obj_at_has _ _ _ E) as HV. pose proof (obj_good _ _ _ W E) as (SH & G).
  pose proof (obj_at_has _ _ _ E2) as HV2. pose proof (obj_good _ _ _ W E2) as (SH2 & G2).
  destruct (kind_eqb (o_kind x) (o_kind y)) eqn:EK.
  - apply kind_eqb_spec in EK. eexists. split; [reflexivity|]. unfold obj_at in E, E2. rewrite nth_get in E, E2.
    apply quiet_ok; auto; try reflexivity; try (cbn; lia).
    + split.
      * apply owns_put, owns_put. cbn [put y_vars]. eapply owns_perm; [|exact (wf_owns w W)]. apply (perm2 _ i j x y y x E2).
        -- destruct (Nat.eq_dec j i) as [->|NE]; [eapply nth_upd_same; eauto|now rewrite nth_upd_other].
        -- reflexivity.
      * cbn [put y_vars]. intros k o0 H. apply get_upd_cases in H as [H|H]; [congruence|]. apply get_upd_cases in H as [H|H]; [congruence|].
        eapply W; eauto.
    + right. cbn [put y_vars]. do 3 eexists. split; [reflexivity|]. now rewrite length_upd.
    + intros _. rewrite !shown_put0. apply do_swap; [exact HV|exact HV2|exact EK].
  - eexists. split; [reflexivity|]. apply none_ok; [exact W|]. assert (NK : o_kind x <> o_kind y) by (intros H; apply kind_eqb_spec in H; congruence).
    intros (m & a & s' & D). inversion D; subst.
    match goal with H : va_kind ?u = va_kind ?v, K1 : has _ i ?u, K2 : has _ j ?v |- _ =>
      rewrite <- (has_det _ _ _ _ HV K1), <- (has_det _ _ _ _ HV2 K2) in H; exact (NK H) end.
Qed.
Lemma step_assign ma host_be w i j : wf w -> exists r, y_step ma host_be (Assign i j) w = Ret r /\ outcome_ok ma w (Assign i j) r.
Proof.
  intros W. cbn [y_step]. destruct (obj_at w i) as [x|] eqn:E; [|no_op W]. destruct (obj_at w j) as [y|] eqn:E2; [|no_op W].
  pose proof (obj_at_has _ _ _ E) as HV. pose proof (obj_good _ _ _ W E) as (SH & G).
  pose proof (obj_at_has _ _ _ E2) as HV2. pose proof (obj_good _ _ _ W E2) as (SH2 & G2).
  destruct (kind_eqb (o_kind x) (o_kind y)) eqn:EK.
  2:{ eexists. split; [reflexivity|]. apply none_ok; [exact W|]. assert (NK : o_kind x <> o_kind y) by (intros H; apply kind_eqb_spec in H; congruence).
      intros (m & a & s' & D). inversion D; subst.
      - match goal with H : va_kind ?u = va_kind ?v, K1 : has _ i ?u, K2 : has _ j ?v |- _ =>
          rewrite <- (has_det _ _ _ _ HV K1), <- (has_det _ _ _ _ HV2 K2) in H; exact (NK H) end.
      - congruence. }
  apply kind_eqb_spec in EK. destruct (Nat.eqb_spec i j) as [->|NE].
  - eexists. split; [reflexivity|]. apply quiet_ok; auto; [lia|]. intros _. eapply do_assign_self. exact HV.
  - eexists. split; [reflexivity|]. unfold obj_at in E, E2. rewrite nth_get in E, E2.
    assert (A : shape (fst (assigned x y)) /\ shape (snd (assigned x y)) /\
      Permutation (o_bufs (fst (assigned x y)) ++ o_bufs (snd (assigned x y))) (o_bufs y ++ o_bufs x) /\
      value_of (y_heap w) (fst (assigned x y)) = value_of (y_heap w) y /\
      value_of (y_heap w) (snd (assigned x y)) = given_back (value_of (y_heap w) x) (value_of (y_heap w) y)).
    { unfold assigned, given_back. cbn [value_of va_kind]. destruct x as [kx nx bx], y as [ky ny b_y]. cbn [o_kind] in EK. subst ky.
      destruct kx; cbn [o_kind fst snd o_bufs o_nums]; repeat (split; [first [exact SH|exact SH2|reflexivity|idtac]|]); try reflexivity.
      cbn in SH, SH2 |- *. destruct SH as (a & b & c & p & q & -> & -> & L1 & L2 & L3 & L4 & L5). destruct SH2 as (a' & b' & c' & p' & q' & -> & -> & L1' & L2' & L3' & L4' & L5').
      exists a', b', c', p, q. auto 10. }
    destruct A as (A1 & A2 & A3 & A4 & A5).
    apply quiet_ok; auto; try reflexivity; try (cbn; lia).
    + split.
      * apply owns_put, owns_put. cbn [put y_vars]. eapply owns_perm; [|exact (wf_owns w W)]. apply (perm2 _ i j x y _ _ E2).
        -- rewrite nth_upd_other; auto.
        -- exact A3.
      * cbn [put y_vars]. intros k o0 H. apply get_upd_cases in H as [H|H]; [congruence|]. apply get_upd_cases in H as [H|H]; [congruence|].
        eapply W; eauto.
    + right. cbn [put y_vars]. do 3 eexists. split; [reflexivity|]. now rewrite length_upd.
    + intros _. rewrite !shown_put0. cbn [option_map]. change (y_heap (put w j (Some (snd (assigned x y))))) with (y_heap w). rewrite A4, A5.
      apply do_assign; [exact HV|exact HV2|exact EK|exact NE].
Qed.
Lemma step_drop ma host_be w i : wf w -> exists r, y_step ma host_be (Drop i) w = Ret r /\ outcome_ok ma w (Drop i) r.
Proof.
  intros W. cbn [y_step]. destruct (obj_at w i) as [x|] eqn:E; [|no_op W]. pose proof (obj_at_has _ _ _ E) as HV.
  unfold obj_at in E. rewrite nth_get in E. pose proof (owns_perm _ _ _ (perm_rest _ _ _ E) (wf_owns w W)) as O1. cbn [var_bufs] in O1.
  destruct (release_all_spec _ _ _ O1) as (w1 & E1 & O2 & S2 & (T1 & T2 & T3) & C2 & Z2). rewrite E1. cbn [bind]. eexists. split; [reflexivity|].
  apply quiet_ok; auto.
  - apply wf_put; rewrite ?T3; [exact O2|apply W|discriminate].
  - right. cbn [put y_vars]. rewrite T3. eauto.
  - intros _. rewrite (shown_put w w1 i None T3 S2). eapply do_drop. exact HV.
Qed.
Lemma step_look ma host_be w i : wf w -> exists r, y_step ma host_be (Look i) w = Ret r /\ outcome_ok ma w (Look i) r.
Proof.
  intros W. cbn [y_step]. destruct (obj_at w i) as [x|] eqn:E; [|no_op W]. pose proof (obj_at_has _ _ _ E) as HV.
  pose proof (obj_good _ _ _ W E) as (SH & G). rewrite buf_texts_spec.
  2:{ unfold text_bufs. destruct (o_kind x); auto. destruct (o_bufs x); [constructor|]. now inversion G. }
  cbn [bind]. eexists. split; [reflexivity|]. apply quiet_ok; auto; [lia|]. intros _. exact (do_look _ i _ HV).
Qed.
Lemma step_version ma host_be w i a b c j k : wf w -> a < 2 ^ 32 /\ b < 2 ^ 32 /\ c < 2 ^ 32 ->
  exists r, y_step ma host_be (MkVersion i a b c j k) w = Ret r /\ outcome_ok ma w (MkVersion i a b c j k) r.
Proof.
  intros W (La & Lb & Lc). cbn [y_step]. destruct (is_free w i) eqn:F; [|no_op W]. look_at W w j E HV SH G. pose proof (is_free_spec _ _ F) as (F1 & F2).
  destruct k0; try no_op W; cbn in SH. destruct SH as (-> & p & -> & U).
  set (e0 := mkObj KString [] [null_buf]). set (w1 := put w j (Some e0)).
  assert (HV' : has (shown w) j (text_val (content (y_heap w) p))) by exact HV.
  assert (S1 : shown w1 = set (shown w) j (text_val [])) by (unfold w1; rewrite shown_put0; reflexivity).
  unfold obj_at in E. rewrite nth_get in E.
  assert (O1 : owns w1 (p :: all_bufs (y_vars w1))).
  { unfold w1. apply owns_put. cbn [put y_vars]. apply (owns_upd w [] _ j _ (Some e0) E). apply owns_null. exact (wf_owns w W). }
  assert (SH1 : forall i o, get (y_vars w1) i = Some o -> shape o).
  { unfold w1. cbn [put y_vars]. intros i0 o H. apply get_upd_cases in H as [H|H]; [injection H as <-; exact shape_empty|]. eapply W; eauto. }
  assert (NP : (forall y, ~ has (shown w1) k (text_val y)) -> outcome_ok ma w (MkVersion i a b c j k) (YNone, w)).
  { intros H. apply none_ok; [exact W|]. intros (m & an & s' & D). inversion D; subst. rewrite <- S1 in *. eapply H; eauto. }
  destruct (obj_at w1 k) as [[k2 ns2 bs2]|] eqn:E2.
  2:{ eexists. split; [reflexivity|]. apply NP. intros y H. exact (obj_none _ _ _ E2 H). }
  pose proof (obj_at_has _ _ _ E2) as HV2. pose proof (SH1 k _ E2) as SH2.
  assert (NK : k2 <> KString -> outcome_ok ma w (MkVersion i a b c j k) (YNone, w)).
  { intros H. apply NP. intros y K. apply H. exact (f_equal va_kind (has_det _ _ _ _ HV2 K)). }
  destruct k2; try (eexists; split; [reflexivity|apply NK; discriminate]). clear NK NP.
  cbn in SH2. destruct SH2 as (-> & q & -> & U2). eexists. split; [reflexivity|]. fold e0.
  unfold obj_at in E2. rewrite nth_get in E2.
  assert (NE : j <> i) by (intros ->; congruence).
  assert (Fi : nth_error (y_vars w1) i = Some None) by (unfold w1; cbn [put y_vars]; now rewrite nth_upd_other).
  assert (NE2 : k <> i) by (intros ->; congruence).
  set (new := mkObj KVersion [a; b; c] [p; q]).
  assert (SN : shape new) by (exists a, b, c, p, q; auto 10).
  apply quiet_ok; auto; try reflexivity; try (cbn; lia).
  - split.
    + apply owns_put, owns_put. cbn [put y_vars].
      assert (O2 : owns w1 (p :: q :: all_bufs (upd (y_vars w1) k (Some e0)))).
      { apply (owns_upd w1 [p] _ k _ (Some e0) E2). cbn [app var_bufs o_bufs e0]. eapply owns_perm; [apply perm_swap|]. apply owns_null. exact O1. }
      assert (Fi2 : nth_error (upd (y_vars w1) k (Some e0)) i = Some None) by now rewrite nth_upd_other.
      exact (owns_upd w1 [] _ i None (Some new) Fi2 O2).
    + cbn [put y_vars]. intros l o H. apply get_upd_cases in H as [H|H]; [injection H as <-; exact SN|].
      apply get_upd_cases in H as [H|H]; [injection H as <-; exact shape_empty|]. eapply SH1; eauto.
  - right. cbn [put y_vars]. do 3 eexists. split; [reflexivity|]. unfold w1. cbn [put y_vars]. now rewrite !length_upd.
  - intros _. rewrite !shown_put0, S1. cbn [option_map]. rewrite S1 in HV2. exact (do_version _ i a b c j k _ _ F2 HV' HV2).
Qed.
