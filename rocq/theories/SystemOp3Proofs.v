From Coq Require Import Lia Permutation.
From Verif Require Import ContainerProofs OptResProofs Base BaseLemmas MemViewProofs ByteIOModel ByteIOProofs MemoryModel MemoryProofs StringSpec StringModel StringViewModel
  StringViewProofs StringProofs FmtModel FmtSpec FmtProofs BuilderModel BuilderSpec BuilderProofs ByteIOSpec Base16Model Base16Spec Base16Proofs HashModel HashProps
  UUIDModel UUIDSpec UUIDProofs UUIDProps VersionModel VersionSpec VersionProofs PathModel PathSpec PathProofs SystemModel SystemSpec SystemProofs SystemStepProofs SystemOpProofs SystemOp2Proofs.
Local Open Scope N_scope.


Lemma owns_total L : forall w, owns w L -> y_size w = sum (map (fun b => if b_own b then b_len b else 0) L).
Proof.
  induction L as [|b L IH]; intros w O.
  - cbn [map sum]. rewrite (ow_size _ _ O). pose proof (ow_all _ _ O) as A. induction (y_heap w) as [|[x|] h IHh]; [reflexivity| |].
    + exfalso. apply (A 0%nat). discriminate.
    + cbn [live_bytes]. apply IHh. intros a H. apply (A (S a)). exact H.
  - destruct (release_spec w b L O) as (w' & _ & O' & _ & _ & _ & Z & LE). apply IH in O'. cbn [map sum]. rewrite <- O', Z.
    destruct (b_own b); [specialize (LE eq_refl)|]; lia.
Qed.
Lemma owns_same_size w w' L : owns w L -> owns w' L -> y_size w' = y_size w.
Proof. intros A B. now rewrite (owns_total _ _ A), (owns_total _ _ B). Qed.
Lemma why_not_le ma w w' n n' : n <= n' -> why_not ma w w' n -> why_not ma w w' n'.
Proof. intros L [H|[H|H]]; [left; exact H|right; left; lia|right; right; exact H]. Qed.
Lemma lost_le ma w w' n n' L : n <= n' -> lost ma w w' n L -> lost ma w w' n' L.
Proof. intros H (A & B & C & D & E & F & G). repeat (split; [assumption|]). eapply why_not_le; eauto. Qed.
Lemma why_not_after ma w w1 w2 m n L : owns w L -> got w w1 m L -> why_not ma w1 w2 n -> why_not ma w w2 (sum m + n).
Proof.
  intros O ((A1 & A2 & A3) & B & C & D & E & F) [H|[H|(k & H & K)]]; [left; congruence| |right; right; exists k; split; [lia|exact K]].
  right. left. unfold left_over in *. rewrite A1, F in H. pose proof (ow_cap _ _ O). lia.
Qed.
Lemma empty_unfair_ok ma w o i w' : wf w -> is_free w i = true -> takes o = true -> stays w w' -> owns w' (all_bufs (y_vars w)) -> (y_calls w <= y_calls w')%nat ->
  y_locked w = false -> ~ fair o (shown w) -> outcome_ok ma w o (YDone, put w' i (Some (mkObj KString [] [null_buf]))).
Proof.
  intros W F T (G1 & G2 & G3) O C L NF. apply is_free_spec in F as (F1 & F2).
  split; [|split; [exact G1|split; [cbn; rewrite length_upd; congruence|split; [exact C|split; [|split; [intros _ _; exact G2|]]]]]].
  - apply wf_put; rewrite ?G3; [|apply W|intros x [= <-]; exact shape_empty]. eapply owns_perm; [|apply owns_null; exact O].
    exact (perm_free (y_vars w) i (Some (mkObj KString [] [null_buf])) F1).
  - intros [H|H]; congruence.
  - intros FR. contradiction.
Qed.

(** ** Texts of other objects *)
Lemma bytes_u8 d : bytes_ok (map u8 d).
Proof. unfold bytes_ok. rewrite Forall_map, Forall_forall. intros x _. unfold is_byte, u8. apply N.mod_lt. lia. Qed.
Lemma stays_refl w : stays w w. Proof. repeat split. Qed.
Lemma stays_trans a b c : stays a b -> stays b c -> stays a c.
Proof. intros (A & B & C) (A' & B' & C'). repeat split; congruence. Qed.

Lemma step_digest_text ma host_be w i j : wf w -> exists r, y_step ma host_be (DigestText i j) w = Ret r /\ outcome_ok ma w (DigestText i j) r.
Proof.
  intros W. cbn [y_step]. destruct (is_free w i) eqn:F; [|no_op W]. look_at W w j E HV SH G. pose proof (is_free_spec _ _ F) as (F1 & F2).
  destruct k; try no_op W; cbn in SH. destruct SH as (-> & b & ->). cbn [o_bufs] in G. apply Forall_inv in G.
  rewrite buf_text_spec by exact G. cbn [bind]. set (d := content (y_heap w) b) in *. set (n := b16_encodedSize (size d)).
  assert (D : fair (DigestText i j) (shown w) -> does (DigestText i j) (shown w) [n; 0] YDone (set (shown w) i (text_val []))).
  { intros [H|H]; [|exfalso; exact (H _ HV)]. pose proof (has_det _ _ _ _ HV H) as EQ. apply (f_equal va_texts) in EQ. cbn in EQ. injection EQ as EQ. fold d in EQ.
    unfold n. rewrite EQ. exact (do_digest_text _ i j [] F2 H). }
  pose proof (allocate_made ma n w _ (wf_owns w W)) as M. destruct (allocate ma n w) as [[tmp|e] w1] eqn:EA.
  2:{ eexists. split; [reflexivity|]. destruct M as (ME & LO). eapply (lost_empty_ok ma w _ i [n; 0]); [exact W|exact F|reflexivity|discriminate| |cbn; auto|exact D].
      eapply lost_le; [|exact LO]. cbn [sum]. lia. }
  destruct (C50_refuted true (fun n => Ok (repeat 0 (N.to_nat n))) (map u8 d) (bytes_u8 d)) as ((s & ES & EV) & _). rewrite ES. cbn [bind]. rewrite EV.
  destruct M as (GT & O1 & OW & LN & _). destruct (make_of_made ma [] w1 _ O1) as ([[q|e] w2] & -> & M2); cbn [bind fst snd].
  - destruct M2 as (GT2 & O2 & OW2 & LN2 & CT2). destruct (release_spec w2 tmp (q :: all_bufs (y_vars w))) as (w3 & -> & O3 & S3 & T3 & C3 & Z3 & _).
    { eapply owns_perm; [apply perm_swap|exact O2]. }
    cbn [bind settle_or_empty]. eexists. split; [reflexivity|].
    destruct GT as (A1 & A2 & A3 & A4 & A5 & A6). destruct GT2 as (B1 & B2 & B3 & B4 & B5 & B6). cbn [sum length] in *. change (size (@nil N)) with 0 in *.
    assert (EV3 : value_of (y_heap w3) (mkObj KString [] [q]) = text_val []).
    { unfold value_of, text_val. cbn [text_bufs o_kind o_nums o_bufs map room]. rewrite (content_same (y_heap w2)) by (apply S3; now left). now rewrite CT2. }
    apply (got_ok ma w _ i [n; 0]); [exact W|exact F|reflexivity|discriminate| |exact O3| |intros FR; rewrite EV3; now apply D].
    + split; [eauto using stays_trans|]. split.
      { eapply same_on_trans; [exact A2|]. eapply same_on_trans; [eapply same_on_incl; [|exact B2]; now apply incl_tl, incl_refl|].
        eapply same_on_incl; [|exact S3]. now apply incl_tl, incl_refl. }
      split; [exact A3|]. split; [cbn [sum]; lia|]. split; [cbn [length]; lia|]. cbn [sum]. lia.
    + split; [reflexivity|]. exists q. split; [reflexivity|]. pose proof (Forall_inv (ow_good _ _ O2)) as GQ. rewrite <- (size_content _ _ GQ), CT2. reflexivity.
  - destruct M2 as (ME & T2 & O2 & S2 & Z2 & C2 & K2 & Y2). destruct (release_spec w2 tmp (all_bufs (y_vars w)) O2) as (w3 & -> & O3 & S3 & T3 & C3 & Z3 & _).
    cbn [bind settle_or_empty]. eexists. split; [reflexivity|]. pose proof GT as GT'. destruct GT as (A1 & A2 & A3 & A4 & A5 & A6).
    eapply (lost_empty_ok ma w _ i [n; 0]); [exact W|exact F|reflexivity|discriminate| |cbn; auto|exact D].
    split; [eauto using stays_trans|]. split; [exact O3|]. split.
    { eapply same_on_trans; [exact A2|]. eapply same_on_trans; [eapply same_on_incl; [|exact S2]; now apply incl_tl, incl_refl|exact S3]. }
    split; [exact (owns_same_size _ _ _ (wf_owns w W) O3)|]. split; [lia|]. split; [congruence|].
    pose proof (why_not_after ma w w1 w2 [n] _ _ (wf_owns w W) GT' Y2) as Y. cbn [sum] in *. change (size (@nil N)) with 0 in Y. rewrite ?N.add_0_r in *.
    destruct Y as [Y|[Y|(k & Y & YK)]]; [left; exact Y|right; left; exact Y|right; right; exists k; split; [lia|exact YK]].
Qed.

Lemma version_size v : version_ok v -> ver_bufferSize v = size (dec (v_major v) ++ 46 :: dec (v_minor v) ++ 46 :: dec (v_patch v) ++ tail_text (v_pre v) (v_build v)) + 1.
Proof.
  intros (O1 & O2 & O3 & O4 & O5).
  unfold ver_bufferSize, sb_measure, tail_text. rewrite !size_app, !size_cons, !size_app, !size_cons, !size_app, !sv_empty_nil.
  pose proof (dec_size (v_major v)). pose proof (dec_size (v_minor v)). pose proof (dec_size (v_patch v)).
  unfold u16. rewrite !N.mod_small by lia. destruct (v_pre v), (v_build v); cbn [tagged]; rewrite ?(@size_nil N), ?size_cons; lia.
Qed.
Lemma version_built host_be v block : version_ok v -> size block = ver_bufferSize v -> size block < 2 ^ 64 ->
  let t := dec (v_major v) ++ 46 :: dec (v_minor v) ++ 46 :: dec (v_patch v) ++ tail_text (v_pre v) (v_build v) in
  exists sb, ver_toString host_be (fun _ => Ok block) v = Ret (fst (sb_build sb)) /\ holds (size block) sb t.
Proof.
  intros VO ZB L64 t. pose proof (version_size v VO) as BS. fold t in BS. unfold ver_toString. rewrite toString_pieces.
  destruct VO as (O1 & O2 & O3 & O4 & O5).
  assert (F : Forall piece_ok (ver_pieces v)).
  { unfold ver_pieces. rewrite !Forall_app. split; [|split].
    - repeat apply Forall_cons; try apply Forall_nil; cbn [piece_ok]; try lia; reflexivity.
    - destruct (sv_empty (v_pre v)); [constructor|]. apply Forall_cons; [reflexivity|]. apply Forall_cons; [exact O4|constructor].
    - destruct (sv_empty (v_build v)); [constructor|]. apply Forall_cons; [reflexivity|]. apply Forall_cons; [exact O5|constructor]. }
  destruct (appends_spec host_be (size block) (ver_pieces v) (sb_make block) [] (holds_make block L64) F) as (w & EW & K).
  rewrite accumulate_total in K by (rewrite ver_pieces_text; fold t; lia). rewrite ver_pieces_text in K. fold t in K.
  rewrite EW. cbn [bind]. eauto.
Qed.
Lemma dec_version_text v : version_text v (dec (v_major v) ++ 46 :: dec (v_minor v) ++ 46 :: dec (v_patch v) ++ tail_text (v_pre v) (v_build v)).
Proof. exists (dec (v_major v)), (dec (v_minor v)), (dec (v_patch v)). repeat (split; [apply dec_spec|]). reflexivity. Qed.

Lemma step_version_text ma host_be w i j : wf w -> exists r, y_step ma host_be (VersionText i j) w = Ret r /\ outcome_ok ma w (VersionText i j) r.
Proof.
  intros W. cbn [y_step]. destruct (is_free w i) eqn:F; [|no_op W]. look_at W w j E HV SH G. pose proof (is_free_spec _ _ F) as (F1 & F2).
  destruct k; try no_op W; cbn in SH. destruct SH as (a & b & c & p & q & -> & -> & La & Lb & Lc & Up & Uq). cbn [o_bufs] in G.
  pose proof (Forall_inv G) as Gp. pose proof (Forall_inv (Forall_inv_tail G)) as Gq.
  rewrite !buf_text_spec by assumption. cbn [bind]. set (x := content (y_heap w) p) in *. set (y := content (y_heap w) q) in *.
  set (v := mkVersion a b c x y). set (n := ver_bufferSize v).
  assert (VO : version_ok v) by (unfold version_ok, v; cbn [v_major v_minor v_patch v_pre v_build]; unfold x, y; rewrite !size_content by assumption; auto).
  pose proof (version_size v VO) as BS. fold n in BS. pose proof (dec_version_text v) as TX. set (t := dec (v_major v) ++ _) in *.
  assert (D : fair (VersionText i j) (shown w) -> does (VersionText i j) (shown w) [n] YDone (set (shown w) i (text_val t))).
  { intros _. rewrite BS. exact (do_version_text _ i j a b c x y t F2 HV TX). }
  pose proof (allocate_made ma n w _ (wf_owns w W)) as M. destruct (allocate ma n w) as [[d|e] w1] eqn:EA.
  2:{ eexists. split; [reflexivity|]. destruct M as (ME & LO). eapply (lost_empty_ok ma w _ i [n]); [exact W|exact F|reflexivity|discriminate|exact LO|cbn; auto|exact D]. }
  destruct (allocated ma n w d w1 W EA) as (blk & EB & ZB & L64 & O1 & GD). rewrite EB. cbn [bind].
  destruct (version_built host_be v blk VO ZB) as (sb & ES & (A1 & A2 & A3 & A4 & A5 & A6)); [lia|]. rewrite ES. cbn [bind]. fold t in A3, A4, A6.
  unfold sb_build. cbn [fst st_buf st_size]. unfold sb_length.
  assert (U16 : u16 (w_pos sb) <= w_pos sb) by (unfold u16; apply N.mod_le; lia).
  assert (U17 : u16 (w_pos sb) < 2 ^ 16) by (unfold u16; apply N.mod_lt; lia).
  destruct (fill_made ma n w _ d w1 (mkStr (w_buf sb) (u16 (w_pos sb))) (wf_owns w W) EA) as (w2 & E3 & M3); [cbn; lia|cbn; lia|].
  cbn [st_buf st_size] in *. rewrite E3. cbn [bind]. eexists. split; [reflexivity|].
  set (tv := str_view _) in M3.
  assert (SV : size tv < 2 ^ 16) by (unfold tv, str_view; cbn [st_buf st_size]; rewrite size_ntake; lia).
  eapply (settle_empty_ok ma w _ i [_]); [exact W|exact F|reflexivity|discriminate|exact M3|apply one_string; exact SV| |cbn; auto].
  intros FR. specialize (D FR). assert (L : size t < 2 ^ 16) by exact (FR a b c x y t HV TX).
  assert (EQ : tv = t).
  { unfold tv, str_view. cbn [st_buf st_size]. rewrite u16_small by lia. rewrite N.min_r by lia. rewrite A3. exact A6. }
  rewrite EQ. exact D.
Qed.

Lemma step_uuid_text ma host_be w i j : wf w -> exists r, y_step ma host_be (UUIDText i j) w = Ret r /\ outcome_ok ma w (UUIDText i j) r.
Proof.
  intros W. cbn [y_step]. destruct (is_free w i) eqn:F; [|no_op W]. look_at W w j E HV SH G. pose proof (is_free_spec _ _ F) as (F1 & F2).
  destruct k; try no_op W; cbn in SH. destruct SH as (-> & U).
  assert (EU : uuid_toString ns (repeat 0 36) = Ret (uuid_text ns)).
  { unfold uuid_toString. rewrite toString_buf_ok; [reflexivity|exact U|change (size (repeat 0 36)) with 36; lia|reflexivity]. }
  rewrite EU. cbn [bind].
  assert (S36 : size (uuid_text ns) = 36).
  { destruct (C16_to_string ns (repeat 0 36) U) as (_ & S36); [change (size (repeat 0 36)) with 36; lia|reflexivity|]. unfold size. rewrite S36. reflexivity. }
  destruct (make_of_made ma (uuid_text ns) w _ (wf_owns w W)) as (p & -> & M). cbn [bind]. eexists. split; [reflexivity|]. rewrite S36 in M.
  eapply (settle_empty_ok ma w _ i [_]); [exact W|exact F|reflexivity|discriminate|exact M|apply one_string; rewrite S36; reflexivity| |cbn; auto].
  intros _. exact (do_uuid_text _ i j ns F2 HV).
Qed.

Lemma join_size_spec l : l <> [] -> size l < 2 ^ 64 -> join_size [47] l = size (glue [47] l) mod 2 ^ 16.
Proof. exact (join_total [47] l). Qed.
Lemma step_path_text ma host_be w i j : wf w -> exists r, y_step ma host_be (PathText i j) w = Ret r /\ outcome_ok ma w (PathText i j) r.
Proof.
  intros W. cbn [y_step]. destruct (is_free w i) eqn:F; [|no_op W]. look_at W w j E HV SH G. pose proof (is_free_spec _ _ F) as (F1 & F2).
  destruct k; try no_op W; cbn in SH. destruct SH as (-> & v & bs' & -> & NE & SZ & U16). cbn [o_bufs] in G.
  pose proof (Forall_inv_tail G) as Gs. rewrite buf_texts_spec by exact Gs. cbn [bind]. set (cs := map (content (y_heap w)) bs').
  assert (HV' : has (shown w) j (path_val cs)) by exact HV.
  assert (SK : Forall sv_ok cs).
  { unfold cs. rewrite Forall_map. rewrite Forall_forall in *. intros b I. unfold sv_ok. rewrite size_content by auto. auto. }
  assert (SC : size cs < 2 ^ 64) by (unfold cs, size; rewrite map_length; unfold size in SZ; lia).
  assert (AB : path_isAbsolute (mkPath cs (b_len v)) = Ret (match cs with [] :: _ => true | _ => false end)).
  { unfold path_isAbsolute, path_empty. cbn [p_cap]. destruct bs' as [|b0 bs'].
    - replace (b_len v) with 0 by (symmetry; now apply NE). reflexivity.
    - unfold cs. cbn [map]. unfold path_at. cbn [p_comps nnth]. destruct (N.eqb_spec (b_len v) 0) as [Z|Z].
      + apply NE in Z. discriminate.
      + cbn [N.eqb noexcept bind]. rewrite sv_empty_nil. destruct (content (y_heap w) b0); reflexivity. }
  rewrite AB. cbn [bind].
  assert (RT : cs = [[]] \/ (cs <> [[]] /\ (match cs with [] :: _ => true | _ => false end && (size cs =? 1))%bool = false)).
  { destruct cs as [|[|c0 t0] [|c1 cs']]; [right|left|right|right|right]; try (split; [discriminate|]); try reflexivity.
    rewrite !size_cons. destruct (N.eqb_spec (size cs' + 1 + 1) 1); [lia|reflexivity]. }
  destruct RT as [RT|(RT & ->)].
  { rewrite RT in *. cbn [andb]. change (size [@nil N] =? 1) with true. cbn iota. change Delimiter with [47].
    destruct (make_of_made ma [47] w _ (wf_owns w W)) as (p & -> & M). cbn [bind]. eexists. split; [reflexivity|].
    eapply (settle_empty_ok ma w _ i [_]); [exact W|exact F|reflexivity|discriminate|exact M|apply one_string; reflexivity| |cbn; auto].
    intros _. exact (do_path_text _ i j [[]] F2 HV'). }
  assert (PT : path_text cs = glue [47] cs) by (destruct cs as [|[|] [|]]; try reflexivity; congruence).
  change Delimiter with [47]. set (n := join_size [47] cs).
  assert (N16 : n < 2 ^ 16).
  { unfold n. destruct (list_eq_dec (list_eq_dec N.eq_dec) cs []) as [->|NC]; [reflexivity|]. rewrite join_size_spec by assumption. apply N.mod_lt. lia. }
  assert (EN : fair (PathText i j) (shown w) -> n = size (glue [47] cs)).
  { intros FR. destruct (FR cs HV') as (NC & L). rewrite PT in L. unfold n. rewrite join_size_spec by assumption. apply N.mod_small. exact L. }
  assert (D : fair (PathText i j) (shown w) -> does (PathText i j) (shown w) [n] YDone (set (shown w) i (text_val (glue [47] cs)))).
  { intros FR. rewrite (EN FR), <- PT. now apply do_path_text. }
  pose proof (allocate_made ma n w _ (wf_owns w W)) as M. destruct (allocate ma n w) as [[d|e] w1] eqn:EA.
  2:{ eexists. split; [reflexivity|]. destruct M as (ME & LO). eapply (lost_empty_ok ma w _ i [n]); [exact W|exact F|reflexivity|discriminate|exact LO|cbn; auto|exact D]. }
  destruct (allocated ma n w d w1 W EA) as (blk & EB & ZB & L64 & O1 & GD). rewrite EB. cbn [bind]. unfold str_join.
  change (fold_left _ cs _) with n.
  assert (WI : winv (writer_make blk)) by (unfold winv, writer_make; cbn; lia).
  assert (B47 : sv_ok [47]) by reflexivity.
  pose proof (join_loop_spec [47] cs B47 (writer_make blk) WI eq_refl SK SC) as J. cbn [writer_make w_pos w_lim] in J. rewrite N.add_0_l, ZB in J.
  destruct (N.leb_spec (size (glue [47] cs)) n) as [Q|Q].
  - rewrite J. cbn [bind fst snd].
    assert (SB : size (w_buf (append (writer_make blk) (glue [47] cs))) = n).
    { unfold append, writer_make. cbn [w_buf w_pos]. rewrite size_spliced; lia. }
    destruct (fill_made ma n w _ d w1 (mkStr (w_buf (append (writer_make blk) (glue [47] cs))) n) (wf_owns w W) EA) as (w2 & E3 & M3); [exact SB|cbn; lia|].
    cbn [st_buf st_size] in *. rewrite E3. cbn [bind]. eexists. split; [reflexivity|]. rewrite str_view_exact in M3 by exact SB.
    eapply (settle_empty_ok ma w _ i [_]); [exact W|exact F|reflexivity|discriminate|exact M3|apply one_string; rewrite SB; exact N16| |cbn; auto].
    intros FR. rewrite append_make by (rewrite ZB; now apply EN). now apply D.
  - destruct J as (e & w' & J). rewrite J. cbn [bind fst].
    destruct M as (GT & O2 & _). destruct (release_spec w1 d _ O2) as (w2 & -> & O3 & S3 & T3 & C3 & Z3 & _). cbn [bind]. eexists. split; [reflexivity|].
    destruct GT as (A1 & A2 & A3 & A4 & A5 & A6).
    apply empty_unfair_ok; [exact W|exact F|reflexivity|eauto using stays_trans|exact O3|lia|exact A3|]. intros FR. apply EN in FR. lia.
Qed.
