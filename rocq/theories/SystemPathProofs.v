From Coq Require Import Lia Permutation.
From Verif Require Import ContainerProofs OptResProofs Base BaseLemmas MemViewProofs ByteIOModel ByteIOProofs MemoryModel MemoryProofs StringSpec StringModel StringViewModel
  StringViewProofs StringProofs FmtModel FmtSpec FmtProofs BuilderModel BuilderSpec BuilderProofs ByteIOSpec Base16Model Base16Spec Base16Proofs HashModel HashProps
  UUIDModel UUIDSpec UUIDProofs UUIDProps VersionModel VersionSpec VersionProofs PathModel PathSpec PathProofs SystemModel SystemSpec SystemProofs SystemStepProofs SystemOpProofs SystemOp2Proofs SystemOp3Proofs.
Local Open Scope N_scope.


(** ** Paths *)
Lemma got_trans w w1 w2 m1 m2 L : owns w L -> got w w1 m1 L -> got w1 w2 m2 L -> got w w2 (m1 ++ m2) L.
Proof.
  intros O (A1 & A2 & A3 & A4 & A5 & A6) (B1 & B2 & B3 & B4 & B5 & B6). split; [eauto using stays_trans|]. split; [eapply same_on_trans; eauto|]. split; [exact A3|].
  assert (SA : sum (m1 ++ m2) = sum m1 + sum m2) by (clear; induction m1 as [|x m1 IH]; cbn [app sum]; lia).
  destruct A1 as (A1 & _). pose proof (ow_cap _ _ O). unfold left_over in *. rewrite A1, A6 in B4. rewrite SA, app_length. split; [lia|]. split; lia.
Qed.
Lemma got_nil w L : y_locked w = false -> got w w [] L.
Proof. intros H. split; [apply stays_refl|]. split; [apply same_on_refl|]. split; [exact H|]. cbn [sum length]. unfold left_over. split; [lia|]. split; lia. Qed.
Lemma got_incl w w' m L L' : incl L' L -> got w w' m L -> got w w' m L'.
Proof. intros I (A & B & C). split; [exact A|]. split; [eapply same_on_incl; eauto|exact C]. Qed.

Lemma parse_loop ma L ps : forall acc i w count, ps <> [] -> i + size ps = count -> size acc = i -> y_locked w = false -> Forall sv_ok ps -> owns w (acc ++ L) ->
  exists p, parse_comps ma count (indexed i count ps) acc w = Ret p /\
  match p with
  | (Ok bs, w') => exists new, bs = acc ++ new /\ got w w' (map size (kept ps)) (acc ++ L) /\ owns w' (bs ++ L) /\
      map (content (y_heap w')) new = kept ps /\ Forall (fun b => b_use b < 2 ^ 16) new
  | (Err e, w') => memory_error e /\ stays w w' /\ owns w' L /\ same_on w w' L /\ (y_calls w <= y_calls w')%nat /\
      why_not ma w w' (sum (map size (kept ps)))
  end.
Proof.
  induction ps as [|c ps IH]; intros acc i w count NE SZ AC LK FO O; [congruence|]. rewrite size_cons in SZ. inversion FO as [|? ? Fc FO']; subst.
  cbn [indexed parse_comps]. destruct ps as [|q ps].
  - rewrite (@size_nil (list N)), N.add_0_l, N.eqb_refl. cbn [andb indexed]. destruct (sv_empty c) eqn:EC.
    + eexists. split; [reflexivity|]. exists []. unfold kept. cbn [last removelast]. rewrite EC, app_nil_r. cbn [map]. split; [reflexivity|]. split; [now apply got_nil|].
      split; [exact O|]. split; [reflexivity|constructor].
    + unfold kept. cbn [last]. rewrite EC. cbn [map].
      destruct (make_of_made ma c w _ O) as ([[b|e] w1] & -> & M); cbn [bind fst snd].
      * destruct M as (GT & O1 & OW & LN & CT). destruct (N.ltb_spec (size acc) (size acc + 1)); [|lia]. cbn [parse_comps]. eexists. split; [reflexivity|]. exists [b].
        split; [reflexivity|]. split; [exact GT|]. pose proof (Forall_inv (ow_good _ _ O1)) as GB.
        split; [eapply owns_perm; [|exact O1]; rewrite <- app_assoc; apply Permutation_cons_app; reflexivity|].
        cbn [map]. rewrite CT. split; [reflexivity|]. constructor; [|constructor]. rewrite <- (size_content _ _ GB), CT. exact Fc.
      * destruct M as (ME & T1 & O1 & S1 & Z1 & C1 & K1 & Y1). destruct (release_all_spec acc w1 L O1) as (w2 & -> & O2 & S2 & T2 & C2 & Z2). cbn [bind].
        eexists. split; [reflexivity|]. split; [exact ME|]. split; [eauto using stays_trans|]. split; [exact O2|].
        split; [eapply same_on_trans; [eapply same_on_incl; [|exact S1]; apply incl_appr, incl_refl|exact S2]|]. split; [lia|].
        destruct Y1 as [Y|[Y|(k & Y & YK)]]; [left; exact Y|right; left; exact Y|right; right; exists k; split; [lia|exact YK]].
  - rewrite size_cons. destruct (N.eqb_spec (size acc + 1) (size acc + (size ps + 1 + 1))); [lia|]. cbn [andb]. rewrite kept_cons. cbn [map].
    destruct (make_of_made ma c w _ O) as ([[b|e] w1] & -> & M); cbn [bind fst snd].
    + destruct M as (GT & O1 & OW & LN & CT). pose proof (Forall_inv (ow_good _ _ O1)) as GB.
      destruct (N.ltb_spec (size acc) (size acc + (size ps + 1 + 1))); [|lia].
      assert (LK1 : y_locked w1 = false) by (destruct GT as ((_ & -> & _) & _); exact LK).
      assert (O1' : owns w1 ((acc ++ [b]) ++ L)).
      { eapply owns_perm; [|exact O1]. rewrite <- app_assoc. apply Permutation_cons_app. reflexivity. }
      assert (AC1 : size (acc ++ [b]) = size acc + 1) by (rewrite size_app; reflexivity).
      destruct (IH (acc ++ [b]) (size acc + 1) w1 (size acc + (size ps + 1 + 1))) as (p & EP & HP); auto; [discriminate|rewrite size_cons; lia|].
      rewrite EP. exists p. split; [reflexivity|]. destruct p as [[bs|e] w'].
      * destruct HP as (new & -> & GT2 & O2 & CN & FN). exists (b :: new). split; [now rewrite <- app_assoc|].
        split; [apply (got_trans w w1 w' [size c] _ _ O GT); eapply got_incl; [|exact GT2]; rewrite <- app_assoc; apply incl_app_app; [apply incl_refl|apply incl_tl, incl_refl]|].
        split; [exact O2|]. split.
        -- cbn [map]. rewrite CN. f_equal. rewrite <- CT. apply content_same. apply GT2. apply in_or_app. left. apply in_or_app. right. now left.
        -- constructor; [|exact FN]. rewrite <- (size_content _ _ GB), CT. exact Fc.
      * destruct HP as (ME & T2 & O2 & S2 & C2 & Y2). split; [exact ME|]. pose proof GT as (A1 & A2 & A3 & A4 & A5 & A6). split; [eauto using stays_trans|]. split; [exact O2|].
        split; [eapply same_on_trans; [eapply same_on_incl; [|exact A2]; apply incl_appr, incl_refl|exact S2]|]. split; [lia|].
        pose proof (why_not_after ma w w1 w' [size c] _ _ O GT Y2) as Y. cbn [sum] in Y. rewrite N.add_0_r in Y. exact Y.
    + destruct M as (ME & T1 & O1 & S1 & Z1 & C1 & K1 & Y1). destruct (release_all_spec acc w1 L O1) as (w2 & -> & O2 & S2 & T2 & C2 & Z2). cbn [bind].
      eexists. split; [reflexivity|]. split; [exact ME|]. split; [eauto using stays_trans|]. split; [exact O2|].
      split; [eapply same_on_trans; [eapply same_on_incl; [|exact S1]; apply incl_appr, incl_refl|exact S2]|]. split; [lia|].
      cbn [sum] in Y1 |- *. rewrite N.add_0_r in Y1.
      destruct Y1 as [Y|[Y|(k & Y & YK)]]; [left; exact Y|right; left; lia|right; right; exists k; split; [lia|exact YK]].
Qed.

Lemma parse_none ma L ps : forall i w, owns w L ->
  exists r w', parse_comps ma 0 (indexed i 0 ps) [] w = Ret (r, w') /\ stays w w' /\ owns w' L /\ same_on w w' L /\ (y_calls w <= y_calls w')%nat /\
    (y_locked w = true -> y_calls w' = y_calls w) /\ match r with Ok bs => bs = [] | Err e => memory_error e end.
Proof.
  induction ps as [|c ps IH]; intros i w O; cbn [indexed parse_comps].
  - exists (Ok []), w. split; [reflexivity|]. split; [apply stays_refl|]. split; [exact O|]. split; [apply same_on_refl|]. split; [lia|]. auto.
  - destruct (N.eqb_spec (i + 1) 0); [lia|]. cbn [andb]. destruct (make_of_made ma c w _ O) as ([[b|e] w1] & -> & M); cbn [bind fst snd].
    + destruct M as (GT & O1 & OW & LN & CT). rewrite (@size_nil buf). cbn [N.ltb N.compare].
      destruct (release_spec w1 b L O1) as (w2 & -> & O2 & S2 & T2 & C2 & _). cbn [bind].
      destruct (IH (i + 1) w2 O2) as (r & w' & -> & T3 & O3 & S3 & C3 & K3 & R3). destruct GT as (A1 & A2 & A3 & A4 & A5 & A6).
      exists r, w'. split; [reflexivity|]. split; [eauto using stays_trans|]. split; [exact O3|]. split; [eauto using same_on_trans|]. split; [lia|].
      split; [congruence|exact R3].
    + destruct M as (ME & T1 & O1 & S1 & Z1 & C1 & K1 & Y1). cbn [release_all bind]. exists (Err e), w1. auto 10.
Qed.

Lemma splits_pieces d s ps : splits d s ps -> Forall (fun p => size p <= size s) ps.
Proof.
  induction 1 as [s H|p r ps H H' IH]; [repeat constructor; lia|]. rewrite !size_app. constructor; [lia|].
  eapply Forall_impl; [|exact IH]. cbn beta. intros x. lia.
Qed.
Lemma copied_kept ps : ps <> [] -> copied ps (kept ps).
Proof.
  intros H. unfold kept, copied. destruct (sv_empty (last ps [])) eqn:E.
  - left. apply sv_empty_spec in E. rewrite <- E. now apply app_removelast_last.
  - right. split; [|reflexivity]. intros X. rewrite X in E. discriminate.
Qed.
Lemma shape_path v bs : (bs = [] <-> b_len v = 0) -> size bs < 2 ^ 17 -> Forall (fun b => b_use b < 2 ^ 16) bs -> shape (mkObj KPath [] (v :: bs)).
Proof. intros A B C. split; [reflexivity|]. exists v, bs. auto. Qed.
Lemma size_map {A B} (f : A -> B) l : size (map f l) = size l. Proof. unfold size. now rewrite map_length. Qed.
Lemma size_kept ps : size (kept ps) <= size ps.
Proof.
  unfold kept. destruct (sv_empty (last ps [])); [|lia]. destruct (list_eq_dec (list_eq_dec N.eq_dec) ps []) as [->|NE]; [cbn; lia|].
  pose proof (size_removelast ps NE). lia.
Qed.

Lemma step_parse ma host_be w i j : wf w -> exists r, y_step ma host_be (ParsePath i j) w = Ret r /\ outcome_ok ma w (ParsePath i j) r.
Proof.
  intros W. cbn [y_step]. destruct (is_free w i) eqn:F; [|no_op W]. look_at W w j E HV SH G. pose proof (is_free_spec _ _ F) as (F1 & F2).
  destruct k; try no_op W; cbn in SH. destruct SH as (-> & b & -> & U). cbn [o_bufs] in G. apply Forall_inv in G.
  rewrite buf_text_spec by exact G. cbn [bind]. set (s := content (y_heap w) b) in *.
  assert (SK : sv_ok s) by (unfold sv_ok, s; rewrite size_content by exact G; exact U).
  assert (HV' : has (shown w) j (text_val s)) by exact HV.
  unfold path_of. change Delimiter with [47]. destruct (split3_spec (S (length s)) [47] s SK) as (ps & ES & SP); [discriminate|lia|].
  rewrite ES. cbn [bind fst snd]. change (N.of_nat (length ps)) with (size ps). pose proof (splits_nonempty _ _ _ SP) as NE.
  assert (PK : Forall sv_ok ps).
  { eapply Forall_impl; [|exact (splits_pieces _ _ _ SP)]. cbn beta. intros x. unfold sv_ok in *. lia. }
  destruct (N.lt_ge_cases (size ps) (2 ^ 16)) as [L|L].
  - rewrite u16_small by exact L. assert (P0 : 0 < size ps) by (destruct ps; [congruence|rewrite size_cons; lia]).
    destruct (N.eqb_spec (size ps) 0) as [Z0|_]; [lia|].
    pose proof (components_kept ps NE) as CK. pose proof (copied_kept ps NE) as CP. set (cs := match kept ps with [] => [[]] | l => l end) in *.
    set (m := 32 * size ps :: map size (kept ps)).
    assert (D : does (ParsePath i j) (shown w) m YDone (set (shown w) i (path_val cs))) by exact (do_parse _ i j s ps (kept ps) cs F2 HV' SP CP CK).
    pose proof (allocate_made ma (string_bytes * size ps) w _ (wf_owns w W)) as M. change string_bytes with 32 in *.
    destruct (allocate ma (32 * size ps) w) as [[v|e] w1] eqn:EA.
    + destruct M as (GT & O1 & OW & LN & _). pose proof GT as (A1 & A2 & A3 & A4 & A5 & A6).
      destruct (parse_loop ma (v :: all_bufs (y_vars w)) ps [] 0 w1 (size ps)) as (p & EP & HP); auto; [destruct A1 as (_ & -> & _); exact A3|].
      rewrite EP. cbn [bind]. destruct p as [[bs|e] w2]; cbn [fst snd].
      * destruct HP as (new & -> & GT2 & O2 & CN & FN). cbn [app] in *.
        assert (G2 : gave w w2 m (all_bufs (y_vars w))).
        { apply got_gave. change m with ([32 * size ps] ++ map size (kept ps)). eapply got_trans; [exact (wf_owns w W)|exact GT|].
          eapply got_incl; [|exact GT2]. now apply incl_tl, incl_refl. }
        assert (SN : size new = size (kept ps)) by (rewrite <- CN, size_map; reflexivity). pose proof (size_kept ps).
        destruct new as [|b0 new].
        -- eexists. split; [reflexivity|]. apply (got_ok ma w _ i m); [exact W|exact F|reflexivity|discriminate|exact G2| | |].
           ++ cbn [o_bufs app] in *. eapply owns_perm; [apply perm_swap|]. apply owns_null. apply owns_used; [exact O2|lia].
           ++ apply shape_path; [cbn [used b_len]; split; [discriminate|lia]|cbn; lia|repeat constructor].
           ++ intros _. cbn [map] in CN. unfold cs in D. rewrite <- CN in D. exact D.
        -- eexists. split; [reflexivity|]. apply (got_ok ma w _ i m); [exact W|exact F|reflexivity|discriminate|exact G2| | |].
           ++ cbn [o_bufs] in *. change ((used v (size (b0 :: new)) :: b0 :: new) ++ all_bufs (y_vars w)) with (used v (size (b0 :: new)) :: (b0 :: new) ++ all_bufs (y_vars w)).
              apply owns_used; [|lia]. eapply owns_perm; [|exact O2]. symmetry. apply Permutation_cons_app. reflexivity.
           ++ apply shape_path; [cbn [used b_len]; split; [discriminate|lia]|lia|exact FN].
           ++ intros _. unfold cs in D. rewrite <- CN in D. exact D.
      * destruct HP as (ME & T2 & O2 & S2 & C2 & Y2). destruct (release_spec w2 v _ O2) as (w3 & -> & O3 & S3 & T3 & C3 & _). cbn [bind].
        eexists. split; [reflexivity|]. eapply (lost_ok ma w _ m); [exact W|reflexivity|discriminate| |destruct ME as [-> | ->]; cbn; auto|intros _; exact D].
        split; [eauto using stays_trans|]. split; [exact O3|]. split.
        { eapply same_on_trans; [exact A2|]. eapply same_on_trans; [eapply same_on_incl; [|exact S2]; now apply incl_tl, incl_refl|exact S3]. }
        split; [exact (owns_same_size _ _ _ (wf_owns w W) O3)|]. split; [lia|]. split; [congruence|].
        pose proof (why_not_after ma w w1 w2 [32 * size ps] _ _ (wf_owns w W) GT Y2) as Y. unfold m. cbn [sum] in *. rewrite N.add_0_r in Y.
        destruct Y as [Y|[Y|(k & Y & YK)]]; [left; exact Y|right; left; exact Y|right; right; exists k; split; [lia|exact YK]].
    + destruct M as (ME & T1 & O1 & S1 & Z1 & C1 & K1 & Y1). cbn [sum] in Y1. rewrite N.add_0_r in Y1.
      destruct ps as [|c ps']; [congruence|]. cbn [indexed]. set (n := size (c :: ps')) in *.
      assert (LO : lost ma w w1 (sum m) (all_bufs (y_vars w))).
      { split; [exact T1|]. split; [exact O1|]. split; [exact S1|]. split; [exact Z1|]. split; [exact C1|]. split; [exact K1|].
        eapply why_not_le; [|exact Y1]. unfold m. cbn [sum]. lia. }
      destruct ((0 + 1 =? n) && sv_empty c).
      * cbn [bind]. eexists. split; [reflexivity|]. eapply (lost_ok ma w _ m); [exact W|reflexivity|discriminate|exact LO|destruct ME as [-> | ->]; cbn; auto|intros _; exact D].
      * assert (O1' : owns w1 (all_bufs (y_vars w1))) by (destruct T1 as (_ & _ & ->); exact O1).
        destruct (make_of_made ma c w1 _ O1) as ([[q|e'] w2] & -> & M2); cbn [bind fst snd].
        -- destruct M2 as (GT2 & O2 & _). destruct (release_spec w2 q _ O2) as (w3 & -> & O3 & S3 & T3 & C3 & _). cbn [bind].
           eexists. split; [reflexivity|]. eapply (lost_ok ma w _ m); [exact W|reflexivity|discriminate| |destruct ME as [-> | ->]; cbn; auto|intros _; exact D].
           destruct GT2 as (B1 & B2 & B3 & B4 & B5 & B6).
           split; [eauto using stays_trans|]. split; [exact O3|]. split; [eauto using same_on_trans|]. split; [exact (owns_same_size _ _ _ (wf_owns w W) O3)|].
           split; [lia|]. split; [destruct T1 as (_ & T1 & _); congruence|]. destruct LO as (_ & _ & _ & _ & _ & _ & Y).
           destruct Y as [Y|[Y|(k & Y & YK)]]; [left; exact Y|right; left; exact Y|right; right; exists k; split; [lia|exact YK]].
        -- destruct M2 as (ME2 & T2 & O2 & S2 & Z2 & C2 & K2 & Y2).
           eexists. split; [reflexivity|]. eapply (lost_ok ma w _ m); [exact W|reflexivity|discriminate| |destruct ME2 as [-> | ->]; cbn; auto|intros _; exact D].
           split; [eauto using stays_trans|]. split; [exact O2|]. split; [eauto using same_on_trans|]. split; [exact (owns_same_size _ _ _ (wf_owns w W) O2)|].
           split; [lia|]. split; [intros H; rewrite K2; [auto|destruct T1 as (_ & -> & _); exact H]|]. destruct LO as (_ & _ & _ & _ & _ & _ & Y).
           destruct Y as [Y|[Y|(k & Y & YK)]]; [left; exact Y|right; left; exact Y|right; right; exists k; split; [lia|exact YK]].
  - assert (PZ : size ps = 2 ^ 16) by (destruct (splits_many [47] s ps SK) as (_ & _ & PZ); [discriminate|exact SP|exact L|exact PZ]).
    rewrite PZ. change (u16 (2 ^ 16)) with 0. cbn [N.eqb].
    assert (NF : ~ fair (ParsePath i j) (shown w)) by (intros FR; specialize (FR s ps HV' SP); lia).
    destruct (parse_none ma (all_bufs (y_vars w)) ps 0 w (wf_owns w W)) as (r & w1 & -> & T1 & O1 & S1 & C1 & K1 & R1). cbn [bind fst snd].
    pose proof T1 as (U1 & U2 & U3). pose proof (owns_same_size _ _ _ (wf_owns w W) O1) as SZ.
    destruct r as [bs|e].
    + subst bs. eexists. split; [reflexivity|].
      split; [|split; [exact U1|split; [cbn; rewrite length_upd; congruence|split; [exact C1|split; [|split; [intros _ _; exact U2|intros FR; contradiction]]]]]].
      * apply wf_put; rewrite ?U3; [|apply W|intros x [= <-]; apply shape_path; [split; reflexivity|reflexivity|constructor]].
        eapply owns_perm; [|apply owns_null; exact O1]. exact (perm_free (y_vars w) i (Some (mkObj KPath [] [null_buf])) F1).
      * intros [H|H]; [|discriminate]. split; [auto|]. cbn. lia.
    + cbn [release bind null_buf b_own]. eexists. split; [reflexivity|].
      split; [split; rewrite U3; [exact O1|apply W]|]. split; [exact U1|]. split; [congruence|]. split; [exact C1|].
      split; [intros [H|H]; [split; [auto|lia]|discriminate]|]. split; [intros _ _; exact U2|]. intros FR. contradiction.
Qed.

(** ** Every operation *)
Lemma step_ok ma host_be o w : wf w -> typed o -> exists r, y_step ma host_be o w = Ret r /\ outcome_ok ma w o r.
Proof.
  intros W T. destruct o; cbn [typed] in T.
  - apply step_lock; auto. - apply step_lock; auto. - apply step_lock; auto. - apply step_lock; auto.
  - now apply step_text. - now apply step_literal. - now apply step_copy_text. - now apply step_concat. - now apply step_vector. - now apply step_vector_of.
  - now apply step_array_of. - now apply step_array. - now apply step_copy_bytes.
  - apply (step_pushpop ma host_be w _ i); eauto. - apply (step_pushpop ma host_be w _ i); auto.
  - now apply step_to_array. - now apply step_builder.
  - apply (step_append ma host_be w i); eauto. - apply (step_append ma host_be w i); eauto.
  - now apply step_build. - now apply step_digest. - now apply step_digest_of. - now apply step_digest_text. - now apply step_version. - now apply step_version_text.
  - now apply step_uuid. - now apply step_uuid_text. - now apply step_parse. - now apply step_path_text. - now apply step_move. - now apply step_assign. - now apply step_swap.
  - now apply step_drop. - now apply step_look.
Qed.
Lemma wf_start cap n : cap < 2 ^ 64 -> wf (y_start cap n).
Proof.
  intros C. assert (A : all_bufs (repeat None n) = []) by (induction n; [reflexivity|]; cbn; auto). split.
  - cbn [y_start y_vars]. rewrite A. split; cbn; try constructor; try lia. intros [|a] H; cbn in H; congruence.
  - cbn [y_start y_vars]. intros i o H. apply nth_get in H. apply nth_error_In, repeat_spec in H. discriminate.
Qed.
Lemma run_ok ma host_be os : forall w, wf w -> Forall typed os ->
  exists ans w', y_run ma host_be os w = Ret (ans, w') /\ wf w' /\ y_cap w' = y_cap w /\ length (y_vars w') = length (y_vars w).
Proof.
  induction os as [|o os IH]; intros w W F; [exists [], w; auto|]. inversion F as [|? ? T F']; subst.
  destruct (step_ok ma host_be o w W T) as ((a & w1) & E & W1 & C1 & L1 & _). destruct (IH w1 W1 F') as (ans & w2 & E2 & W2 & C2 & L2).
  exists (a :: ans), w2. cbn [y_run]. rewrite E. cbn [bind snd fst]. rewrite E2. cbn [bind snd fst]. repeat split; congruence || auto; apply W2.
Qed.
Lemma reachable_wf ma host_be cap n w : cap < 2 ^ 64 -> reachable ma host_be cap n w -> wf w /\ y_cap w = cap.
Proof.
  intros C (os & ans & F & E). destruct (run_ok ma host_be os _ (wf_start cap n C) F) as (ans' & w' & E' & W & K & _). rewrite E' in E. injection E as _ <-. auto.
Qed.
