From Coq Require Import Lia Permutation.
From Verif Require Import Base BaseLemmas MemViewProofs ByteIOModel ByteIOProofs MemoryModel MemoryProofs StringSpec StringModel StringViewModel
  StringViewProofs StringProofs FmtModel FmtSpec FmtProofs BuilderModel BuilderSpec BuilderProofs Base16Model Base16Spec HashModel HashProps
  UUIDModel UUIDSpec UUIDProofs VersionModel VersionSpec VersionProofs PathModel PathSpec PathProofs SystemModel SystemSpec.
Local Open Scope N_scope.

(** ** Memory and its holders *)
Definition good_buf (h : list (option (list N))) (b : buf) : Prop :=
  b_use b <= b_len b /\
  match b_at b with
  | PNull => b_len b = 0
  | PHeap a => b_own b = true /\ exists bs, get h a = Some bs /\ size bs = b_len b
  | PLit bs => b_own b = false /\ size bs = b_len b
  end.
Definition blocks (L : list buf) : list nat := flat_map buf_blocks L.
Record owns (w : world) (L : list buf) : Prop := mkOwns {
  ow_good : Forall (good_buf (y_heap w)) L;
  ow_nodup : NoDup (blocks L);
  ow_all : forall a, get (y_heap w) a <> None -> In a (blocks L);
  ow_size : y_size w = live_bytes (y_heap w);
  ow_cap : y_size w <= y_cap w < 2 ^ 64 }.
Definition same_on (w w' : world) (L : list buf) : Prop := forall b, In b L -> block (y_heap w') b = block (y_heap w) b.

Lemma same_on_refl w L : same_on w w L. Proof. intros b _. reflexivity. Qed.
Lemma same_on_trans w w1 w2 L : same_on w w1 L -> same_on w1 w2 L -> same_on w w2 L.
Proof. intros A B b H. now rewrite B, A. Qed.
Lemma same_on_incl w w' L L' : incl L' L -> same_on w w' L -> same_on w w' L'.
Proof. intros A B b H. apply B. now apply A. Qed.

Lemma owns_perm w L L' : Permutation L L' -> owns w L -> owns w L'.
Proof.
  intros P [A B C D E]. assert (PB : Permutation (blocks L) (blocks L')) by now apply Permutation_flat_map.
  split; auto.
  - now rewrite <- P.
  - eapply Permutation_NoDup; eauto.
  - intros a H. eapply Permutation_in; [exact PB|auto].
Qed.
Lemma owns_put w L i o : owns w L -> owns (put w i o) L.
Proof. intros [A B C D E]. split; auto. Qed.
Lemma owns_lock w L b : owns w L -> owns (set_lock w b) L.
Proof. intros [A B C D E]. split; auto. Qed.

Lemma size_block h b : good_buf h b -> size (block h b) = b_len b.
Proof. intros (_ & G). unfold block. destruct (b_at b); [now rewrite G|destruct G as (_ & bs & -> & H); exact H|apply G]. Qed.
Lemma size_content h b : good_buf h b -> size (content h b) = b_use b.
Proof. intros G. unfold content. rewrite size_ntake, size_block by assumption. destruct G as (G & _). lia. Qed.
Lemma buf_bytes_spec w b : good_buf (y_heap w) b -> buf_bytes w b = Ret (block (y_heap w) b).
Proof.
  intros G. pose proof (size_block _ _ G) as Z. unfold buf_bytes. destruct (N.eqb_spec (b_len b) 0) as [E|E].
  - rewrite E in Z. apply size_0_nil in Z. now rewrite Z.
  - destruct G as (_ & G). unfold block in *. destruct (b_at b) as [|a|bs]; [lia| |].
    + destruct G as (_ & bs & Ea & Hs). rewrite Ea. destruct (N.leb_spec (b_len b) (size bs)); [|lia]. now rewrite ntake_all by lia.
    + destruct (N.leb_spec (b_len b) (size bs)); [|lia]. now rewrite ntake_all by lia.
Qed.
Lemma buf_text_spec w b : good_buf (y_heap w) b -> buf_text w b = Ret (content (y_heap w) b).
Proof. intros G. unfold buf_text. rewrite buf_bytes_spec by assumption. cbn [bind]. unfold content. destruct G as (G & _). now rewrite N.min_r. Qed.
Lemma buf_texts_spec w bs : Forall (good_buf (y_heap w)) bs -> buf_texts w bs = Ret (map (content (y_heap w)) bs).
Proof. induction 1 as [|b bs G _ IH]; [reflexivity|]. cbn [buf_texts]. rewrite buf_text_spec, IH by assumption. reflexivity. Qed.

Lemma live_app h x : live_bytes (h ++ [Some x]) = live_bytes h + size x.
Proof. induction h as [|[y|] h IH]; cbn [app live_bytes]; lia. Qed.
Lemma live_upd h a bs x : get h a = Some bs ->
  live_bytes (upd h a x) + size bs = live_bytes h + match x with Some y => size y | None => 0 end.
Proof.
  revert a. induction h as [|[y|] h IH]; intros [|a]; cbn; try discriminate.
  - injection 1 as ->. destruct x; cbn [live_bytes]; lia.
  - intros H. apply IH in H. lia.
  - intros H. apply IH in H. lia.
Qed.
Lemma get_none_len {A} (h : list (option A)) a : (length h <= a)%nat -> get h a = None.
Proof. intros H. unfold get. now apply nth_overflow. Qed.
Lemma get_app_last {A} (h : list (option A)) x a : get (h ++ [x]) a = if Nat.eqb a (length h) then x else get h a.
Proof. apply get_app. Qed.

Lemma good_blocks h L : Forall (good_buf h) L -> forall a, In a (blocks L) -> get h a <> None.
Proof.
  intros F a I. unfold blocks in I. apply in_flat_map in I as (b & Ib & Ia). rewrite Forall_forall in F. apply F in Ib as (_ & G).
  unfold buf_blocks in Ia. destruct (b_at b); try contradiction. destruct Ia as [->|[]]. destruct G as (_ & bs & -> & _). discriminate.
Qed.
Lemma good_len w L b : owns w L -> In b L -> b_own b = true \/ b_len b = 0 -> b_len b <= y_size w.
Proof.
  intros O I W. pose proof (ow_good _ _ O) as F. rewrite Forall_forall in F. apply F in I as (_ & G).
  destruct (b_at b) as [|a|bs]; [lia| |destruct G; destruct W; [congruence|lia]].
  destruct G as (_ & bs & E & S1). rewrite (ow_size _ _ O). pose proof (live_upd _ _ _ (@None (list N)) E) as LU. cbn beta iota in LU. lia.
Qed.

Definition stays (w w' : world) : Prop := y_cap w' = y_cap w /\ y_locked w' = y_locked w /\ y_vars w' = y_vars w.
Definition got (w w' : world) (m : list N) (L : list buf) : Prop :=
  stays w w' /\ same_on w w' L /\ y_locked w = false /\ sum m <= left_over w /\ y_calls w' = (y_calls w + length m)%nat /\
  y_size w' = y_size w + sum m.
Definition why_not (ma : machine) (w w' : world) (n : N) : Prop :=
  y_locked w = true \/ left_over w < n \/ exists k, (y_calls w <= k < y_calls w')%nat /\ ma_ok ma k = false.
Definition lost (ma : machine) (w w' : world) (n : N) (L : list buf) : Prop :=
  stays w w' /\ owns w' L /\ same_on w w' L /\ y_size w' = y_size w /\ (y_calls w <= y_calls w')%nat /\
  (y_locked w = true -> y_calls w' = y_calls w) /\ why_not ma w w' n.
Definition memory_error (e : N) : Prop := e = E_PERM \/ e = E_NOMEM.
Definition made (ma : machine) (w : world) (L : list buf) (m : list N) (n : N) (t : list N) (p : result buf * world) : Prop :=
  match p with
  | (Ok b, w') => got w w' m L /\ owns w' (b :: L) /\ b_own b = true /\ b_len b = n /\ content (y_heap w') b = t
  | (Err e, w') => memory_error e /\ lost ma w w' (sum m) L
  end.

Lemma same_block_app h x L : Forall (good_buf h) L -> forall b, In b L -> block (h ++ [x]) b = block h b.
Proof.
  intros F b I. rewrite Forall_forall in F. apply F in I as (_ & G). unfold block. destruct (b_at b) as [|a|]; try reflexivity.
  destruct G as (_ & bs & E & _). rewrite get_app. pose proof (get_some _ _ _ E). destruct (Nat.eqb_spec a (length h)); [lia|reflexivity].
Qed.
Lemma good_app h x b : good_buf h b -> good_buf (h ++ [x]) b.
Proof.
  intros (U & G). split; [exact U|]. destruct (b_at b) as [|a|]; auto. destruct G as (O & bs & E & Z). split; [exact O|]. exists bs. split; [|exact Z].
  rewrite get_app. pose proof (get_some _ _ _ E). destruct (Nat.eqb_spec a (length h)); [lia|exact E].
Qed.
Lemma size_fresh ma k n : size (fresh ma k n) = n.
Proof. unfold size, fresh. rewrite map_length, seq_length. lia. Qed.
Lemma blocks_cons b L : blocks (b :: L) = buf_blocks b ++ blocks L. Proof. reflexivity. Qed.

Lemma allocate_made ma n w L : owns w L -> made ma w L [n] n [] (allocate ma n w).
Proof.
  intros O. pose proof (ow_cap _ _ O) as (C1 & C2). unfold allocate. rewrite sub64_le by lia.
  destruct (N.ltb_spec (y_cap w - y_size w) n) as [Q|Q].
  { split; [right; reflexivity|]. split; [repeat split|]. split; [exact O|]. split; [apply same_on_refl|]. split; [reflexivity|]. split; [lia|]. split; [reflexivity|].
    right. left. cbn [sum]. unfold left_over. lia. }
  destruct (y_locked w) eqn:EL.
  { split; [left; reflexivity|]. split; [repeat split|]. split; [exact O|]. split; [apply same_on_refl|]. split; [reflexivity|]. split; [lia|]. split; [reflexivity|].
    left. exact EL. }
  assert (U : u64 (y_size w + n) = y_size w + n) by (unfold u64; apply N.mod_small; lia).
  destruct (ma_ok ma (y_calls w)) eqn:EK.
  - rewrite U. assert (SB := same_block_app (y_heap w) (Some (fresh ma (y_calls w) n)) L (ow_good _ _ O)).
    split.
    { split; [repeat split; cbn; auto|]. split; [intros b I; cbn [y_heap]; now apply SB|]. split; [exact EL|].
      cbn [sum length y_calls y_size]. unfold left_over. repeat split; lia. }
    split; [|repeat split; apply ntake_0].
    destruct O as [A B C D E]. split; cbn [y_heap y_size y_cap].
    + constructor.
      * split; cbn; [lia|]. split; [reflexivity|]. exists (fresh ma (y_calls w) n). rewrite get_app, Nat.eqb_refl. split; [reflexivity|apply size_fresh].
      * eapply Forall_impl; [|exact A]. intros b. apply good_app.
    + rewrite blocks_cons. cbn [buf_blocks b_at app]. constructor; [|exact B].
      intros I. apply (good_blocks _ _ A) in I. apply I. apply get_none_len. lia.
    + intros a. rewrite get_app. rewrite blocks_cons. cbn [buf_blocks b_at app]. destruct (Nat.eqb_spec a (length (y_heap w))); [left; auto|].
      intros H. right. now apply C.
    + rewrite live_app, size_fresh. lia.
    + lia.
  - destruct (N.eqb_spec n 0) as [->|NZ].
    + rewrite U, N.add_0_r. split.
      { split; [repeat split; cbn; auto|]. split; [intros b I; reflexivity|]. split; [exact EL|].
        cbn [sum length y_calls y_size]. repeat split; lia. }
      split; [|repeat split].
      destruct O as [A B C D E]. split; cbn [y_heap y_size y_cap]; auto. constructor; [split; cbn; [lia|reflexivity]|exact A].
    + split; [right; reflexivity|]. split; [repeat split; cbn; auto|].
      split; [destruct O as [A B C D E]; split; auto|]. split; [intros b _; reflexivity|]. split; [reflexivity|]. cbn [y_calls]. split; [lia|].
      split; [congruence|]. right. right. exists (y_calls w). split; [cbn; lia|exact EK].
Qed.

(** ** Writing, giving back *)
Lemma nodup_other L b a : NoDup (a :: blocks L) -> In b L -> b_at b <> PHeap a.
Proof.
  intros ND I E. inversion ND as [|? ? NI _]; subst. apply NI. unfold blocks. apply in_flat_map. exists b. split; [exact I|].
  unfold buf_blocks. rewrite E. now left.
Qed.
Lemma block_upd h a x b : b_at b <> PHeap a -> block (upd h a x) b = block h b.
Proof. intros H. unfold block. destruct (b_at b) as [|a'|]; try reflexivity. rewrite get_upd_other; [reflexivity|congruence]. Qed.
Lemma good_upd h a x b : b_at b <> PHeap a -> good_buf h b -> good_buf (upd h a x) b.
Proof.
  intros H (U & G). split; [exact U|]. destruct (b_at b) as [|a'|]; auto. rewrite get_upd_other by congruence. exact G.
Qed.

Definition with_heap (w : world) (n : N) (h : list (option (list N))) : world := mkWorld (y_cap w) n (y_locked w) h (y_calls w) (y_vars w).

Lemma store_spec w b L bs : owns w (b :: L) -> size bs <= b_len b -> b_own b = true \/ b_len b = 0 ->
  exists w', store b bs w = Ret w' /\ owns w' (b :: L) /\ same_on w w' L /\ stays w w' /\ y_calls w' = y_calls w /\ y_size w' = y_size w /\
    block (y_heap w') b = overwrite (block (y_heap w) b) 0 bs.
Proof.
  intros O Z W. destruct bs as [|c bs].
  { exists w. split; [reflexivity|]. split; [exact O|]. split; [apply same_on_refl|]. split; [repeat split|]. split; [reflexivity|]. split; [reflexivity|].
    unfold overwrite. rewrite ntake_0, (@size_nil N), N.add_0_l, ndrop_0. reflexivity. }
  rewrite size_cons in Z. destruct O as [A B C D E]. inversion A as [|? ? G A']; subst. pose proof G as (U & G').
  cbn [store]. unfold block. rewrite blocks_cons in B, C. unfold buf_blocks in B, C.
  destruct (b_at b) as [|a|l] eqn:EA; [lia| |destruct G' as (Q & _); destruct W; [congruence|lia]].
  destruct G' as (OW & old & Eo & Zo). rewrite Eo. destruct (N.leb_spec (size (c :: bs)) (size old)) as [Q|Q]; [|rewrite size_cons in Q; lia].
  cbn [app] in B, C. assert (ND : forall b', In b' L -> b_at b' <> PHeap a) by (intros b' I; eapply nodup_other; eauto).
  eexists. split; [reflexivity|]. split; [|split; [|split; [repeat split|split; [reflexivity|split; [reflexivity|]]]]].
  - split; cbn [y_heap y_size y_cap].
    + constructor.
      * split; [exact U|]. rewrite EA. split; [exact OW|]. eexists. rewrite (get_upd_same _ _ _ _ Eo). split; [reflexivity|]. rewrite size_overwrite; lia.
      * rewrite Forall_forall in *. intros b' I. apply good_upd; [now apply ND|]. apply A'. exact I.
    + rewrite blocks_cons. unfold buf_blocks at 1. rewrite EA. exact B.
    + rewrite blocks_cons. unfold buf_blocks at 1. rewrite EA. intros a' H. apply C. destruct (Nat.eq_dec a a') as [->|NE]; [congruence|].
      now rewrite get_upd_other in H.
    + pose proof (live_upd _ _ _ (Some (overwrite old 0 (c :: bs))) Eo) as LU. cbn beta iota in LU. rewrite size_overwrite in LU by lia. lia.
    + lia.
  - intros b' I. cbn [y_heap]. apply block_upd. now apply ND.
  - cbn [y_heap]. now rewrite (get_upd_same _ _ _ _ Eo).
Qed.

Lemma release_spec w b L : owns w (b :: L) ->
  exists w', release b w = Ret w' /\ owns w' L /\ same_on w w' L /\ stays w w' /\ y_calls w' = y_calls w /\
    y_size w' = y_size w - (if b_own b then b_len b else 0) /\ (b_own b = true -> b_len b <= y_size w).
Proof.
  intros O. pose proof (fun W => good_len w _ b O (or_introl eq_refl) W) as GL. destruct O as [A B C D E]. inversion A as [|? ? G A']; subst. pose proof G as (U & G').
  unfold release. rewrite blocks_cons in B, C. unfold buf_blocks in B, C. destruct (b_own b) eqn:EO.
  - specialize (GL (or_introl eq_refl)). destruct (b_at b) as [|a|l] eqn:EA; [| |destruct G'; congruence].
    + eexists. split; [reflexivity|]. split; [split; auto; cbn [y_size y_heap y_cap]|].
      * rewrite G', sub64_le by lia. lia.
      * rewrite sub64_le by lia. lia.
      * split; [intros b' _; reflexivity|]. split; [repeat split|]. split; [reflexivity|]. cbn [y_size]. rewrite sub64_le by lia. auto.
    + destruct G' as (_ & old & Eo & Zo). rewrite Eo. cbn [app] in B, C.
      assert (ND : forall b', In b' L -> b_at b' <> PHeap a) by (intros b' I; eapply nodup_other; eauto).
      pose proof (live_upd _ _ _ (@None (list N)) Eo) as LU. cbn beta iota in LU.
      eexists. split; [reflexivity|]. split; [|split; [|split; [repeat split|split; [reflexivity|]]]].
      * split; cbn [y_heap y_size y_cap].
        -- rewrite Forall_forall in *. intros b' I. apply good_upd; [now apply ND|]. apply A'. exact I.
        -- now inversion B.
        -- intros a' H. destruct (Nat.eq_dec a a') as [->|NE]; [rewrite (get_upd_same _ _ _ _ Eo) in H; congruence|].
           rewrite get_upd_other in H by assumption. apply C in H. destruct H; [contradiction|assumption].
        -- rewrite sub64_le by lia. lia.
        -- rewrite sub64_le by lia. lia.
      * intros b' I. cbn [y_heap]. apply block_upd. now apply ND.
      * cbn [y_size]. rewrite sub64_le by lia. auto.
  - exists w. split; [reflexivity|]. split; [|split; [apply same_on_refl|split; [repeat split|split; [reflexivity|split; [lia|discriminate]]]]].
    split; auto.
    + destruct (b_at b); [exact B| |exact B]. destruct G'; congruence.
    + intros a H. apply C in H. destruct (b_at b); [exact H| |exact H]. destruct G'; congruence.
Qed.
Lemma release_all_spec bs : forall w L, owns w (bs ++ L) ->
  exists w', release_all bs w = Ret w' /\ owns w' L /\ same_on w w' L /\ stays w w' /\ y_calls w' = y_calls w /\ y_size w' <= y_size w.
Proof.
  induction bs as [|b bs IH]; intros w L O.
  - exists w. split; [reflexivity|]. split; [exact O|]. split; [apply same_on_refl|]. split; [repeat split|]. split; [reflexivity|lia].
  - cbn [app] in O. destruct (release_spec _ _ _ O) as (w1 & E1 & O1 & S1 & (T1 & T2 & T3) & C1 & Z1 & _).
    destruct (IH _ _ O1) as (w2 & E2 & O2 & S2 & (T4 & T5 & T6) & C2 & Z2).
    exists w2. cbn [release_all]. rewrite E1. cbn [bind]. split; [exact E2|]. split; [exact O2|].
    split; [eapply same_on_trans; [eapply same_on_incl; [|exact S1]; apply incl_appr, incl_refl|exact S2]|].
    split; [repeat split; congruence|]. split; [congruence|]. lia.
Qed.

Lemma owns_used w b n L : owns w (b :: L) -> n <= b_len b -> owns w (used b n :: L).
Proof.
  intros [A B C D E] H. inversion A as [|? ? (U & G) A']; subst. split; auto. constructor; [|exact A']. split; [exact H|exact G].
Qed.
Lemma content_used h b n : content h (used b n) = ntake n (block h b). Proof. reflexivity. Qed.

Lemma got_store w w1 w2 m L : got w w1 m L -> same_on w1 w2 L -> stays w1 w2 -> y_calls w2 = y_calls w1 -> y_size w2 = y_size w1 -> got w w2 m L.
Proof.
  intros ((A1 & A2 & A3) & B & C & D & E & F) S1 (T1 & T2 & T3) C1 Z1. split; [repeat split; congruence|]. split; [eapply same_on_trans; eauto|].
  repeat split; congruence.
Qed.

Lemma make_of_made ma bs w L : owns w L -> exists p, make_of ma bs w = Ret p /\ made ma w L [size bs] (size bs) bs p.
Proof.
  intros O. unfold make_of. pose proof (allocate_made ma (size bs) w L O) as M. destruct (allocate ma (size bs) w) as [[b|e] w1]; [|eauto].
  destruct M as (G & O1 & W & Z & CT). destruct (store_spec w1 b L bs O1) as (w2 & E2 & O2 & S2 & T2 & C2 & Z2 & B2); [lia|auto|].
  rewrite E2. cbn [bind]. eexists. split; [reflexivity|]. split; [eapply got_store; eauto|]. split; [apply owns_used; [exact O2|lia]|].
  split; [exact W|]. split; [exact Z|]. rewrite content_used, B2. pose proof (Forall_inv (ow_good _ _ O1)) as G1. pose proof (size_block _ _ G1) as SB.
  unfold overwrite. rewrite ntake_0. cbn [app]. rewrite ntake_app, N.sub_diag, ntake_0, app_nil_r. apply ntake_all. lia.
Qed.
(** Memory filled by a function of what was found in it. *)
Lemma fill_made ma n w L b w1 s : owns w L -> allocate ma n w = (Ok b, w1) -> size (st_buf s) = n -> st_size s <= n ->
  exists w2, store b (st_buf s) w1 = Ret w2 /\ made ma w L [n] n (str_view s) (Ok (used b (st_size s)), w2).
Proof.
  intros O EA ZB ZS. pose proof (allocate_made ma n w L O) as M. rewrite EA in M.
  destruct M as (G & O1 & W & Z & CT). destruct (store_spec w1 b L (st_buf s) O1) as (w2 & E2 & O2 & S2 & T2 & C2 & Z2 & B2); [lia|auto|].
  exists w2. split; [exact E2|]. split; [eapply got_store; eauto|]. split; [apply owns_used; [exact O2|lia]|].
  split; [exact W|]. split; [exact Z|]. rewrite content_used, B2. pose proof (Forall_inv (ow_good _ _ O1)) as G1. pose proof (size_block _ _ G1) as SB.
  unfold str_view. rewrite N.min_r by lia. f_equal. apply overwrite_all. lia.
Qed.
