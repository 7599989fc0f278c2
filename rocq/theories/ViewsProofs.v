From Verif Require Import Base BaseLemmas MemViewModel MemViewSpec MemViewProofs StringViewModel StringViewProofs EnvModel ViewsModel ViewsSpec.

Definition vinv (w : vworld) : Prop :=
  N.of_nat (length (vw_mem w)) < 2 ^ 64 /\
  forall i k v, vw_vars w i = Some (k, v) -> valid (vw_mem w) v /\ (k = Tx -> v_size v < 2 ^ 16).

Lemma vset_same f i x : vset f i x i = x.
Proof. unfold vset. now rewrite Nat.eqb_refl. Qed.
Lemma vset_other f i x k : k <> i -> vset f i x k = f k.
Proof. intros H. unfold vset. now rewrite (proj2 (Nat.eqb_neq k i)). Qed.

Lemma put_at_nil mem p : put_at mem p [] = mem.
Proof. unfold put_at. cbn. rewrite Nat.add_0_r. apply firstn_skipn. Qed.
Lemma put_at_overwrite mem p bs : overwrite mem p bs = put_at mem p bs.
Proof. unfold overwrite, put_at. rewrite ntake_firstn, ndrop_skipn. do 3 f_equal. unfold size. lia. Qed.
Lemma length_put_at mem p bs : p + size bs <= size mem -> length (put_at mem p bs) = length mem.
Proof.
  intros H. pose proof (size_overwrite mem bs p H) as E. rewrite put_at_overwrite in E. unfold size in E. lia.
Qed.
Lemma valid_put_at mem p bs v : p + size bs <= size mem -> valid mem v -> valid (put_at mem p bs) v.
Proof.
  intros H V. unfold valid, size in *. rewrite length_put_at by assumption. exact V.
Qed.

Local Arguments put_at : simpl never.
Local Arguments contents : simpl never.
Local Arguments valid : simpl never.
Local Arguments range : simpl never.
Local Arguments view_ctor : simpl never.
Local Arguments fits : simpl never.
Definition startv (v : view) : N := match v_addr v with Some a => a | None => 0 end.

Lemma store_put mem v off bs : valid mem v -> off + size bs <= v_size v ->
  store mem (ptr_add (v_addr v) off) bs = Ret (put_at mem (startv v + off) bs) /\
  (bs = [] \/ startv v + off + size bs <= size mem).
Proof.
  intros V H. unfold store, startv, ptr_add, valid in *.
  destruct (N.eqb_spec (size bs) 0) as [E|E].
  - apply size_0_nil in E as ->. rewrite put_at_nil. auto.
  - destruct (v_addr v) as [a|]; cbn.
    + rewrite (proj2 (N.leb_le _ _)) by lia. rewrite put_at_overwrite. split; [reflexivity|right; lia].
    + lia.
Qed.
Lemma ptr_add_0 p : ptr_add p 0 = p.
Proof. destruct p; cbn; [|reflexivity]. now rewrite N.add_0_r. Qed.
Lemma store_put0 mem v bs : valid mem v -> size bs <= v_size v ->
  store mem (v_addr v) bs = Ret (put_at mem (startv v) bs) /\
  (bs = [] \/ startv v + size bs <= size mem).
Proof.
  intros V H. pose proof (store_put mem v 0 bs V ltac:(lia)) as E.
  now rewrite ptr_add_0, N.add_0_r in E.
Qed.

Lemma checked_ok mem v : valid mem v -> checked v = Ret v.
Proof.
  unfold valid, checked, view_ctor. destruct v as [[a|] n]; cbn; intros H; [reflexivity|]. now subst.
Qed.
Lemma ctor_ok mem v : valid mem v -> view_ctor (v_addr v) (v_size v) = Ret v.
Proof.
  unfold valid, view_ctor. destruct v as [[a|] n]; cbn; intros H; [reflexivity|]. now subst.
Qed.

Section Look.
Variables (w : vworld) (I : vinv w).
Lemma look i k v : vw_vars w i = Some (k, v) ->
  shown w i = contents (vw_mem w) v /\ start w i = startv v /\ count w i = v_size v /\
  null w i = match v_addr v with Some _ => false | None => true end /\ kind_of w i = Some k /\
  valid (vw_mem w) v.
Proof.
  intros E. destruct I as [_ V]. destruct (V _ _ _ E) as [V1 _].
  unfold shown, start, null, count, kind_of, startv, shown. rewrite E. cbn.
  repeat split; auto. apply size_contents, V1.
Qed.
Lemma rw_var i : is_mview w i -> exists v, vw_vars w i = Some (Rw, v).
Proof. unfold is_mview, kind_of. destruct (vw_vars w i) as [[k v]|]; cbn; [|easy]. intros H; injection H as ->. eauto. Qed.
Lemma view_var i : is_view w i -> exists k v, vw_vars w i = Some (k, v) /\ fits Ro k = true /\ k <> Tx.
Proof.
  unfold is_view, kind_of. destruct (vw_vars w i) as [[k v]|]; cbn; [|intros [H|H]; easy].
  intros [H|H]; injection H as ->; do 2 eexists; repeat split; easy.
Qed.
Lemma text_var i : is_text w i -> exists v, vw_vars w i = Some (Tx, v).
Proof. unfold is_text, kind_of. destruct (vw_vars w i) as [[k v]|]; cbn; [|easy]. intros H; injection H as ->. eauto. Qed.
Lemma usable_var k i : usable w k i -> exists k' v, vw_vars w i = Some (k', v) /\ fits k k' = true /\ fits Tx k' = fits Tx k.
Proof.
  destruct k; cbn; intros H.
  - destruct (view_var i H) as (k & v & E & F & T). exists k, v. repeat split; auto. now destruct k.
  - destruct (rw_var i H) as (v & E). now exists Rw, v.
  - destruct (text_var i H) as (v & E). now exists Tx, v.
Qed.
Lemma old_var i : ~ is_new w i -> exists k v, vw_vars w i = Some (k, v).
Proof. unfold is_new. destruct (vw_vars w i) as [[k v]|]; [eauto|now intros []]. Qed.

(** A state in which one variable is new, or another. *)
Lemma vinv_set i k v : valid (vw_mem w) v -> (k = Tx -> v_size v < 2 ^ 16) ->
  vinv (mkVW (vw_mem w) (vset (vw_vars w) i (Some (k, v)))).
Proof.
  intros V T. destruct I as [B H]. split; [exact B|]. cbn. intros j k' v'. unfold vset.
  destruct (Nat.eqb j i); [|apply H]. intros E; injection E as <- <-. auto.
Qed.
Lemma vinv_mem p bs : (bs = [] \/ p + size bs <= size (vw_mem w)) -> vinv (mkVW (put_at (vw_mem w) p bs) (vw_vars w)).
Proof.
  intros [->|H].
  - rewrite put_at_nil. now destruct w.
  - destruct I as [B V]. split; cbn.
    + now rewrite length_put_at.
    + intros i k v E. destruct (V _ _ _ E). split; auto using valid_put_at.
Qed.
End Look.

Lemma valid_none mem : valid mem no_view.
Proof. reflexivity. Qed.

Lemma cstring_ok l n : nth_error l n = Some 0 -> cstring l = Ret (before_nul l).
Proof.
  revert n; induction l as [|c t IH]; intros [|n] H; cbn in *; try easy.
  - injection H as ->. reflexivity.
  - destruct (c =? 0); [reflexivity|]. now rewrite (IH n).
Qed.
Lemma before_nul_prefix l : exists r, l = before_nul l ++ r.
Proof.
  induction l as [|c t [r IH]]; cbn; [now exists []|]. destruct (c =? 0).
  - now exists (c :: t).
  - exists r. cbn. now rewrite <- IH.
Qed.

Lemma u16_lt n : u16 n < 2 ^ 16.
Proof. unfold u16. apply N.mod_lt. easy. Qed.
Lemma u16_le n : u16 n <= n.
Proof. unfold u16. apply N.mod_le. easy. Qed.
Lemma u16_id n : n < 2 ^ 16 -> u16 n = n.
Proof. intros. unfold u16. now apply N.mod_small. Qed.

(** Slices. *)
Lemma kind_slice_ok mem k v from to : valid mem v -> (k = Tx -> v_size v < 2 ^ 16) ->
  exists v', kind_slice k v from to = Ret v' /\ valid mem v' /\ (k = Tx -> v_size v' < 2 ^ 16) /\
    ((k = Tx -> from < 2 ^ 16 /\ to < 2 ^ 16) -> contents mem v' = range from to (contents mem v)).
Proof.
  intros V T. destruct k; cbn.
  - eexists. rewrite (checked_ok mem) by now apply slice_valid. split; [reflexivity|].
    split; [now apply slice_valid|]. split; [easy|]. intros _. now apply slice_contents.
  - eexists. rewrite (checked_ok mem) by now apply mslice_valid. split; [reflexivity|].
    split; [now apply mslice_valid|]. split; [easy|]. intros _. now apply mslice_contents.
  - eexists. split; [reflexivity|]. split; [now apply slice_valid|]. split.
    + intros _. cbn [view_slice v_size]. specialize (T eq_refl). lia.
    + intros S. destruct (S eq_refl). rewrite !u16_id by assumption. now apply slice_contents.
Qed.

Lemma eq_loop_spec a : forall b, length a = length b -> sv_eq_loop a b = list_eqb a b.
Proof.
  induction a as [|x a IH]; intros [|y b] H; cbn in *; try easy.
  destruct (x =? y); cbn; [apply IH; lia|reflexivity].
Qed.

Lemma kind_equals_spec k mem v v' : valid mem v -> valid mem v' ->
  exists b, kind_equals k mem v v' = Ret b /\ (b = true <-> contents mem v = contents mem v').
Proof.
  intros V V'. destruct k; cbn; try now apply equals_iff.
  destruct (N.eqb_spec (v_size v) (v_size v')) as [E|E]; cbn [negb].
  - rewrite !load_valid_all by assumption. cbn. eexists. split; [reflexivity|].
    rewrite eq_loop_spec; [apply list_eqb_eq|].
    pose proof (size_contents mem v V). pose proof (size_contents mem v' V'). unfold size in *. lia.
  - eexists; split; [reflexivity|]. split; [easy|]. intros C. exfalso. apply E.
    now rewrite <- (size_contents mem v V), <- (size_contents mem v' V'), C.
Qed.

(** What one fair operation does. *)
Definition step_good (w : vworld) (o : vop) (a : vans) (w' : vworld) : Prop :=
  v_step o w = Ret (a, w') /\ vinv w' /\
  vw_mem w' = put_at (vw_mem w) (fst (puts w o)) (snd (puts w o)) /\
  says w o a /\
  (forall k, ~ touches o k -> vw_vars w' k = vw_vars w k) /\
  (forall k, ~ is_new w k -> kind_of w' k = kind_of w k) /\
  (small w o -> match makes w o with
                | Some (i, k, bs) => a = VDone /\ kind_of w' i = Some k /\ shown w' i = bs
                | None => True
                end).

Lemma good_make w o i k v : vinv w -> vw_vars w i = None ->
  v_step o w = Ret (VDone, mkVW (vw_mem w) (vset (vw_vars w) i (Some (k, v)))) ->
  valid (vw_mem w) v -> (k = Tx -> v_size v < 2 ^ 16) ->
  puts w o = (0, []) -> says w o VDone -> (forall x, x = i -> touches o x) ->
  (small w o -> match makes w o with
                | Some (i', k', bs) => i' = i /\ k' = k /\ contents (vw_mem w) v = bs
                | None => True
                end) ->
  exists a w', step_good w o a w'.
Proof.
  intros I N E V T P S H M. eexists; eexists. unfold step_good.
  split; [exact E|]. split; [now apply vinv_set|]. split; [cbn; rewrite P; cbn; now rewrite put_at_nil|].
  split; [exact S|]. split.
  { intros x Hx. cbn. apply vset_other. intros ->. now apply Hx, H. }
  split.
  { intros x Hx. unfold kind_of. cbn. rewrite vset_other; [reflexivity|]. intros ->. now apply Hx. }
  intros Sm. specialize (M Sm). destruct (makes w o) as [[[i' k'] bs]|]; [|exact Logic.I].
  destruct M as (-> & -> & <-). split; [reflexivity|]. unfold kind_of, shown. cbn. now rewrite vset_same.
Qed.

Lemma good_keep w o a : vinv w -> v_step o w = Ret (a, w) -> puts w o = (0, []) -> says w o a ->
  makes w o = None -> exists a w', step_good w o a w'.
Proof.
  intros I E P S M. exists a, w. unfold step_good. rewrite P, M. cbn. rewrite put_at_nil.
  split; [exact E|]. split; [exact I|]. repeat split; auto.
Qed.

Lemma good_change w o a p bs : vinv w ->
  v_step o w = Ret (a, mkVW (put_at (vw_mem w) p bs) (vw_vars w)) ->
  (bs = [] \/ p + size bs <= size (vw_mem w)) ->
  puts w o = (p, bs) -> says w o a -> makes w o = None -> exists a w', step_good w o a w'.
Proof.
  intros I E B P S M. exists a. eexists. unfold step_good. rewrite P, M. split; [exact E|].
  split; [now apply vinv_mem|]. cbn. repeat split; auto.
Qed.

Lemma data_as_spec w v off tsz : valid (vw_mem w) v ->
  match off with Some o => o + tsz < 2 ^ 64 | None => True end ->
  let o := match off with Some o => o | None => 0 end in
  data_as (vw_mem w) v off tsz =
    if o + tsz <=? v_size v then Ret (range o (o + tsz) (contents (vw_mem w) v)) else Throws AssertFailed.
Proof.
  intros V B. destruct off as [off|]; cbn.
  - now apply dataAs_at_spec.
  - rewrite dataAs_spec by assumption. destruct (tsz <=? v_size v); [|reflexivity].
    f_equal. rewrite range_spec, N.sub_0_r, ndrop_0, ntake_firstn. reflexivity.
Qed.

Lemma index_nth mem v n : valid mem v ->
  view_index mem v n = match nth_error (contents mem v) (N.to_nat n) with Some b => Ret b | None => Throws IndexOutOfRange end.
Proof. intros V. rewrite index_spec by assumption. now rewrite nnth_nth_error. Qed.

Lemma shown_length w i k v : vinv w -> vw_vars w i = Some (k, v) -> length (shown w i) = N.to_nat (v_size v).
Proof. intros I E. destruct (look w I i k v E) as (_ & _ & C & _). unfold count in C. lia. Qed.

Lemma step_spec w o : vinv w -> fair w o -> exists a w', step_good w o a w'.
Proof.
  intros I (T & Ho & U). pose proof I as [B V].
  destruct o; cbn [typed honest unwrapped] in T, Ho, U.
  - (* VNew *) eapply good_make with (v := no_view); cbn; try rewrite T; cbn; eauto; try easy; auto.
  - (* VWrap *)
    destruct p as [a|].
    + apply (good_make w _ i k (mkView (Some a) (match k with Tx => u16 n | _ => n end))); cbn; auto.
      * rewrite T. now destruct k.
      * unfold valid. cbn. unfold size. destruct k; auto. pose proof (u16_le n). lia.
      * intros ->. cbn. apply u16_lt.
      * intros S. repeat split. rewrite contents_alt, range_spec. cbn. replace (a + n - a) with n by lia.
        destruct k; auto. now rewrite u16_id.
    + assert (Z : forall m, view_ctor None m = if m =? 0 then Ret no_view else Throws AssertFailed) by reflexivity.
      destruct (N.eqb_spec n 0) as [->|Hn].
      * apply (good_make w _ i k no_view); cbn; auto; try easy. rewrite T. now destruct k.
      * destruct (N.eqb_spec (match k with Tx => u16 n | _ => n end) 0) as [E|E].
        -- apply (good_make w _ i k no_view); cbn; auto; try easy.
           ++ rewrite T. destruct k; try lia. cbn. now rewrite Z, E.
           ++ now rewrite (proj2 (N.eqb_neq n 0)).
        -- apply (good_keep w _ (VRaised AssertFailed)); cbn; auto.
           ++ rewrite T. destruct k; cbn; rewrite Z, (proj2 (N.eqb_neq _ 0)); auto.
           ++ now rewrite (proj2 (N.eqb_neq n 0)).
  - (* VCopy *) destruct T as [T Us]. destruct (usable_var w k j Us) as (k' & v & E & F & X).
    destruct (V _ _ _ E) as [V1 V2].
    apply (good_make w _ i k v); cbn; auto.
    + now rewrite E, F, T.
    + intros ->. cbn in X. destruct k'; auto; easy.
    + intros _. repeat split. unfold shown. now rewrite E.
  - (* VMove *) destruct T as [T Us]. destruct (usable_var w k j Us) as (k' & v & E & F & X).
    destruct (V _ _ _ E) as [V1 V2].
    assert (Hij : i <> j) by congruence.
    assert (E' : vw_vars (mkVW (vw_mem w) (vset (vw_vars w) j (Some (k', if fits Tx k' then v else no_view)))) i = None)
      by (cbn; rewrite vset_other; auto).
    assert (I1 : vinv (mkVW (vw_mem w) (vset (vw_vars w) j (Some (k', if fits Tx k' then v else no_view))))).
    { apply vinv_set; auto; destruct k'; cbn; auto; try easy. }
    do 2 eexists. unfold step_good. split; [cbn; rewrite E, F; cbn; rewrite T; reflexivity|].
    split; [apply (vinv_set _ I1); cbn; auto; intros ->; cbn in X; destruct k'; easy || auto|].
    split; [cbn; now rewrite put_at_nil|]. split; [exact Logic.I|]. split.
    { intros x Hx. cbn in *. rewrite !vset_other; auto. }
    split.
    { intros x Hx. unfold kind_of. cbn. unfold vset. destruct (Nat.eqb_spec x i) as [->|]; [now destruct Hx|].
      destruct (Nat.eqb_spec x j) as [->|]; [|reflexivity]. now rewrite E. }
    intros _. cbn. split; [reflexivity|]. unfold kind_of, shown. cbn. rewrite vset_same, E. auto.
  - (* VMutable *) destruct T as [T Us]. destruct (view_var w j Us) as (k' & v & E & F & X).
    destruct (V _ _ _ E) as [V1 V2].
    apply (good_make w _ i Rw v); cbn; auto; try easy.
    + rewrite E, F, T. now rewrite (ctor_ok (vw_mem w)).
    + intros _. repeat split. unfold shown. now rewrite E.
  - (* VAssign *) destruct T as (k & K & Us). destruct (usable_var w k j Us) as (k' & v & E & F & X).
    destruct (V _ _ _ E) as [V1 V2]. unfold kind_of in K. destruct (vw_vars w i) as [[ki vi]|] eqn:Ei; [|easy].
    injection K as ->.
    do 2 eexists. unfold step_good. split; [cbn; rewrite Ei, E, F; reflexivity|].
    split; [apply vinv_set; auto; intros ->; cbn in X; destruct k'; easy || auto|].
    split; [cbn; now rewrite put_at_nil|]. split; [exact Logic.I|]. split.
    { intros x Hx. cbn in *. now rewrite vset_other. }
    split; [|easy]. intros x Hx. unfold kind_of. cbn. unfold vset. destruct (Nat.eqb_spec x i) as [->|]; [|reflexivity]. now rewrite Ei.
  - (* VMoveAssign *) destruct T as (k & K & Us). destruct (usable_var w k j Us) as (k' & v & E & F & X).
    destruct (V _ _ _ E) as [V1 V2]. unfold kind_of in K. destruct (vw_vars w i) as [[ki vi]|] eqn:Ei; [|easy].
    injection K as ->. destruct (V _ _ _ Ei) as [Vi1 Vi2].
    destruct (fits Tx k') eqn:FT.
    + do 2 eexists. unfold step_good. split; [cbn; rewrite Ei, E, F; cbn; cbn in FT; rewrite FT; reflexivity|].
      split; [apply vinv_set; auto; intros ->; destruct k'; easy || auto|].
      split; [cbn; now rewrite put_at_nil|]. split; [exact Logic.I|]. split.
      { intros x Hx. cbn in *. rewrite vset_other; auto. }
      split; [|easy]. intros x Hx. unfold kind_of. cbn. unfold vset. destruct (Nat.eqb_spec x i) as [->|]; [|reflexivity]. now rewrite Ei.
    + assert (I1 : vinv (mkVW (vw_mem w) (vset (vw_vars w) i (Some (k, v))))).
      { apply vinv_set; auto. intros ->. cbn in X. destruct k'; easy. }
      do 2 eexists. unfold step_good. split; [cbn; rewrite Ei, E, F; cbn; cbn in FT; rewrite FT; reflexivity|].
      split; [apply (vinv_set _ I1); cbn; auto; intros ->; easy|].
      split; [cbn; now rewrite put_at_nil|]. split; [exact Logic.I|]. split.
      { intros x Hx. cbn in *. rewrite !vset_other; auto. }
      split; [|easy]. intros x Hx. unfold kind_of. cbn. unfold vset.
      destruct (Nat.eqb_spec x j) as [->|]; [now rewrite E|]. destruct (Nat.eqb_spec x i) as [->|]; [|reflexivity]. now rewrite Ei.
  - (* VSwap *)
    assert (H : exists ki vi kj vj, vw_vars w i = Some (ki, vi) /\ vw_vars w j = Some (kj, vj) /\ fits Tx ki = fits Tx kj).
    { destruct T as [[T1 T2]|[T1 T2]].
      - destruct (text_var w i T1) as (v & E), (text_var w j T2) as (v' & E'). now exists Tx, v, Tx, v'.
      - destruct (view_var w i T1) as (k & v & E & F & X), (view_var w j T2) as (k' & v' & E' & F' & X').
        exists k, v, k', v'. repeat split; auto. now destruct k, k'. }
    destruct H as (ki & vi & kj & vj & Ei & Ej & F).
    destruct (V _ _ _ Ei) as [Vi1 Vi2]. destruct (V _ _ _ Ej) as [Vj1 Vj2].
    assert (I1 : vinv (mkVW (vw_mem w) (vset (vw_vars w) i (Some (ki, vj))))).
    { apply vinv_set; auto. intros ->. cbn in F. destruct kj; easy || auto. }
    do 2 eexists. unfold step_good. split.
    { cbn. rewrite Ei, Ej. cbn in F. rewrite F, Bool.eqb_reflx. reflexivity. }
    split; [apply (vinv_set _ I1); cbn; auto; intros ->; destruct ki; easy || auto|].
    split; [cbn; now rewrite put_at_nil|]. split; [exact Logic.I|]. split.
    { intros x Hx. cbn in *. rewrite !vset_other; auto. }
    split; [|easy]. intros x Hx. unfold kind_of. cbn. unfold vset.
    destruct (Nat.eqb_spec x j) as [->|]; [now rewrite Ej|]. destruct (Nat.eqb_spec x i) as [->|]; [|reflexivity]. now rewrite Ei.
  - (* VSlice *) destruct T as [T Us]. destruct (usable_var w k j Us) as (k' & v & E & F & X).
    destruct (V _ _ _ E) as [V1 V2].
    assert (Vt : k = Tx -> v_size v < 2 ^ 16) by (intros ->; cbn in X; destruct k'; easy || auto).
    destruct (kind_slice_ok (vw_mem w) k v from to V1 Vt) as (v' & Es & Vv & Tv & Cv).
    apply (good_make w _ i k v'); cbn; auto.
    + rewrite E, F, T. now rewrite Es.
    + intros S. repeat split. unfold shown. rewrite E. apply Cv. intros ->. exact S.
  - (* VSliceFor *) destruct T as (T & Us & Nt). destruct (usable_var w k j Us) as (k' & v & E & F & X).
    destruct (V _ _ _ E) as [V1 V2].
    destruct (kind_slice_ok (vw_mem w) k v (u64 (off * tsz)) (u64 (u64 (off + cnt) * tsz)) V1 ltac:(easy)) as (v' & Es & Vv & Tv & Cv).
    apply (good_make w _ i k v'); cbn; auto.
    + rewrite E, F, T. cbn. replace (fits Ro k) with true by now destruct k.
      unfold kind_sliceFor. now rewrite Es.
    + intros S. repeat split. unfold shown. rewrite E. rewrite Cv by easy.
      f_equal.
      * unfold u64. apply N.mod_small. nia.
      * unfold u64. destruct (N.eq_dec tsz 0) as [->|Hz]; [now rewrite !N.mul_0_r|].
        rewrite (N.mod_small (off + cnt)) by nia. apply N.mod_small. exact S.
  - (* VFill *) destruct (rw_var w i T) as (v & E). destruct (look w I i _ v E) as (Sh & St & C & Nu & K & V1).
    pose proof (store_put0 (vw_mem w) v (repeat b (N.to_nat (v_size v))) V1) as SP.
    destruct SP as [SP SB]; [unfold size; rewrite repeat_length; lia|].
    apply (good_change w _ VDone (startv v) (repeat b (N.to_nat (v_size v)))); cbn; auto.
    + rewrite E. unfold mview_fill. now rewrite SP.
    + rewrite St, (shown_length w i Rw v I E). reflexivity.
  - (* VFillRange *) destruct (rw_var w i T) as (v & E). destruct (look w I i _ v E) as (Sh & St & C & Nu & K & V1).
    destruct (N.leb_spec (count w i) from) as [L|L].
    + assert (Z : mview_fill_range (vw_mem w) v b from to = Ret (vw_mem w)).
      { unfold mview_fill_range, mview_fill, mview_slice. destruct (N.eqb_spec from to); cbn [v_size v_addr]; [reflexivity|].
        replace (_ - N.min from (v_size v)) with 0 by lia. reflexivity. }
      apply (good_change w _ VDone 0 []); cbn; auto.
      * rewrite E. rewrite Z. cbn. now rewrite put_at_nil.
      * now rewrite (proj2 (N.leb_le _ _) L).
    + set (m := N.min to (count w i) - from).
      pose proof (store_put (vw_mem w) v from (repeat b (N.to_nat m)) V1) as SP.
      destruct SP as [SP SB]; [unfold size; rewrite repeat_length; lia|].
      assert (Z : mview_fill_range (vw_mem w) v b from to = Ret (put_at (vw_mem w) (startv v + from) (repeat b (N.to_nat m)))).
      { unfold mview_fill_range, mview_fill, mview_slice. destruct (N.eqb_spec from to) as [->|Hn]; cbn [v_size v_addr].
        - replace m with 0 by lia. cbn. now rewrite put_at_nil.
        - rewrite <- SP. f_equal; [f_equal; lia|]. do 2 f_equal. lia. }
      apply (good_change w _ VDone (startv v + from) (repeat b (N.to_nat m))); cbn; auto.
      * rewrite E. now rewrite Z.
      * rewrite (proj2 (N.leb_gt _ _) L). now rewrite St.
  - (* VWrite *) destruct T as [Ti Tj]. destruct (rw_var w i Ti) as (v & E). destruct (view_var w j Tj) as (k & s & Es & F & Nt).
    destruct (look w I i _ v E) as (Sh & St & C & Nu & K & V1). destruct (look w I j _ s Es) as (Shs & Sts & Cs & Nus & Ks & V1s).
    cbn [puts says makes].
    destruct (null w i) eqn:EN.
    { apply (good_keep w _ (VRes (Err E_DOM))); cbn; auto; try now rewrite EN.
      rewrite E, Es, F. unfold mview_write. destruct (v_addr v) eqn:A; [easy|]. cbn. now destruct w. }
    destruct (N.leb_spec (count w j) (count w i)) as [L|L].
    + pose proof (store_put0 (vw_mem w) v (contents (vw_mem w) s) V1) as SP.
      destruct SP as [SP SB]; [rewrite size_contents by assumption; lia|].
      apply (good_change w _ (VRes (Ok tt)) (startv v) (contents (vw_mem w) s)); cbn; auto.
      * rewrite E, Es, F. unfold mview_write. destruct (v_addr v) eqn:A; [|easy].
        rewrite (proj2 (N.ltb_ge _ _)) by lia. destruct (N.ltb_spec 0 (v_size s)) as [Z|Z].
        -- rewrite load_valid_all by assumption. cbn. now rewrite SP.
        -- assert (Zc : contents (vw_mem w) s = []) by (apply size_0_nil; rewrite size_contents by assumption; lia).
           rewrite Zc, put_at_nil. cbn. now destruct w.
      * now rewrite EN, (proj2 (N.leb_le _ _) L), St, Shs.
      * now rewrite EN, (proj2 (N.leb_le _ _) L).
    + apply (good_keep w _ (VRes (Err E_DOM))); cbn; auto; try now rewrite EN, (proj2 (N.leb_gt _ _) L).
      rewrite E, Es, F. unfold mview_write. destruct (v_addr v) eqn:A; [|easy].
      rewrite (proj2 (N.ltb_lt _ _)) by lia. cbn. now destruct w.
  - (* VRead *) destruct T as [Ti Tj]. destruct (rw_var w i Ti) as (v & E). destruct (rw_var w j Tj) as (s & Es).
    destruct (look w I i _ v E) as (Sh & St & C & Nu & K & V1). destruct (look w I j _ s Es) as (Shs & Sts & Cs & Nus & Ks & V1s).
    destruct (N.leb_spec (count w j) (count w i)) as [L|L].
    + set (bs := firstn (N.to_nat (v_size s)) (contents (vw_mem w) v)).
      pose proof (store_put0 (vw_mem w) s bs V1s) as SP.
      destruct SP as [SP SB]; [unfold size, bs; rewrite firstn_length; lia|].
      apply (good_change w _ (VRes (Ok tt)) (startv s) bs); cbn; auto.
      * rewrite E, Es. unfold mview_read. rewrite (proj2 (N.ltb_ge _ _)) by lia.
        rewrite load_valid by (assumption || lia). cbn. rewrite ntake_firstn. fold bs. now rewrite SP.
      * rewrite (proj2 (N.leb_le _ _) L), Sts, Sh, (shown_length w j Rw s I Es). reflexivity.
      * now rewrite (proj2 (N.leb_le _ _) L).
    + apply (good_keep w _ (VRes (Err BasicOverflow))); cbn; auto; try now rewrite (proj2 (N.leb_gt _ _) L).
      rewrite E, Es. unfold mview_read. rewrite (proj2 (N.ltb_lt _ _)) by lia. cbn. now destruct w.
  - (* VIndex *) destruct (old_var w i T) as (k & v & E). destruct (look w I i _ v E) as (Sh & St & C & Nu & K & V1).
    assert (Z : kind_index k (vw_mem w) v n =
      match nth_error (contents (vw_mem w) v) (N.to_nat n) with Some b => Ret b | None => Throws IndexOutOfRange end).
    { destruct k; cbn; try now apply index_nth. rewrite <- index_nth by assumption. unfold view_index.
      rewrite (proj2 (N.leb_gt _ _)); [reflexivity|]. rewrite <- C. apply U. exact K. }
    eapply good_keep; cbn; auto.
    rewrite E, Z, Sh. now destruct (nth_error _ _).
  - (* VSet *) destruct (rw_var w i T) as (v & E). destruct (look w I i _ v E) as (Sh & St & C & Nu & K & V1).
    destruct (N.ltb_spec n (count w i)) as [L|L].
    + destruct (store_put (vw_mem w) v n [b] V1) as [SP SB]; [unfold size; cbn; lia|].
      apply (good_change w _ VDone (startv v + n) [b]); cbn; auto.
      * rewrite E. unfold put_index. rewrite (proj2 (N.leb_gt _ _)) by lia. now rewrite SP.
      * now rewrite (proj2 (N.ltb_lt _ _) L), St.
      * now rewrite (proj2 (N.ltb_lt _ _) L).
    + apply (good_keep w _ (VRaised IndexOutOfRange)); cbn; auto; try now rewrite (proj2 (N.ltb_ge _ _) L).
      rewrite E. unfold put_index. now rewrite (proj2 (N.leb_le _ _)) by lia.
  - (* VData *) destruct (view_var w i T) as (k & v & E & F & Nt). destruct (look w I i _ v E) as (Sh & St & C & Nu & K & V1).
    pose proof (data_as_spec w v off tsz V1) as D. rewrite <- C, <- Sh in D.
    eapply good_keep; cbn; auto.
    rewrite E, F, D by (destruct off; auto). now destruct (_ <=? _).
  - (* VPut *) destruct (rw_var w i T) as (v & E). destruct (look w I i _ v E) as (Sh & St & C & Nu & K & V1).
    set (o := match off with Some o => o | None => 0 end).
    pose proof (data_as_spec w v off (size bs) V1 ltac:(destruct off; auto)) as D. cbv zeta in D. fold o in D.
    destruct (N.leb_spec (o + size bs) (count w i)) as [L|L].
    + destruct (store_put (vw_mem w) v o bs V1) as [SP SB]; [lia|].
      assert (L' : o + N.of_nat (length bs) <=? count w i = true) by now apply N.leb_le.
      apply (good_change w _ VDone (startv v + o) bs); cbn; auto; fold o; rewrite ?L', ?St; auto.
      rewrite E. unfold put_as. rewrite D, (proj2 (N.leb_le _ _)) by lia. cbn.
      replace (match off with Some o0 => ptr_add (v_addr v) o0 | None => v_addr v end) with (ptr_add (v_addr v) o)
        by (subst o; destruct off; auto; apply ptr_add_0).
      now rewrite SP.
    + assert (L' : o + N.of_nat (length bs) <=? count w i = false) by now apply N.leb_gt.
      apply (good_keep w _ (VRaised AssertFailed)); cbn; auto; fold o; rewrite ?L'; auto.
      rewrite E. unfold put_as. rewrite D, (proj2 (N.leb_gt _ _)) by lia. reflexivity.
  - (* VConstruct *) destruct (rw_var w i T) as (v & E). destruct (look w I i _ v E) as (Sh & St & C & Nu & K & V1).
    destruct (N.leb_spec (size bs) (count w i)) as [L|L].
    + destruct (store_put0 (vw_mem w) v bs V1) as [SP SB]; [lia|].
      assert (L' : N.of_nat (length bs) <=? count w i = true) by now apply N.leb_le.
      apply (good_change w _ VDone (startv v) bs); cbn; auto; rewrite ?L', ?St; auto.
      rewrite E. unfold construct_in, put_as. rewrite (proj2 (N.leb_le (size bs) _)) by lia. cbn.
      rewrite dataAs_spec, (proj2 (N.leb_le (size bs) _)) by (assumption || lia). cbn. now rewrite SP.
    + assert (L' : N.of_nat (length bs) <=? count w i = false) by now apply N.leb_gt.
      apply (good_keep w _ (VRaised AssertFailed)); cbn; auto; rewrite ?L'; auto.
      rewrite E. unfold construct_in. rewrite (proj2 (N.leb_gt _ _)) by lia. reflexivity.
  - (* VAddress *) destruct (view_var w i T) as (k & v & E & F & Nt). destruct (look w I i _ v E) as (Sh & St & C & Nu & K & V1).
    eapply good_keep; cbn; auto.
    rewrite E, F. unfold view_offsetAddress. rewrite C, Nu, St. unfold startv. destruct (v_size v <? off); [reflexivity|].
    now destruct (v_addr v).
  - (* VEquals *)
    assert (H : exists ki vi kj vj, vw_vars w i = Some (ki, vi) /\ vw_vars w j = Some (kj, vj) /\ fits Tx ki = fits Tx kj).
    { destruct T as [[T1 T2]|[T1 T2]].
      - destruct (text_var w i T1) as (v & E), (text_var w j T2) as (v' & E'). now exists Tx, v, Tx, v'.
      - destruct (view_var w i T1) as (k & v & E & F & X), (view_var w j T2) as (k' & v' & E' & F' & X').
        exists k, v, k', v'. repeat split; auto. now destruct k, k'. }
    destruct H as (ki & vi & kj & vj & Ei & Ej & F).
    destruct (V _ _ _ Ei) as [Vi1 Vi2]. destruct (V _ _ _ Ej) as [Vj1 Vj2].
    destruct (kind_equals_spec ki (vw_mem w) vi vj Vi1 Vj1) as (b & Eb & Sb).
    apply (good_keep w _ (VFlag b)); cbn; auto.
    + rewrite Ei, Ej. cbn in F. rewrite F, Bool.eqb_reflx, Eb. reflexivity.
    + exists b. unfold shown. rewrite Ei, Ej. auto.
  - (* VSize *) destruct (old_var w i T) as (k & v & E). destruct (look w I i _ v E) as (Sh & St & C & Nu & K & V1).
    eapply good_keep; cbn; auto. now rewrite E, C.
  - (* VEmpty *) destruct (old_var w i T) as (k & v & E). destruct (look w I i _ v E) as (Sh & St & C & Nu & K & V1).
    apply (good_keep w _ (VFlag (v_size v =? 0))); cbn; auto; [now rewrite E|].
    eexists; split; [reflexivity|]. rewrite N.eqb_eq, <- C. unfold count. destruct (shown w i); cbn; split; easy.
  - (* VBool *) destruct (old_var w i T) as (k & v & E). destruct (look w I i _ v E) as (Sh & St & C & Nu & K & V1).
    eapply good_keep; cbn; auto; [now rewrite E|].
    eexists; split; [reflexivity|]. unfold is_text, is_view. rewrite K, Nu. split.
    + intros Kt. injection Kt as ->. rewrite negb_true_iff, N.eqb_neq, <- C. unfold count. destruct (shown w i); cbn; split; easy.
    + intros [Kt|Kt]; injection Kt as ->; now destruct (v_addr v).
  - (* VText *) destruct T as [T Us]. destruct (view_var w j Us) as (k' & v & E & F & X).
    destruct (V _ _ _ E) as [V1 V2]. destruct (look w I j _ v E) as (Sh & St & C & Nu & K & _).
    apply (good_make w _ i Tx (text_of v)); cbn; auto; try easy.
    + now rewrite E, F, T.
    + unfold valid, text_of in *. cbn. pose proof (u16_le (v_size v)). destruct (v_addr v); [lia|]. now rewrite V1.
    + intros _. apply u16_lt.
    + intros S. repeat split. rewrite Sh. unfold text_of. rewrite u16_id by now rewrite <- C. now destruct v.
  - (* VTextC *) destruct p as [a|].
    + destruct Ho as (n & Hn & Nn).
      assert (Ec : cstring (ndrop a (vw_mem w)) = Ret (before_nul (ndrop a (vw_mem w)))).
      { apply (cstring_ok _ (N.to_nat (N.of_nat n - a))). rewrite <- nnth_nth_error, nnth_ndrop, nnth_nth_error.
        now replace (N.to_nat (a + (N.of_nat n - a))) with n by lia. }
      destruct (before_nul_prefix (ndrop a (vw_mem w))) as (r & Er).
      assert (Sz : a + size (before_nul (ndrop a (vw_mem w))) <= size (vw_mem w)).
      { assert (Hx : (n < length (vw_mem w))%nat) by (apply nth_error_Some; congruence).
        pose proof (f_equal size Er) as Hs. rewrite size_app, size_ndrop in Hs. unfold size in *. lia. }
      apply (good_make w _ i Tx (mkView (Some a) (u16 (size (before_nul (ndrop a (vw_mem w))))))); cbn; auto; try easy.
      * rewrite T. rewrite Ec. reflexivity.
      * unfold valid. cbn. pose proof (u16_le (size (before_nul (ndrop a (vw_mem w))))). lia.
      * intros _. apply u16_lt.
      * intros S. repeat split. rewrite contents_alt. cbn. rewrite <- ndrop_skipn in *.
        rewrite u16_id by exact S. rewrite Er at 2. rewrite ntake_app, N.sub_diag, ntake_0, app_nil_r. apply ntake_all. lia.
    + apply (good_make w _ i Tx no_view); cbn; auto; try easy. now rewrite T.
  - (* VTextView *) destruct T as [T Us]. destruct (text_var w j Us) as (v & E).
    destruct (V _ _ _ E) as [V1 V2].
    apply (good_make w _ i Ro v); cbn; auto; try easy.
    + rewrite E, T. now rewrite (checked_ok (vw_mem w)).
    + intros _. repeat split. unfold shown. now rewrite E.
  - (* VCharAt *) destruct (text_var w i T) as (v & E). destruct (look w I i _ v E) as (Sh & St & C & Nu & K & V1).
    eapply good_keep; cbn; auto.
    rewrite E, Sh. unfold text_charAt. rewrite index_nth by assumption. now destruct (nth_error _ _).
Qed.

Lemma run_ok os : forall w, vinv w -> along fair os w -> exists xs w', v_run os w = Ret (xs, w') /\ vinv w'.
Proof.
  induction os as [|o t IH]; intros w I A; cbn.
  - exists [], w. auto.
  - destruct A as [F A]. destruct (step_spec w o I F) as (a & w1 & E & I1 & _).
    destruct (IH w1 I1 (A _ _ E)) as (xs & w2 & E2 & I2).
    exists (a :: xs), w2. rewrite E. cbn. rewrite E2. auto.
Qed.
Lemma vinv_start mem : N.of_nat (length mem) < 2 ^ 64 -> vinv (v_start mem).
Proof. intros H. split; [exact H|]. easy. Qed.
Lemma reachable_vinv w : reachable w -> vinv w.
Proof.
  intros (mem & os & xs & B & A & E). destruct (run_ok os _ (vinv_start mem B) A) as (xs' & w' & E' & I).
  rewrite E in E'. injection E' as <- <-. exact I.
Qed.
Lemma reachable_start mem : N.of_nat (length mem) < 2 ^ 64 -> reachable (v_start mem).
Proof. intros B. exists mem, [], []. repeat split. exact B. Qed.

Lemma run_app os1 : forall os2 w, v_run (os1 ++ os2) w =
  let! p := v_run os1 w in let! q := v_run os2 (snd p) in Ret (fst p ++ fst q, snd q).
Proof.
  induction os1 as [|o t IH]; intros os2 w; cbn.
  - destruct (v_run os2 w) as [[]| | | |]; reflexivity.
  - destruct (v_step o w) as [p| | | |]; cbn; try reflexivity. rewrite IH.
    destruct (v_run t (snd p)) as [q| | | |]; cbn; try reflexivity.
    destruct (v_run os2 (snd q)) as [r| | | |]; reflexivity.
Qed.
Lemma along_app P os1 : forall os2 w xs w1, v_run os1 w = Ret (xs, w1) ->
  along P os1 w -> along P os2 w1 -> along P (os1 ++ os2) w.
Proof.
  induction os1 as [|o t IH]; intros os2 w xs w1 E A1 A2; cbn in *.
  - now injection E as _ ->.
  - destruct A1 as [F A]. split; [exact F|]. intros a w' E1. rewrite E1 in E. cbn in E.
    destruct (v_run t w') as [q| | | |] eqn:E2; try easy. injection E as <- <-.
    apply (IH os2 w' (fst q) (snd q)); [now destruct q|exact (A _ _ E1)|exact A2].
Qed.
Lemma reachable_step w o a w' : reachable w -> fair w o -> v_step o w = Ret (a, w') -> reachable w'.
Proof.
  intros (mem & os & xs & B & A & E) F S. exists mem, (os ++ [o]), (xs ++ [a]).
  split; [exact B|]. split.
  - apply (along_app _ _ _ _ _ _ E A). now split.
  - rewrite run_app, E. cbn. rewrite S. reflexivity.
Qed.

(** Where the window of a variable comes from. *)
Definition subview (v' v : view) : Prop :=
  v_size v' = 0 \/ exists a a', v_addr v = Some a /\ v_addr v' = Some a' /\ a <= a' /\ a' + v_size v' <= a + v_size v.
Lemma subview_refl v : (v_addr v = None -> v_size v = 0) -> subview v v.
Proof. intros H. destruct (v_addr v) as [a|] eqn:E; [right; exists a, a; repeat split; auto; lia|left; auto]. Qed.
Lemma subview_slice v f t : (v_addr v = None -> v_size v = 0) -> subview (view_slice v f t) v.
Proof.
  intros H. unfold subview, view_slice, ptr_add. cbn. destruct (v_addr v) as [a|].
  - right. exists a, (a + N.min f (v_size v)). repeat split; lia.
  - left. rewrite H by reflexivity. lia.
Qed.
Lemma subview_mslice v f t : (v_addr v = None -> v_size v = 0) -> subview (mview_slice v f t) v.
Proof.
  intros H. unfold subview, mview_slice, ptr_add. destruct (f =? t); [left; reflexivity|]. cbn.
  destruct (v_addr v) as [a|].
  - right. exists a, (a + N.min f (v_size v)). repeat split; lia.
  - left. rewrite H by reflexivity. lia.
Qed.
Lemma checked_inv v v' : checked v = Ret v' -> v' = v.
Proof.
  unfold checked, view_ctor. destruct v as [[a|] n]; cbn; [congruence|]. destruct (N.eqb_spec n 0); cbn; congruence.
Qed.
Lemma ctor_inv p n v' : view_ctor p n = Ret v' -> v' = mkView p n.
Proof. unfold view_ctor. destruct p; [congruence|]. destruct (N.eqb_spec n 0); congruence. Qed.

Lemma kind_slice_sub k v f t v' : (v_addr v = None -> v_size v = 0) -> kind_slice k v f t = Ret v' -> subview v' v.
Proof.
  intros H E. destruct k; cbn in E.
  - apply checked_inv in E as ->. now apply subview_slice.
  - apply checked_inv in E as ->. now apply subview_mslice.
  - injection E as <-. now apply subview_slice.
Qed.

(** The range an operation is given. *)
Definition grants (o : vop) (w : vworld) (k : vkind) (v : view) : Prop :=
  match o with
  | VWrap _ k' (Some a) n => k = k' /\ v_addr v = Some a /\ v_size v <= n
  | VTextC _ (Some a) => k = Tx /\ v_addr v = Some a /\ exists s, cstring (ndrop a (vw_mem w)) = Ret s /\ v_size v <= size s
  | _ => False
  end.
Definition from_old (w : vworld) (o : vop) (k : vkind) (v' : view) : Prop :=
  v_size v' = 0 \/ grants o w k v' \/
  exists j kj v, vw_vars w j = Some (kj, v) /\ subview v' v /\ (kinds_apart w o -> k = Rw -> kj = Rw).

Lemma caught_make w (r : outcome view) f i k a w' :
  caught w (let! v := r in Ret (VDone, mkVW (vw_mem w) (vset f i (Some (k, v))))) = Ret (a, w') ->
  w' = w \/ exists v, r = Ret v /\ w' = mkVW (vw_mem w) (vset f i (Some (k, v))).
Proof.
  destruct r; cbn; try easy; intros E; injection E as _ <-; [right; eauto|now left].
Qed.
Lemma caught_change w (r : outcome (list N)) a w' :
  caught w (let! m := r in Ret (VDone, mkVW m (vw_vars w))) = Ret (a, w') -> vw_vars w' = vw_vars w.
Proof. destruct r; cbn; try easy; intros E; now injection E as _ <-. Qed.
Lemma caught_answer w (r : outcome vans) a w' : caught w (let! x := r in Ret (x, w)) = Ret (a, w') -> w' = w.
Proof. destruct r; cbn; try easy; intros E; now injection E as _ <-. Qed.

Lemma step_from w o a w' : vinv w -> v_step o w = Ret (a, w') ->
  forall x k v', vw_vars w' x = Some (k, v') -> from_old w o k v'.
Proof.
  intros I E x k v' Ex.
  assert (same : vw_vars w x = Some (k, v') -> from_old w o k v').
  { intros H. right; right. exists x, k, v'. repeat split; auto. apply subview_refl.
    destruct I as [_ V]. destruct (V _ _ _ H) as [V1 _]. unfold valid in V1. intros Z. now rewrite Z in V1. }
  assert (nul : forall j kj v, vw_vars w j = Some (kj, v) -> v_addr v = None -> v_size v = 0).
  { intros j kj v H Z. destruct I as [_ V]. destruct (V _ _ _ H) as [V1 _]. unfold valid in V1. now rewrite Z in V1. }
  assert (made : forall i k0 (r : outcome view),
    caught w (let! v := r in Ret (VDone, mkVW (vw_mem w) (vset (vw_vars w) i (Some (k0, v))))) = Ret (a, w') ->
    (forall v, r = Ret v -> from_old w o k0 v) -> from_old w o k v').
  { intros i k0 r C H. apply caught_make in C as [->|(v & -> & ->)]; [auto|].
    cbn in Ex. unfold vset in Ex. destruct (Nat.eqb x i); [|auto]. injection Ex as <- <-. auto. }
  destruct o; cbn [v_step] in E.
  - destruct (vw_vars w i) eqn:Ei; [easy|]. eapply made; [exact E|]. intros v Ev. injection Ev as <-. now left.
  - destruct (vw_vars w i) eqn:Ei; [easy|]. eapply made; [exact E|]. intros v Ev.
    assert (v = mkView p (match k0 with Tx => u16 n | _ => n end)) as -> by (destruct k0; now apply ctor_inv in Ev).
    destruct p as [p|].
    + right; left. cbn. repeat split. destruct k0; try lia. apply u16_le.
    + left. cbn. destruct k0; cbn in Ev; unfold view_ctor in Ev;
      match type of Ev with context [?m =? 0] => destruct (N.eqb_spec m 0); easy || lia end.
  - destruct (vw_vars w j) as [[kj v]|] eqn:Ej; [|easy]. destruct (fits k0 kj) eqn:F; [|easy].
    destruct (vw_vars w i) eqn:Ei; [easy|]. eapply made; [exact E|]. intros v0 Ev. injection Ev as <-.
    right; right. exists j, kj, v. repeat split; eauto using subview_refl. intros _ ->. now destruct kj.
  - destruct (vw_vars w j) as [[kj v]|] eqn:Ej; [|easy]. destruct (fits k0 kj) eqn:F; cbn in E; [|easy].
    destruct (vw_vars w i) eqn:Ei; [easy|]. injection E as <- <-. cbn in Ex. unfold vset in Ex.
    destruct (Nat.eqb x i).
    + injection Ex as <- <-. right; right. exists j, kj, v. repeat split; eauto using subview_refl. intros _ ->. now destruct kj.
    + destruct (Nat.eqb_spec x j) as [->|]; [|auto]. injection Ex as <- <-.
      destruct (fits Tx kj); [auto|now left].
  - destruct (vw_vars w j) as [[kj v]|] eqn:Ej; [|easy]. destruct (fits Ro kj) eqn:F; [|easy].
    destruct (vw_vars w i) eqn:Ei; [easy|]. eapply made; [exact E|]. intros v0 Ev. apply ctor_inv in Ev as ->.
    right; right. exists j, kj, v. destruct v. repeat split; eauto using subview_refl. easy.
  - destruct (vw_vars w i) as [[ki vi]|] eqn:Ei; [|easy]. destruct (vw_vars w j) as [[kj v]|] eqn:Ej; [|easy].
    destruct (fits ki kj) eqn:F; [|easy]. injection E as <- <-. cbn in Ex. unfold vset in Ex.
    destruct (Nat.eqb x i); [|auto]. injection Ex as <- <-.
    right; right. exists j, kj, v. repeat split; eauto using subview_refl. intros _ ->. now destruct kj.
  - destruct (vw_vars w i) as [[ki vi]|] eqn:Ei; [|easy]. destruct (vw_vars w j) as [[kj v]|] eqn:Ej; [|easy].
    destruct (fits ki kj) eqn:F; cbn in E; [|easy]. destruct (fits Tx kj) eqn:FT; injection E as <- <-; cbn in Ex; unfold vset in Ex.
    + destruct (Nat.eqb x i); [|auto]. injection Ex as <- <-.
      right; right. exists j, kj, v. repeat split; eauto using subview_refl. intros _ ->. now destruct kj.
    + destruct (Nat.eqb x j).
      * injection Ex as <- <-. right; right. exists i, ki, vi. repeat split; eauto using subview_refl.
        cbn. unfold kind_of. rewrite Ei, Ej. cbn. congruence.
      * destruct (Nat.eqb x i); [|auto]. injection Ex as <- <-.
        right; right. exists j, kj, v. repeat split; eauto using subview_refl. intros _ ->. now destruct kj.
  - destruct (vw_vars w i) as [[ki vi]|] eqn:Ei; [|easy]. destruct (vw_vars w j) as [[kj v]|] eqn:Ej; [|easy].
    destruct (Bool.eqb (fits Tx ki) (fits Tx kj)) eqn:F; [|easy]. injection E as <- <-. cbn in Ex. unfold vset in Ex.
    destruct (Nat.eqb x j).
    + injection Ex as <- <-. right; right. exists i, ki, vi. repeat split; eauto using subview_refl.
      cbn. unfold kind_of. rewrite Ei, Ej. cbn. congruence.
    + destruct (Nat.eqb x i); [|auto]. injection Ex as <- <-.
      right; right. exists j, kj, v. repeat split; eauto using subview_refl.
      cbn. unfold kind_of. rewrite Ei, Ej. cbn. congruence.
  - destruct (vw_vars w j) as [[kj v]|] eqn:Ej; [|easy]. destruct (fits k0 kj) eqn:F; [|easy].
    destruct (vw_vars w i) eqn:Ei; [easy|]. eapply made; [exact E|]. intros v0 Ev.
    right; right. exists j, kj, v. repeat split; eauto using kind_slice_sub. intros _ ->. now destruct kj.
  - destruct (vw_vars w j) as [[kj v]|] eqn:Ej; [|easy]. destruct (fits k0 kj) eqn:F; cbn in E; [|easy].
    destruct (fits Ro k0); [|easy].
    destruct (vw_vars w i) eqn:Ei; [easy|]. eapply made; [exact E|]. intros v0 Ev. unfold kind_sliceFor in Ev.
    right; right. exists j, kj, v. repeat split; eauto using kind_slice_sub. intros _ ->. now destruct kj.
  - destruct (vw_vars w i) as [[[] v]|]; try easy. apply caught_change in E. rewrite E in Ex. auto.
  - destruct (vw_vars w i) as [[[] v]|]; try easy. apply caught_change in E. rewrite E in Ex. auto.
  - destruct (vw_vars w i) as [[[] v]|]; try easy. destruct (vw_vars w j) as [[kj s]|]; [|easy].
    destruct (fits Ro kj); [|easy]. destruct (mview_write _ _ _); try easy. injection E as _ <-. auto.
  - destruct (vw_vars w i) as [[[] v]|]; try easy. destruct (vw_vars w j) as [[[] s]|]; try easy.
    destruct (mview_read _ _ _); try easy. injection E as _ <-. auto.
  - destruct (vw_vars w i) as [[k0 v]|]; [|easy]. apply caught_answer in E as ->. auto.
  - destruct (vw_vars w i) as [[[] v]|]; try easy. apply caught_change in E. rewrite E in Ex. auto.
  - destruct (vw_vars w i) as [[k0 v]|]; [|easy]. destruct (fits Ro k0); [|easy]. apply caught_answer in E as ->. auto.
  - destruct (vw_vars w i) as [[[] v]|]; try easy. apply caught_change in E. rewrite E in Ex. auto.
  - destruct (vw_vars w i) as [[[] v]|]; try easy. apply caught_change in E. rewrite E in Ex. auto.
  - destruct (vw_vars w i) as [[k0 v]|]; [|easy]. destruct (fits Ro k0); [|easy]. injection E as _ <-. auto.
  - destruct (vw_vars w i) as [[k0 v]|]; [|easy]. destruct (vw_vars w j) as [[k1 v1]|]; [|easy].
    destruct (Bool.eqb _ _); [|easy]. apply caught_answer in E as ->. auto.
  - destruct (vw_vars w i) as [[k0 v]|]; [|easy]. injection E as _ <-. auto.
  - destruct (vw_vars w i) as [[k0 v]|]; [|easy]. injection E as _ <-. auto.
  - destruct (vw_vars w i) as [[k0 v]|]; [|easy]. injection E as _ <-. auto.
  - destruct (vw_vars w j) as [[kj v]|] eqn:Ej; [|easy]. destruct (fits Ro kj) eqn:F; [|easy].
    destruct (vw_vars w i) eqn:Ei; [easy|]. eapply made; [exact E|]. intros v0 Ev. injection Ev as <-.
    right; right. exists j, kj, v. split; [exact Ej|]. split; [|easy].
    unfold subview, text_of. cbn. destruct (v_addr v) as [b|] eqn:Eb.
    + right. exists b, b. pose proof (u16_le (v_size v)). repeat split; lia.
    + left. now rewrite (nul _ _ _ Ej Eb).
  - destruct (vw_vars w i) eqn:Ei; [easy|]. eapply made; [exact E|]. intros v0 Ev. unfold text_of_cstr in Ev.
    destruct p as [p|]; [|injection Ev as <-; now left].
    destruct (cstring (ndrop p (vw_mem w))) as [s| | | |] eqn:Es; try easy. injection Ev as <-.
    right; left. cbn. repeat split. exists s. split; [exact Es|apply u16_le].
  - destruct (vw_vars w j) as [[kj v]|] eqn:Ej; [|easy]. destruct (fits Tx kj) eqn:F; [|easy].
    destruct (vw_vars w i) eqn:Ei; [easy|]. eapply made; [exact E|]. intros v0 Ev. apply checked_inv in Ev as ->.
    right; right. exists j, kj, v. repeat split; eauto using subview_refl. easy.
  - destruct (vw_vars w i) as [[k0 v]|]; [|easy]. destruct (fits Tx k0); [|easy]. apply caught_answer in E as ->. auto.
Qed.

Lemma cstring_nonzero l : forall s n, cstring l = Ret s -> (n < length s)%nat -> nth_error l n <> Some 0.
Proof.
  induction l as [|c t IH]; intros s n E H; cbn in *; [easy|].
  destruct (N.eqb_spec c 0) as [->|Hc]; [injection E as <-; cbn in H; lia|].
  destruct (cstring t) as [r| | | |] eqn:Et; try easy. injection E as <-. destruct n as [|n]; cbn in *; [congruence|].
  apply (IH r n eq_refl). lia.
Qed.

Definition has (v : view) (x : N) : Prop := exists a, v_addr v = Some a /\ a <= x < a + v_size v.
Lemma subview_has v' v x : subview v' v -> has v' x -> has v x.
Proof.
  intros [Z|(a & a' & E & E' & L & B)] (b & Eb & H); [lia|]. rewrite E' in Eb. injection Eb as ->.
  exists a. split; [exact E|lia].
Qed.

Lemma run_given os : forall w xs w' (G : N -> Prop), vinv w -> along fair os w -> v_run os w = Ret (xs, w') ->
  (forall i k v x, vw_vars w i = Some (k, v) -> has v x -> G x) ->
  forall i k v x, vw_vars w' i = Some (k, v) -> has v x -> G x \/ given os w x.
Proof.
  induction os as [|o t IH]; intros w xs w' G I A E HG i k v x Ei Hx; cbn in *.
  - injection E as _ <-. left. eauto.
  - destruct A as [F A]. destruct (step_spec w o I F) as (a & w1 & E1 & I1 & _). rewrite E1 in E. cbn in E.
    destruct (v_run t w1) as [q| | | |] eqn:E2; try easy. injection E as _ <-.
    destruct (IH w1 (fst q) (snd q) (fun y => G y \/ exists v k, grants o w k v /\ has v y) I1 (A _ _ E1)
                 ltac:(now destruct q)) with (i := i) (k := k) (v := v) (x := x) as [[H|(v0 & k0 & H & H')]|H]; auto.
    + intros i0 k0 v0 x0 Ei0 Hx0. destruct (step_from w o a w1 I E1 i0 k0 v0 Ei0) as [Z|[Z|(j & kj & vj & Ej & Sj & _)]].
      * destruct Hx0 as (b & _ & Hb). lia.
      * right. eauto.
      * left. eauto using subview_has.
    + right. left. destruct H' as (b & Eb & Hb). destruct o; try easy; destruct p as [p|]; try easy; cbn in H.
      * destruct H as (_ & Ea & L). assert (b = p) by congruence. subst. lia.
      * destruct H as (_ & Ea & s & Es & L). assert (b = p) by congruence. subst.
        split; [lia|]. intros y Hy. pose proof (cstring_nonzero _ s (N.to_nat (y - p)) Es) as Nz.
        rewrite <- nnth_nth_error, nnth_ndrop, nnth_nth_error in Nz. replace (p + (y - p)) with y in Nz by lia.
        apply Nz. unfold size in L. lia.
    + right. right. eauto.
Qed.

Lemma nth_put_at mem p bs n : p + size bs <= size mem ->
  nth_error (put_at mem p bs) n =
  if ((N.to_nat p <=? n) && (n <? N.to_nat p + length bs))%nat then nth_error bs (n - N.to_nat p) else nth_error mem n.
Proof.
  intros H. rewrite <- put_at_overwrite.
  pose proof (nnth_overwrite mem bs p (N.of_nat n) H) as E. rewrite !nnth_nth_error, Nat2N.id in E.
  rewrite E. unfold size.
  destruct (Nat.leb_spec (N.to_nat p) n), (N.leb_spec p (N.of_nat n)); try lia; cbn [andb]; [|reflexivity].
  destruct (Nat.ltb_spec n (N.to_nat p + length bs)), (N.ltb_spec (N.of_nat n) (p + N.of_nat (length bs))); try lia; [|reflexivity].
  f_equal. lia.
Qed.

(** Bytes are only put into mutable views. *)
Lemma puts_inside w o : vinv w -> fair w o ->
  snd (puts w o) = [] \/
  exists i v a, vw_vars w i = Some (Rw, v) /\ v_addr v = Some a /\ a <= fst (puts w o) /\
    fst (puts w o) + size (snd (puts w o)) <= a + v_size v /\ a + v_size v <= size (vw_mem w).
Proof.
  intros I (T & Ho & U).
  assert (G : forall i off (bs : list N), is_mview w i -> off + size bs <= count w i ->
    bs = [] \/ exists j v a, vw_vars w j = Some (Rw, v) /\ v_addr v = Some a /\ a <= start w i + off /\
      start w i + off + size bs <= a + v_size v /\ a + v_size v <= size (vw_mem w)).
  { intros i off bs M L. destruct (rw_var w i M) as (v & E). destruct (look w I i _ v E) as (Sh & St & C & Nu & K & V1).
    destruct bs as [|b bs]; [now left|right]. unfold valid in V1. destruct (v_addr v) as [a|] eqn:Ea.
    - exists i, v, a. rewrite St. unfold startv. rewrite Ea. repeat split; auto; lia.
    - rewrite size_cons in L. lia. }
  assert (G0 : forall i (bs : list N), is_mview w i -> size bs <= count w i ->
    bs = [] \/ exists j v a, vw_vars w j = Some (Rw, v) /\ v_addr v = Some a /\ a <= start w i /\
      start w i + size bs <= a + v_size v /\ a + v_size v <= size (vw_mem w)).
  { intros i bs M L. destruct (G i 0 bs M ltac:(lia)) as [->|(j & v & a & H)]; [now left|].
    right. exists j, v, a. rewrite N.add_0_r in H. exact H. }
  destruct o; cbn [typed] in T; cbn [puts fst snd]; auto.
  - apply G0; auto. unfold count, size. rewrite repeat_length. lia.
  - destruct (N.leb_spec (count w i) from); [now left|]. cbn. apply G; auto. unfold size. rewrite repeat_length. lia.
  - destruct T as [Ti Tj]. destruct (negb (null w i) && (count w j <=? count w i))%bool eqn:E; [|now left].
    apply andb_true_iff in E as [_ E]. apply N.leb_le in E. cbn. apply G0; auto.
  - destruct T as [Ti Tj]. destruct (N.leb_spec (count w j) (count w i)); [|now left]. cbn. apply G0; auto.
    unfold size. rewrite firstn_length. unfold count. lia.
  - destruct (N.ltb_spec n (count w i)); [|now left]. cbn. apply G; auto. unfold size. cbn. lia.
  - destruct (N.leb_spec (match off with Some o => o | None => 0 end + N.of_nat (length bs)) (count w i)); [|now left].
    cbn. now apply G.
  - destruct (N.leb_spec (N.of_nat (length bs)) (count w i)); [|now left]. cbn. apply G0; auto.
Qed.

Lemma run_readonly os : forall w xs w' (W : N -> Prop), vinv w -> along fair os w -> along kinds_apart os w ->
  v_run os w = Ret (xs, w') ->
  (forall i v x, vw_vars w i = Some (Rw, v) -> has v x -> W x) ->
  forall x, ~ W x -> ~ given_for_writing os x -> nth_error (vw_mem w') (N.to_nat x) = nth_error (vw_mem w) (N.to_nat x).
Proof.
  induction os as [|o t IH]; intros w xs w' W I A K E HW x NW NG; cbn in *.
  - now injection E as _ <-.
  - destruct A as [F A], K as [Ko K]. destruct (step_spec w o I F) as (a & w1 & E1 & I1 & M & _). rewrite E1 in E. cbn in E.
    destruct (v_run t w1) as [q| | | |] eqn:E2; try easy. injection E as _ <-.
    rewrite (IH w1 (fst q) (snd q) (fun y => W y \/ exists v, grants o w Rw v /\ has v y) I1 (A _ _ E1) (K _ _ E1)
               ltac:(now destruct q)); auto.
    + rewrite M. destruct (puts_inside w o I F) as [->|(i & v & b & Ei & Eb & L1 & L2 & L3)]; [now rewrite put_at_nil|].
      rewrite nth_put_at by lia. destruct (_ && _)%bool eqn:H; [|reflexivity]. exfalso. apply NW.
      apply andb_true_iff in H as [H1 H2]. apply Nat.leb_le in H1. apply Nat.ltb_lt in H2.
      apply (HW i v x Ei). exists b. split; [exact Eb|]. unfold size in *. lia.
    + intros i0 v0 x0 Ei0 Hx0. destruct (step_from w o a w1 I E1 i0 Rw v0 Ei0) as [Z|[Z|(j & kj & vj & Ej & Sj & Kj)]].
      * destruct Hx0 as (b & _ & Hb). lia.
      * right. eauto.
      * left. rewrite (Kj Ko eq_refl) in Ej. eauto using subview_has.
    + intros [H|(v & Gr & b & Eb & Hb)]; [auto|]. apply NG. destruct o; try easy; destruct p as [p|]; try easy; cbn in Gr.
      destruct Gr as (<- & Ea & L). assert (b = p) by congruence. subst. exists i, p, n. split; [now left|lia].
      destruct Gr as (? & _). easy.
    + intros (i & b & n & H1 & H2). apply NG. exists i, b, n. split; [now right|exact H2].
Qed.

Lemma along_cons (P : vworld -> vop -> Prop) o t w : P w o -> (forall a w', v_step o w = Ret (a, w') -> along P t w') -> along P (o :: t) w.
Proof. intros H1 H2. split; assumption. Qed.
Lemma along_nil (P : vworld -> vop -> Prop) w : along P [] w.
Proof. exact Logic.I. Qed.
