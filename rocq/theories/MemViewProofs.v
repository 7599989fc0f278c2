From Verif Require Import Base BaseLemmas MemViewModel MemViewSpec.

Lemma range_from_spec {A} (l : list A) i from to :
  range_from i from to l = ntake (to - N.max from i) (ndrop (from - i) l).
Proof.
  revert i; induction l as [|x t IH]; intros i; [reflexivity|].
  cbn [range_from]. rewrite IH. cbn [ndrop].
  destruct (N.leb_spec from i) as [H1|H1]; cbn [andb].
  - replace (from - i) with 0 by lia. replace (from - (i + 1)) with 0 by lia.
    rewrite N.eqb_refl, ndrop_0. cbn [ntake].
    destruct (N.ltb_spec i to); destruct (N.eqb_spec (to - N.max from i) 0); try lia; cbn [app].
    + f_equal. f_equal. lia.
    + replace (to - N.max from (i + 1)) with 0 by lia. apply ntake_0.
  - destruct (N.eqb_spec (from - i) 0); [lia|]. cbn [app]. f_equal; [lia|]. f_equal. lia.
Qed.

Lemma range_spec {A} (l : list A) from to : range from to l = ntake (to - from) (ndrop from l).
Proof. unfold range. rewrite range_from_spec. f_equal; [lia|]. f_equal; lia. Qed.

Lemma contents_alt mem v : contents mem v =
  match v_addr v with None => [] | Some a => ntake (v_size v) (ndrop a mem) end.
Proof. unfold contents. destruct (v_addr v); [|reflexivity]. now rewrite ntake_firstn, ndrop_skipn. Qed.

Lemma size_contents mem v : valid mem v -> size (contents mem v) = v_size v.
Proof.
  unfold valid. rewrite contents_alt. destruct (v_addr v) as [a|]; intros H.
  - rewrite size_ntake, size_ndrop. lia.
  - now rewrite H.
Qed.

Lemma slice_valid mem v from to : valid mem v -> valid mem (view_slice v from to).
Proof.
  unfold valid, view_slice, ptr_add; cbn. destruct (v_addr v) as [a|]; cbn; lia.
Qed.

Lemma slice_contents mem v from to : valid mem v ->
  contents mem (view_slice v from to) = range from to (contents mem v).
Proof.
  intros Hv. rewrite range_spec, !contents_alt. unfold view_slice, ptr_add, valid in *; cbn.
  destruct (v_addr v) as [a|]; cbn.
  - rewrite ndrop_ntake, ntake_ntake, ndrop_ndrop.
    destruct (N.le_gt_cases from (v_size v)) as [H|H].
    + replace (N.min from (v_size v)) with from by lia.
      f_equal. lia.
    + replace (N.min (to - from) (v_size v - from)) with 0 by lia.
      replace (N.min (v_size v) _ - _) with 0 by lia. now rewrite !ntake_0.
  - reflexivity.
Qed.

Lemma mslice_valid mem v from to : valid mem v -> valid mem (mview_slice v from to).
Proof.
  unfold valid, mview_slice, ptr_add. destruct (from =? to); cbn; destruct (v_addr v) as [a|]; cbn; lia.
Qed.

Lemma mslice_contents mem v from to : valid mem v ->
  contents mem (mview_slice v from to) = range from to (contents mem v).
Proof.
  intros Hv. unfold mview_slice. destruct (N.eqb_spec from to) as [->|H].
  - rewrite range_spec, N.sub_diag, ntake_0. rewrite contents_alt; cbn.
    destruct (v_addr v); [|reflexivity]. apply ntake_0.
  - rewrite <- slice_contents by assumption. unfold view_slice. f_equal. f_equal. lia.
Qed.

Lemma range_range {A} (l : list A) a b c d :
  range c d (range a b l) = range (a + c) (N.min b (a + d)) l.
Proof.
  rewrite !range_spec, ndrop_ntake, ntake_ntake, ndrop_ndrop. f_equal. lia.
Qed.

Lemma range_nth {A} (l : list A) from to i :
  nnth (range from to l) i = if from + i <? to then nnth l (from + i) else None.
Proof.
  rewrite range_spec. destruct (N.ltb_spec (from + i) to).
  - rewrite nnth_ntake by lia. now rewrite nnth_ndrop.
  - apply nnth_None. rewrite size_ntake. lia.
Qed.

Lemma load_valid mem v n : valid mem v -> n <= v_size v ->
  load mem (v_addr v) n = Ret (ntake n (contents mem v)).
Proof.
  intros Hv Hn. unfold load, valid in *. rewrite contents_alt.
  destruct (N.eqb_spec n 0) as [->|H0]; [now rewrite ntake_0|].
  destruct (v_addr v) as [a|]; [|lia].
  destruct (N.leb_spec (a + n) (size mem)); [|lia].
  rewrite ntake_ntake. do 2 f_equal. lia.
Qed.

Lemma load_valid_all mem v : valid mem v -> load mem (v_addr v) (v_size v) = Ret (contents mem v).
Proof.
  intros Hv. rewrite load_valid by (assumption || lia). f_equal. apply ntake_all.
  rewrite size_contents by assumption. lia.
Qed.

Lemma list_eqb_eq l m : list_eqb l m = true <-> l = m.
Proof.
  revert m; induction l as [|x l IH]; intros [|y m]; cbn; try (split; congruence).
  rewrite andb_true_iff, N.eqb_eq, IH. split; [intros [-> ->]; reflexivity | intros E; injection E; auto].
Qed.

Lemma equals_iff mem v w : valid mem v -> valid mem w ->
  exists b, view_equals mem v w = Ret b /\ (b = true <-> contents mem v = contents mem w).
Proof.
  intros Hv Hw. unfold view_equals.
  destruct (N.eqb_spec (v_size v) (v_size w)) as [E|E]; cbn [negb].
  2:{ exists false; split; [reflexivity|]. split; [discriminate|]. intros C. exfalso; apply E.
      rewrite <- (size_contents mem v), <- (size_contents mem w), C by assumption. reflexivity. }
  assert (contents mem v = contents mem w -> True) as _ by auto.
  destruct (ptr_eqb (v_addr v) (v_addr w)) eqn:P.
  - exists true; split; [reflexivity|]. split; [intros _|reflexivity].
    rewrite !contents_alt. destruct (v_addr v), (v_addr w); cbn in P; try discriminate; [|reflexivity].
    apply N.eqb_eq in P; subst. now rewrite E.
  - rewrite load_valid_all by assumption. rewrite E, load_valid_all by assumption. cbn [bind].
    eexists; split; [reflexivity|]. apply list_eqb_eq.
Qed.

Lemma index_spec mem v i : valid mem v ->
  view_index mem v i = match nnth (contents mem v) i with
                       | Some b => Ret b
                       | None => Throws IndexOutOfRange
                       end.
Proof.
  intros Hv. unfold view_index. destruct (N.leb_spec (v_size v) i) as [H|H].
  - assert (nnth (contents mem v) i = None) as -> by (apply nnth_None; rewrite size_contents; assumption).
    reflexivity.
  - rewrite contents_alt. unfold load, valid, ptr_add in *. cbn.
    destruct (v_addr v) as [a|]; cbn; [|lia].
    rewrite nnth_ntake, nnth_ndrop by lia.
    destruct (N.leb_spec (a + i + 1) (size mem)); [|lia]. cbn.
    assert (nnth (ndrop (a + i) mem) 0 = nnth mem (a + i)) as <- by (rewrite nnth_ndrop; f_equal; lia).
    assert (0 < size (ndrop (a + i) mem)) as Hs by (rewrite size_ndrop; lia).
    destruct (ndrop (a + i) mem) as [|b t]; [cbn in Hs; lia|]. reflexivity.
Qed.

Lemma store_wrote mem v bs : valid mem v -> size bs <= v_size v ->
  exists mem', store mem (v_addr v) bs = Ret mem' /\ wrote mem mem' v bs.
Proof.
  intros Hv Hs. unfold store. destruct (N.eqb_spec (size bs) 0) as [E|E].
  - exists mem; split; [reflexivity|]. apply size_0_nil in E as ->. split; [reflexivity|].
    intros i. destruct (v_addr v); [|reflexivity]. cbn [length].
    destruct (Nat.leb_spec (N.to_nat n) i); cbn [andb]; [|reflexivity].
    destruct (Nat.ltb_spec i (N.to_nat n + 0)); [lia|reflexivity].
  - unfold valid in Hv. destruct (v_addr v) as [a|] eqn:Ha; [|lia].
    destruct (N.leb_spec (a + size bs) (size mem)) as [L|L]; [|lia].
    eexists; split; [reflexivity|]. split.
    + pose proof (size_overwrite mem bs a L) as S. unfold size in S. lia.
    + intros i. rewrite Ha. pose proof (nnth_overwrite mem bs a (N.of_nat i) L) as S.
      rewrite !nnth_nth_error in S. rewrite !Nat2N.id in S. rewrite S.
      unfold size in *.
      destruct (N.leb_spec a (N.of_nat i)); destruct (Nat.leb_spec (N.to_nat a) i); try lia; cbn [andb]; [|reflexivity].
      destruct (N.ltb_spec (N.of_nat i) (a + N.of_nat (length bs)));
        destruct (Nat.ltb_spec i (N.to_nat a + length bs)); try lia; [|reflexivity].
      f_equal. lia.
Qed.

Lemma write_spec mem v src : valid mem v -> valid mem src ->
  if match v_addr v with None => false | Some _ => v_size src <=? v_size v end
  then exists mem', mview_write mem v src = Ret (Ok tt, mem') /\ wrote mem mem' v (contents mem src)
  else mview_write mem v src = Ret (Err E_DOM, mem).
Proof.
  intros Hv Hs. unfold mview_write. destruct (v_addr v) as [a|] eqn:Ha; [|reflexivity].
  destruct (N.leb_spec (v_size src) (v_size v)) as [L|L].
  2:{ destruct (N.ltb_spec (v_size v) (v_size src)); [reflexivity|lia]. }
  destruct (N.ltb_spec (v_size v) (v_size src)); [lia|].
  destruct (N.ltb_spec 0 (v_size src)) as [P|P].
  - rewrite load_valid_all by assumption. cbn [bind]. rewrite <- Ha.
    destruct (store_wrote mem v (contents mem src)) as (mem' & E & W); [assumption| |].
    { rewrite size_contents; assumption. }
    rewrite E. cbn. eauto.
  - exists mem; split; [reflexivity|].
    assert (contents mem src = []) as -> by (apply size_0_nil; rewrite size_contents by assumption; lia).
    destruct (store_wrote mem v []) as (mem' & E & W); [assumption|cbn; lia|]. cbn in E. congruence.
Qed.

Lemma read_spec mem v dest : valid mem v -> valid mem dest ->
  if v_size dest <=? v_size v
  then exists mem', mview_read mem v dest = Ret (Ok tt, mem') /\
         wrote mem mem' dest (firstn (N.to_nat (v_size dest)) (contents mem v))
  else mview_read mem v dest = Ret (Err BasicOverflow, mem).
Proof.
  intros Hv Hd. unfold mview_read.
  destruct (N.leb_spec (v_size dest) (v_size v)) as [L|L];
    destruct (N.ltb_spec (v_size v) (v_size dest)); try lia; [|reflexivity].
  rewrite load_valid by assumption. cbn [bind].
  destruct (store_wrote mem dest (ntake (v_size dest) (contents mem v))) as (mem' & E & W); [assumption| |].
  { rewrite size_ntake; lia. }
  rewrite E; cbn. exists mem'; split; [reflexivity|]. now rewrite <- ntake_firstn.
Qed.

Lemma fill_spec mem v b : valid mem v ->
  exists mem', mview_fill mem v b = Ret mem' /\ wrote mem mem' v (repeat b (N.to_nat (v_size v))).
Proof.
  intros Hv. unfold mview_fill. apply store_wrote; [assumption|]. unfold size. rewrite repeat_length. lia.
Qed.

Lemma dataAs_spec mem tsz v : valid mem v ->
  view_dataAs mem tsz v =
    if tsz <=? v_size v then Ret (firstn (N.to_nat tsz) (contents mem v)) else Throws AssertFailed.
Proof.
  intros Hv. unfold view_dataAs. destruct (N.leb_spec tsz (v_size v)); [|reflexivity].
  rewrite load_valid by assumption. now rewrite ntake_firstn.
Qed.

Lemma dataAs_at_spec mem tsz v offset : valid mem v -> offset + tsz < 2 ^ 64 ->
  view_dataAs_at mem tsz v offset =
    if offset + tsz <=? v_size v
    then Ret (range offset (offset + tsz) (contents mem v))
    else Throws AssertFailed.
Proof.
  intros Hv Hw. unfold view_dataAs_at, u64. rewrite N.mod_small by assumption.
  destruct (N.leb_spec (offset + tsz) (v_size v)) as [L|L]; [|reflexivity].
  rewrite range_spec. unfold load, ptr_add, valid in *. rewrite contents_alt.
  destruct (N.eqb_spec tsz 0) as [->|Z].
  { replace (offset + 0 - offset) with 0 by lia. now rewrite ntake_0. }
  destruct (v_addr v) as [a|]; cbn; [|lia].
  destruct (N.leb_spec (a + offset + tsz) (size mem)); [|lia].
  rewrite ndrop_ntake, ntake_ntake, ndrop_ndrop. do 2 f_equal. lia.
Qed.

Lemma sliceFor_spec mem tsz v offset count : valid mem v -> (offset + count) * tsz < 2 ^ 64 ->
  contents mem (view_sliceFor tsz v offset count) =
  range (offset * tsz) ((offset + count) * tsz) (contents mem v).
Proof.
  intros Hv Hw. unfold view_sliceFor, u64.
  destruct (N.eq_dec tsz 0) as [->|Z].
  { rewrite !N.mul_0_r. rewrite N.mod_0_l by lia. now apply slice_contents. }
  rewrite (N.mod_small (offset + count)) by nia.
  rewrite !N.mod_small by nia. now apply slice_contents.
Qed.
