From Verif Require Import Base BaseLemmas MemViewModel MemViewSpec MemViewProofs ByteIOModel ByteIOSpec.

(** ** Integers and bytes *)

Lemma le_store_length n v : length (le_store n v) = n.
Proof. revert v; induction n; intros; cbn; congruence. Qed.

Lemma le_store_spec n v : le_store n v = le_bytes n v.
Proof.
  unfold le_bytes. revert v. induction n as [|n IH]; intros v; [reflexivity|].
  cbn [le_store seq map]. f_equal.
  - cbn. now rewrite N.div_1_r.
  - rewrite IH, <- seq_shift, map_map. apply map_ext. intros i.
    rewrite N.div_div by (try apply N.pow_nonzero; lia). do 2 f_equal.
    rewrite Nat2N.inj_succ, N.pow_succ_r'. reflexivity.
Qed.

Lemma le_load_app a b : le_load (a ++ b) = le_load a + 256 ^ size a * le_load b.
Proof.
  induction a as [|x a IH]; [cbn -[N.pow]; change (256 ^ 0) with 1; lia|].
  cbn [app le_load]. rewrite IH, size_cons.
  replace (size a + 1) with (N.succ (size a)) by lia. rewrite N.pow_succ_r'. nia.
Qed.

Lemma be_value_acc_spec bs acc : be_value_acc acc bs = acc * 256 ^ size bs + le_load (rev bs).
Proof.
  revert acc; induction bs as [|b t IH]; intros acc; [cbn -[N.pow]; change (256 ^ 0) with 1; lia|].
  cbn [be_value_acc rev]. rewrite IH, le_load_app, size_cons, size_rev. cbn [le_load].
  replace (size t + 1) with (N.succ (size t)) by lia. rewrite N.pow_succ_r'. nia.
Qed.

Lemma order_value_le bs : order_value false bs = le_load bs.
Proof. unfold order_value. rewrite be_value_acc_spec, rev_involutive. lia. Qed.
Lemma order_value_be bs : order_value true bs = le_load (rev bs).
Proof. unfold order_value. rewrite be_value_acc_spec. lia. Qed.

Lemma le_load_store n v : v < 256 ^ N.of_nat n -> le_load (le_store n v) = v.
Proof.
  revert v; induction n as [|n IH]; intros v H.
  - cbn in *. lia.
  - cbn [le_store le_load]. rewrite IH.
    + pose proof (N.div_mod v 256). lia.
    + rewrite Nat2N.inj_succ, N.pow_succ_r' in H. apply N.div_lt_upper_bound; lia.
Qed.

Lemma order_value_bytes be n v : v < 256 ^ N.of_nat n -> order_value be (order_bytes be n v) = v.
Proof.
  intros H. unfold order_bytes, be_bytes. destruct be.
  - rewrite order_value_be, rev_involutive, <- le_store_spec. now apply le_load_store.
  - rewrite order_value_le, <- le_store_spec. now apply le_load_store.
Qed.

Lemma order_bytes_length be n v : length (order_bytes be n v) = n.
Proof.
  unfold order_bytes, be_bytes. rewrite <- le_store_spec.
  destruct be; rewrite ?rev_length; apply le_store_length.
Qed.

Lemma order_bytes_ok be n v : bytes_ok (order_bytes be n v).
Proof.
  assert (bytes_ok (le_bytes n v)) as H.
  { unfold bytes_ok, le_bytes. apply Forall_forall. intros x Hx. apply in_map_iff in Hx as (i & <- & _).
    unfold is_byte. apply N.mod_lt. lia. }
  unfold order_bytes, be_bytes. destruct be; [|assumption]. now apply Forall_rev.
Qed.

(** ** Reader *)

Definition rcur (r : reader) : cursor := mkCursor (r_pos r) (r_lim r) (r_buf r).
Definition rinv (r : reader) : Prop := r_pos r <= r_lim r /\ r_lim r <= size (r_buf r) /\ size (r_buf r) < 2 ^ 64.

Lemma storage_valid buf : valid buf (storage_view buf).
Proof. unfold valid, storage_view; cbn. lia. Qed.

Lemma storage_contents buf : contents buf (storage_view buf) = buf.
Proof. rewrite contents_alt; cbn. rewrite ndrop_0. apply ntake_all. lia. Qed.

Lemma section_spec l a n : section l a n = ntake n (ndrop a l).
Proof. unfold section. now rewrite ntake_firstn, ndrop_skipn. Qed.

Lemma sub64_le a b : b <= a -> a < 2 ^ 64 -> sub64 a b = a - b.
Proof.
  intros. unfold sub64, sub_wrap. lia.
Qed.

Lemma storage_slice_read buf from n :
  from + n <= size buf ->
  v_size (view_slice (storage_view buf) from (from + n)) = n /\
  load buf (v_addr (view_slice (storage_view buf) from (from + n))) n = Ret (ntake n (ndrop from buf)).
Proof.
  intros H. unfold view_slice, storage_view, load; cbn.
  split; [lia|].
  destruct (N.eqb_spec n 0) as [->|Z]; [now rewrite ntake_0|].
  replace (N.min from (size buf)) with from by lia.
  destruct (N.leb_spec (from + n) (size buf)); [reflexivity|lia].
Qed.

Lemma r_read_ok r n : rinv r -> r_pos r + n <= r_lim r ->
  r_read r n = Ret (Ok (section (r_buf r) (r_pos r) n), mkReader (r_pos r + n) (r_lim r) (r_buf r)).
Proof.
  intros (H1 & H2 & H3) Hn. unfold r_read, r_remaining. rewrite sub64_le by lia.
  destruct (N.ltb_spec (r_lim r - r_pos r) n); [lia|].
  unfold u64. rewrite N.mod_small by lia.
  destruct (storage_slice_read (r_buf r) (r_pos r) n ltac:(lia)) as (E1 & E2).
  rewrite E1, E2. destruct (N.ltb_spec n n); [lia|]. cbn. now rewrite section_spec.
Qed.

Lemma r_read_fail r n : rinv r -> r_lim r < r_pos r + n -> r_read r n = Ret (Err E_Overflow, r).
Proof.
  intros (H1 & H2 & H3) Hn. unfold r_read, r_remaining. rewrite sub64_le by lia.
  destruct (N.ltb_spec (r_lim r - r_pos r) n); [reflexivity|lia].
Qed.

Lemma storage_index buf p : p < size buf -> view_index buf (storage_view buf) p = Ret (nth (N.to_nat p) buf 0).
Proof.
  intros H. rewrite index_spec by apply storage_valid. rewrite storage_contents, nnth_nth_error.
  rewrite (nth_error_nth' buf 0); [reflexivity|]. unfold size in H. lia.
Qed.

Ltac rcase := repeat match goal with
  | |- context [?a <? ?b] => destruct (N.ltb_spec a b); try lia
  | |- context [?a <=? ?b] => destruct (N.leb_spec a b); try lia
  end.

Lemma swap_host (host_be be : bool) (w : width) (bs : list N) :
  length bs = wbytes w ->
  host_load host_be (match w with
                     | W8 => bs
                     | _ => if be then (if negb host_be then swap_bytes bs else bs)
                            else (if host_be then swap_bytes bs else bs)
                     end) = order_value be bs.
Proof.
  intros L. unfold host_load, swap_bytes.
  assert (forall b : bool, order_value b bs = if b then le_load (rev bs) else le_load bs) as E.
  { intros []; [apply order_value_be | apply order_value_le]. }
  rewrite E.
  destruct w; [|destruct host_be, be; cbn [negb]; rewrite ?rev_involutive; reflexivity ..].
  destruct bs as [|x [|y t]]; cbn in L; try discriminate. destruct host_be, be; reflexivity.
Qed.

Lemma r_step_refines host_be r op c' o : rinv r -> rop_ok op ->
  c_step (rcur r) op = Some (o, c') ->
  exists r', r_step host_be r op = Ret (o, r') /\ rcur r' = c' /\ rinv r' /\ r_buf r' = r_buf r.
Proof.
  intros I Hok E. pose proof I as (H1 & H2 & H3).
  assert (Hs : N.of_nat (length (r_buf r)) = size (r_buf r)) by reflexivity.
  destruct op; cbn [c_step rcur c_pos c_lim c_bytes] in E; cbn [r_step]; cbn [rop_ok] in Hok.
  - (* limit *) unfold r_limit. rewrite Hs in E.
    destruct (size (r_buf r) <? n) eqn:C.
    + injection E as <- <-. eexists; repeat split; eauto.
    + destruct (N.ltb_spec n (r_pos r)); [discriminate|]. injection E as <- <-.
      apply N.ltb_ge in C. eexists; repeat split; cbn; eauto.
  - unfold r_position. destruct (N.ltb_spec (r_lim r) n); injection E as <- <-; eexists; repeat split; cbn; eauto; lia.
  - unfold r_advance, r_remaining. rewrite sub64_le by lia.
    destruct (N.ltb_spec (r_lim r) (r_pos r + n)); injection E as <- <-; rcase.
    + eexists; repeat split; eauto.
    + unfold u64; rewrite N.mod_small by lia. eexists; repeat split; cbn; eauto.
  - unfold r_get, r_remaining. rewrite sub64_le by lia.
    destruct (N.ltb_spec (r_lim r) (r_pos r + 1)); injection E as <- <-; rcase.
    + eexists; repeat split; eauto.
    + rewrite storage_index by lia. cbn. unfold u64; rewrite N.mod_small by lia.
      eexists; repeat split; cbn; eauto; lia.
  - unfold r_get_at. destruct (N.ltb_spec (r_lim r) (p + 1)); injection E as <- <-; rcase.
    + eexists; repeat split; eauto.
    + rewrite storage_index by lia. cbn. eexists; repeat split; eauto.
  - destruct (N.ltb_spec (r_lim r) (r_pos r + n)); injection E as <- <-.
    + rewrite r_read_fail by assumption. eexists; repeat split; eauto.
    + rewrite r_read_ok by (assumption || lia). eexists; repeat split; cbn; eauto; lia.
  - unfold r_read_at. destruct (N.ltb_spec (r_lim r) (offset + n)) as [L|L]; injection E as <- <-.
    + destruct (N.ltb_spec (r_lim r) (u64 (offset + n))) as [L2|L2]; [eexists; repeat split; eauto|].
      assert (2 ^ 64 <= offset + n) as W.
      { unfold u64 in L2. destruct (N.lt_ge_cases (offset + n) (2 ^ 64)); [rewrite N.mod_small in L2 by assumption; lia|assumption]. }
      assert (u64 (offset + n) = offset + n - 2 ^ 64) as U.
      { unfold u64. rewrite <- (N.mod_small (offset + n - 2 ^ 64) (2 ^ 64)) by lia.
        rewrite <- (N.mod_add (offset + n - 2 ^ 64) 1 (2 ^ 64)) by lia. f_equal. lia. }
      unfold view_slice, storage_view; cbn. rewrite U.
      match goal with |- context [if ?x <? n then _ else _] => destruct (N.ltb_spec x n) as [L3|L3]; [|lia] end.
      eexists; repeat split; eauto.
    + unfold u64. rewrite N.mod_small by lia. destruct (N.ltb_spec (r_lim r) (offset + n)); [lia|].
      destruct (storage_slice_read (r_buf r) offset n ltac:(lia)) as (E1 & E2).
      rewrite E1, E2. destruct (N.ltb_spec n n); [lia|]. cbn. rewrite <- section_spec.
      eexists; repeat split; eauto.
  - unfold r_readInt. destruct (N.ltb_spec (r_lim r) (r_pos r + N.of_nat (wbytes w))); injection E as <- <-.
    + rewrite r_read_fail by assumption. eexists; repeat split; eauto.
    + rewrite r_read_ok by (assumption || lia). cbn [bind rmap]. rewrite swap_host.
      2:{ unfold section. rewrite firstn_length, skipn_length. unfold size in *. lia. }
      eexists; repeat split; cbn; eauto; lia.
  - injection E as <- <-. eexists; repeat split; cbn; eauto; lia.
Qed.

Lemma r_run_refines host_be ops : forall r c' os, rinv r -> Forall rop_ok ops ->
  c_run (rcur r) ops = Some (os, c') ->
  exists r', r_run host_be r ops = Ret (os, r') /\ rcur r' = c' /\ rinv r' /\ r_buf r' = r_buf r.
Proof.
  induction ops as [|op ops IH]; intros r c' os I F E; cbn [c_run] in E.
  - injection E as <- <-. eexists; repeat split; cbn; eauto; apply I.
  - inversion F as [|? ? F1 F2]; subst.
    destruct (c_step (rcur r) op) as [[o c1]|] eqn:S; [|discriminate].
    destruct (r_step_refines host_be r op c1 o I F1 S) as (r1 & E1 & <- & I1 & B1).
    destruct (c_run (rcur r1) ops) as [[os2 c2]|] eqn:R; [|discriminate].
    injection E as <- <-.
    destruct (IH r1 c2 os2 I1 F2 R) as (r2 & E2 & <- & I2 & B2).
    exists r2. cbn [r_run]. rewrite E1. cbn [bind fst snd]. rewrite E2. cbn.
    repeat split; try apply I2. congruence.
Qed.

Lemma reader_make_inv buf : size buf < 2 ^ 64 -> rinv (reader_make buf).
Proof. intros. unfold rinv, reader_make; cbn. lia. Qed.

(** Unrestricted histories: the reader never touches memory outside its buffer
    and never modifies it. *)
Lemma slice_in_storage buf from to n :
  ~ (v_size (view_slice (storage_view buf) from to) < n) ->
  exists bs, load buf (v_addr (view_slice (storage_view buf) from to)) n = Ret bs.
Proof.
  intros H. rewrite (load_valid buf _ n); [eauto| |lia]. apply slice_valid, storage_valid.
Qed.

Lemma storage_index_cases buf p :
  (exists b, view_index buf (storage_view buf) p = Ret b) \/
  view_index buf (storage_view buf) p = Throws IndexOutOfRange.
Proof.
  rewrite index_spec by apply storage_valid. destruct (nnth _ p); eauto.
Qed.

Lemma r_read_safe r n : exists p, r_read r n = Ret p /\ r_buf (snd p) = r_buf r.
Proof.
  unfold r_read. destruct (_ <? n); [eexists; split; reflexivity|].
  match goal with |- context [if ?x <? n then _ else _] => destruct (N.ltb_spec x n) as [L|L] end;
    [eexists; split; reflexivity|].
  destruct (slice_in_storage (r_buf r) (r_pos r) (u64 (r_pos r + n)) n ltac:(lia)) as (bs & E).
  rewrite E. eexists; split; reflexivity.
Qed.

Lemma r_step_safe host_be r op :
  r_step host_be r op = Terminates \/
  exists o r', r_step host_be r op = Ret (o, r') /\ r_buf r' = r_buf r.
Proof.
  destruct op; cbn [r_step].
  - right. unfold r_limit. destruct (_ <? n); do 2 eexists; split; reflexivity.
  - right. unfold r_position. destruct (_ <? n); do 2 eexists; split; reflexivity.
  - right. unfold r_advance. destruct (_ <? n); do 2 eexists; split; reflexivity.
  - unfold r_get. destruct (_ <? 1); [right; do 2 eexists; split; reflexivity|].
    destruct (storage_index_cases (r_buf r) (r_pos r)) as [(b & E)|E]; rewrite E; cbn; [right|left; reflexivity].
    do 2 eexists; split; reflexivity.
  - unfold r_get_at. destruct (_ <=? p); [right; do 2 eexists; split; reflexivity|].
    destruct (storage_index_cases (r_buf r) p) as [(b & E)|E]; rewrite E; cbn; [right|left; reflexivity].
    do 2 eexists; split; reflexivity.
  - right. destruct (r_read_safe r n) as ([[bs|e] r'] & E & B); rewrite E; do 2 eexists; split; cbn; eauto.
  - right. unfold r_read_at. destruct (_ <? u64 _); [do 2 eexists; split; reflexivity|].
    match goal with |- context [if ?x <? n then _ else _] => destruct (N.ltb_spec x n) as [L|L] end;
      [do 2 eexists; split; reflexivity|].
    destruct (slice_in_storage (r_buf r) offset (u64 (offset + n)) n ltac:(lia)) as (bs & E).
    rewrite E. do 2 eexists; split; reflexivity.
  - right. unfold r_readInt. destruct (r_read_safe r (N.of_nat (wbytes w))) as ([[bs|e] r'] & E & B); rewrite E; cbn;
      do 2 eexists; split; cbn; eauto.
  - right. do 2 eexists; split; reflexivity.
Qed.

Lemma r_run_safe host_be ops : forall r,
  r_run host_be r ops = Terminates \/
  exists os r', r_run host_be r ops = Ret (os, r') /\ r_buf r' = r_buf r.
Proof.
  induction ops as [|op ops IH]; intros r; cbn [r_run].
  - right; do 2 eexists; split; reflexivity.
  - destruct (r_step_safe host_be r op) as [E|(o & r1 & E & B)]; rewrite E; cbn [bind fst snd]; [left; reflexivity|].
    destruct (IH r1) as [E2|(os & r2 & E2 & B2)]; rewrite E2; cbn; [left; reflexivity|].
    right. do 2 eexists; split; [reflexivity|]. cbn. congruence.
Qed.

(** ** Writer *)

Definition wcur (w : writer) : wcursor := mkWCursor (w_pos w) (w_lim w) (w_buf w).
Definition winv (w : writer) : Prop := w_pos w <= w_lim w /\ w_lim w <= size (w_buf w) /\ size (w_buf w) < 2 ^ 64.

Lemma overwrite_spliced l pos bs : overwrite l pos bs = spliced l pos bs.
Proof.
  unfold overwrite, spliced. rewrite ntake_firstn, ndrop_skipn. do 3 f_equal. unfold size. lia.
Qed.

Lemma size_spliced l pos bs : pos + size bs <= size l -> size (spliced l pos bs) = size l.
Proof. intros. rewrite <- overwrite_spliced. now apply size_overwrite. Qed.

Lemma mview_slice_storage buf from n : 0 < n -> from <= size buf ->
  v_size (mview_slice (storage_view buf) from (from + n)) = N.min (from + n) (size buf) - from /\
  v_addr (mview_slice (storage_view buf) from (from + n)) = Some from.
Proof.
  intros Hn H. unfold mview_slice, storage_view; cbn.
  destruct (N.eqb_spec from (from + n)); [lia|]. cbn. split; [lia|]. f_equal. lia.
Qed.

Lemma mview_slice_storage_any buf from to :
  exists a, v_addr (mview_slice (storage_view buf) from to) = Some a /\
            a + v_size (mview_slice (storage_view buf) from to) <= size buf.
Proof.
  pose proof (mslice_valid buf (storage_view buf) from to (storage_valid buf)) as V.
  unfold valid, mview_slice, storage_view in *. destruct (from =? to); cbn in *; eexists; split; eauto; lia.
Qed.

Lemma w_write_spec w bs : winv w -> size bs < 2 ^ 64 ->
  w_write w bs =
    if w_pos w + size bs <=? w_lim w
    then Ret (Ok tt, mkWriter (w_pos w + size bs) (w_lim w) (spliced (w_buf w) (w_pos w) bs))
    else if size (w_buf w) <? w_pos w + size bs
    then Ret (Err E_Overflow, w)
    else Ret (Err E_Overflow, mkWriter (w_pos w) (w_lim w) (spliced (w_buf w) (w_pos w) bs)).
Proof.
  intros (H1 & H2 & H3) Hb. unfold w_write.
  destruct (N.eqb_spec (size bs) 0) as [Z|Z].
  { apply size_0_nil in Z as ->. rewrite size_nil, N.add_0_r. rcase.
    rewrite <- overwrite_spliced. unfold overwrite. rewrite size_nil, N.add_0_r.
    cbn [app]. rewrite ntake_ndrop. destruct w; reflexivity. }
  destruct (N.lt_ge_cases (w_pos w + size bs) (2 ^ 64)) as [W|W].
  2:{ (* the end wraps: the slice is empty *)
      destruct (N.leb_spec (w_pos w + size bs) (w_lim w)); [lia|].
      destruct (N.ltb_spec (size (w_buf w)) (w_pos w + size bs)); [|lia].
      assert (u64 (w_pos w + size bs) = w_pos w + size bs - 2 ^ 64) as U.
      { unfold u64. rewrite <- (N.mod_small (w_pos w + size bs - 2 ^ 64) (2 ^ 64)) by lia.
        rewrite <- (N.mod_add (w_pos w + size bs - 2 ^ 64) 1 (2 ^ 64)) by lia. f_equal. lia. }
      rewrite U. unfold mview_slice, storage_view; cbn.
      match goal with |- context [w_pos w =? ?x] => destruct (N.eqb_spec (w_pos w) x) end; cbn; rcase; reflexivity. }
  unfold u64 at 1 2. rewrite N.mod_small by lia.
  destruct (mview_slice_storage (w_buf w) (w_pos w) (size bs) ltac:(lia) ltac:(lia)) as (E1 & E2).
  rewrite E1, E2.
  destruct (N.leb_spec (w_pos w + size bs) (w_lim w)) as [L|L].
  - rcase. unfold store. destruct (N.eqb_spec (size bs) 0); [lia|]. rcase. cbn [bind].
    unfold w_advance, w_remaining; cbn. rewrite sub64_le by lia. rcase.
    unfold u64. rewrite N.mod_small by lia. now rewrite overwrite_spliced.
  - destruct (N.ltb_spec (size (w_buf w)) (w_pos w + size bs)) as [C|C].
    + rcase. reflexivity.
    + rcase. unfold store. destruct (N.eqb_spec (size bs) 0); [lia|]. rcase. cbn [bind].
      unfold w_advance, w_remaining; cbn. rewrite sub64_le by lia. rcase.
      now rewrite overwrite_spliced.
Qed.

Lemma swap_store (host_be be : bool) (w : width) (v : N) :
  match w with
  | W8 => host_store host_be w v
  | _ => if be then (if negb host_be then swap_bytes (host_store host_be w v) else host_store host_be w v)
         else (if host_be then swap_bytes (host_store host_be w v) else host_store host_be w v)
  end = order_bytes be (wbytes w) v.
Proof.
  unfold host_store, swap_bytes, order_bytes, be_bytes. rewrite <- le_store_spec.
  destruct w; [|destruct host_be, be; cbn [negb]; rewrite ?rev_involutive; reflexivity ..].
  destruct host_be, be; reflexivity.
Qed.

Lemma host_store_order host_be w v : host_store host_be w v = order_bytes host_be (wbytes w) v.
Proof. unfold host_store, order_bytes, be_bytes. rewrite <- le_store_spec. now destruct host_be. Qed.

Lemma w_write_full w bs : winv w -> size bs < 2 ^ 64 -> w_lim w = size (w_buf w) ->
  exists w', w_write w bs = Ret (fst (wc_write (wcur w) bs), w') /\
             wcur w' = snd (wc_write (wcur w) bs) /\ winv w' /\ size (w_buf w') = size (w_buf w).
Proof.
  intros I Hb Hl. pose proof I as (H1 & H2 & H3). rewrite w_write_spec by assumption.
  unfold wc_write, wcur; cbn [wc_pos wc_lim wc_bytes]. change (N.of_nat (length bs)) with (size bs).
  destruct (N.leb_spec (w_pos w + size bs) (w_lim w)) as [L|L]; rcase.
  - eexists; repeat split; cbn; eauto; try lia; rewrite size_spliced; lia.
  - eexists; repeat split; cbn; eauto; lia.
Qed.

Lemma w_step_refines host_be w op o c' : winv w -> wop_ok op -> never_lowers_limit op ->
  w_lim w = size (w_buf w) ->
  wc_step host_be (wcur w) op = Some (o, c') ->
  exists w', w_step host_be w op = Ret (o, w') /\ wcur w' = c' /\ winv w' /\ w_lim w' = size (w_buf w').
Proof.
  intros I Hok Hn Hl E. pose proof I as (H1 & H2 & H3).
  destruct op; cbn [wc_step] in E; cbn [w_step]; cbn in Hn; try tauto; cbn [wop_ok] in Hok.
  - cbn in E. unfold w_position. destruct (N.ltb_spec (w_lim w) n); injection E as <- <-; eexists; repeat split; cbn; eauto; lia.
  - cbn in E. unfold w_advance, w_remaining. rewrite sub64_le by lia.
    destruct (N.ltb_spec (w_lim w) (w_pos w + n)); injection E as <- <-; rcase.
    + eexists; repeat split; eauto.
    + unfold u64; rewrite N.mod_small by lia. eexists; repeat split; cbn; eauto.
  - destruct (w_write_full w bs I Hok Hl) as (w' & E1 & E2 & I' & S). injection E as E.
    rewrite E1. rewrite E in *. cbn in *. exists w'; repeat split; auto; try apply I'.
    unfold wc_write in E. destruct (_ <? _) in E; injection E as _ <-;
      unfold wcur in E2; cbn in E2; injection E2; intros; congruence.
  - unfold w_writeInt. rewrite swap_store.
    assert (size (order_bytes be (wbytes wd) v) < 2 ^ 64) as Hb
      by (unfold size; rewrite order_bytes_length; destruct wd; cbn; lia).
    destruct (w_write_full w _ I Hb Hl) as (w' & E1 & E2 & I' & S). injection E as E.
    rewrite E1. rewrite E in *. cbn in *. exists w'; repeat split; auto; try apply I'.
    unfold wc_write in E. destruct (_ <? _) in E; injection E as _ <-;
      unfold wcur in E2; cbn in E2; injection E2; intros; congruence.
  - unfold w_writeRaw. rewrite host_store_order.
    assert (size (order_bytes host_be (wbytes wd) v) < 2 ^ 64) as Hb
      by (unfold size; rewrite order_bytes_length; destruct wd; cbn; lia).
    destruct (w_write_full w _ I Hb Hl) as (w' & E1 & E2 & I' & S). injection E as E.
    rewrite E1. rewrite E in *. cbn in *. exists w'; repeat split; auto; try apply I'.
    unfold wc_write in E. destruct (_ <? _) in E; injection E as _ <-;
      unfold wcur in E2; cbn in E2; injection E2; intros; congruence.
  - cbn in E. injection E as <- <-. eexists; repeat split; cbn; eauto; lia.
  - cbn in E. injection E as <- <-. eexists; repeat split; cbn; eauto; lia.
Qed.

Lemma w_run_refines host_be ops : forall w c' os, winv w -> Forall wop_ok ops -> Forall never_lowers_limit ops ->
  w_lim w = size (w_buf w) ->
  wc_run host_be (wcur w) ops = Some (os, c') ->
  exists w', w_run host_be w ops = Ret (os, w') /\ wcur w' = c'.
Proof.
  induction ops as [|op ops IH]; intros w c' os I F G Hl E; cbn [wc_run] in E.
  - injection E as <- <-. eexists; repeat split.
  - inversion F as [|? ? F1 F2]; inversion G as [|? ? G1 G2]; subst.
    destruct (wc_step host_be (wcur w) op) as [[o c1]|] eqn:S; [|discriminate].
    destruct (w_step_refines host_be w op o c1 I F1 G1 Hl S) as (w1 & E1 & <- & I1 & L1).
    destruct (wc_run host_be (wcur w1) ops) as [[os2 c2]|] eqn:R; [|discriminate].
    injection E as <- <-.
    destruct (IH w1 c2 os2 I1 F2 G2 L1 R) as (w2 & E2 & <-).
    exists w2. cbn [w_run]. rewrite E1. cbn [bind fst snd]. rewrite E2. auto.
Qed.

Lemma writer_make_inv buf : size buf < 2 ^ 64 -> winv (writer_make buf).
Proof. intros. unfold winv, writer_make; cbn. lia. Qed.

(** The abstract run always exists when the limit is never lowered. *)
Lemma wc_run_total host_be ops : forall c, Forall never_lowers_limit ops -> exists p, wc_run host_be c ops = Some p.
Proof.
  induction ops as [|op ops IH]; intros c F; [cbn; eauto|].
  inversion F as [|? ? F1 F2]; subst. cbn [wc_run].
  assert (exists o c', wc_step host_be c op = Some (o, c')) as (o & c' & E).
  { destruct op; cbn in F1; try tauto; cbn [wc_step];
      repeat match goal with |- context [if ?b then _ else _] => destruct b end; try (eauto; fail);
      match goal with |- context [wc_write ?a ?b] => destruct (wc_write a b); eauto end. }
  rewrite E. destruct (IH c' F2) as ([os c2] & R). rewrite R. eauto.
Qed.

(** Unrestricted histories: the writer never writes outside its buffer. *)
Lemma w_write_safe w bs : exists o w', w_write w bs = Ret (o, w') /\ size (w_buf w') = size (w_buf w).
Proof.
  unfold w_write. destruct (size bs =? 0); [do 2 eexists; split; reflexivity|].
  match goal with |- context [if ?x <? size bs then _ else _] => destruct (N.ltb_spec x (size bs)) as [L|L] end;
    [do 2 eexists; split; reflexivity|].
  destruct (mview_slice_storage_any (w_buf w) (w_pos w) (u64 (w_pos w + size bs))) as (a & E & B).
  rewrite E. unfold store. destruct (size bs =? 0); cbn [bind].
  - unfold w_advance. destruct (_ <? _); do 2 eexists; split; reflexivity.
  - rcase. cbn [bind]. unfold w_advance. destruct (_ <? _); do 2 eexists; (split; [reflexivity|]); cbn;
      apply size_overwrite; lia.
Qed.

Lemma w_step_safe host_be w op : exists o w', w_step host_be w op = Ret (o, w') /\ size (w_buf w') = size (w_buf w).
Proof.
  destruct op; cbn [w_step].
  - unfold w_limit. destruct (_ <? n); do 2 eexists; split; reflexivity.
  - unfold w_position. destruct (_ <? n); do 2 eexists; split; reflexivity.
  - unfold w_advance. destruct (_ <? n); do 2 eexists; split; reflexivity.
  - apply w_write_safe.
  - apply w_write_safe.
  - apply w_write_safe.
  - do 2 eexists; split; reflexivity.
  - do 2 eexists; split; reflexivity.
  - do 2 eexists; split; reflexivity.
Qed.

Lemma w_run_safe host_be ops : forall w, exists os w', w_run host_be w ops = Ret (os, w') /\ size (w_buf w') = size (w_buf w).
Proof.
  induction ops as [|op ops IH]; intros w; cbn [w_run]; [do 2 eexists; split; reflexivity|].
  destruct (w_step_safe host_be w op) as (o & w1 & E & B); rewrite E; cbn [bind fst snd].
  destruct (IH w1) as (os & w2 & E2 & B2); rewrite E2. do 2 eexists; split; [reflexivity|]. cbn. congruence.
Qed.

(** ** Records *)

Definition field_bytes (f : field) : list N :=
  match f with FInt be w v => order_bytes be (wbytes w) v | FBytes bs => bs end.

Lemma size_field_bytes f : size (field_bytes f) = field_size f.
Proof. destruct f; cbn; [|reflexivity]. unfold size. now rewrite order_bytes_length. Qed.

Lemma w_put_field host_be f w : winv w -> w_pos w + field_size f <= w_lim w ->
  w_step host_be w (put_field f) =
  Ret (Ok tt, mkWriter (w_pos w + field_size f) (w_lim w) (spliced (w_buf w) (w_pos w) (field_bytes f))).
Proof.
  intros I L. pose proof I as (H1 & H2 & H3). rewrite <- size_field_bytes in *.
  assert (w_step host_be w (put_field f) = w_write w (field_bytes f)) as ->.
  { destruct f; cbn; [|reflexivity]. unfold w_writeInt. now rewrite swap_store. }
  rewrite w_write_spec by (assumption || lia). rcase. reflexivity.
Qed.

Lemma spliced_prefix l pos bs : pos + size bs <= size l ->
  ntake (pos + size bs) (spliced l pos bs) = ntake pos l ++ bs.
Proof.
  intros H. rewrite <- overwrite_spliced. unfold overwrite.
  rewrite app_assoc. rewrite ntake_app.
  rewrite ntake_all by (rewrite size_app, size_ntake; lia).
  rewrite size_app, size_ntake. replace (pos + size bs - _) with 0 by lia.
  rewrite ntake_0. apply app_nil_r.
Qed.

Lemma w_put_fields host_be fs : forall w, winv w -> w_pos w + record_size fs <= w_lim w ->
  exists w', w_run host_be w (map put_field fs) = Ret (map (fun _ => Ok tt) fs, w') /\
    w_pos w' = w_pos w + record_size fs /\
    ntake (w_pos w') (w_buf w') = ntake (w_pos w) (w_buf w) ++ concat (map field_bytes fs) /\
    size (w_buf w') = size (w_buf w).
Proof.
  induction fs as [|f fs IH]; intros w I L.
  - cbn in *. exists w. rewrite app_nil_r. repeat split. lia.
  - cbn [record_size fold_right] in L. fold (record_size fs) in L. pose proof I as (H1 & H2 & H3).
    cbn [map w_run]. rewrite w_put_field by (assumption || lia). cbn [bind fst snd].
    pose proof (size_field_bytes f) as Hf.
    destruct (IH (mkWriter (w_pos w + field_size f) (w_lim w) (spliced (w_buf w) (w_pos w) (field_bytes f)))) as (w' & E & P & B & S).
    { repeat split; cbn; rewrite ?size_spliced; lia. }
    { cbn. lia. }
    rewrite E. cbn in *. exists w'. split; [reflexivity|]. split; [|split].
    + rewrite P. unfold record_size. lia.
    + rewrite B. rewrite <- Hf, spliced_prefix by lia. now rewrite <- app_assoc.
    + rewrite S. apply size_spliced. lia.
Qed.

Lemma section_app pre bs suf : section (pre ++ bs ++ suf) (size pre) (size bs) = bs.
Proof. rewrite section_spec, ndrop_app_exact, ntake_app_exact. reflexivity. Qed.

Lemma c_get_fields fs : forall pre, Forall field_ok fs ->
  let l := pre ++ concat (map field_bytes fs) in
  c_run (mkCursor (size pre) (size l) l) (map get_field fs) =
  Some (map field_value fs, mkCursor (size l) (size l) l).
Proof.
  induction fs as [|f fs IH]; intros pre F l.
  - cbn [map c_run]. subst l. cbn. now rewrite app_nil_r.
  - inversion F as [|? ? F1 F2]; subst. subst l. cbn [map concat].
    set (l := pre ++ field_bytes f ++ concat (map field_bytes fs)).
    assert (c_step (mkCursor (size pre) (size l) l) (get_field f) =
            Some (field_value f, mkCursor (size (pre ++ field_bytes f)) (size l) l)) as S.
    { assert (size pre + field_size f <= size l) as Hl.
      { subst l. rewrite !size_app, size_field_bytes. lia. }
      pose proof (section_app pre (field_bytes f) (concat (map field_bytes fs))) as A. fold l in A.
      rewrite size_field_bytes in A. rewrite size_app, size_field_bytes.
      destruct f as [be w v|bs]; cbn [get_field c_step c_pos c_lim c_bytes field_size field_value] in *; rcase.
      - rewrite A. cbn [field_bytes]. rewrite order_value_bytes by exact F1. reflexivity.
      - rewrite A. reflexivity. }
    cbn [c_run]. rewrite S.
    specialize (IH (pre ++ field_bytes f) F2). cbn zeta in IH. rewrite <- app_assoc in IH. fold l in IH.
    rewrite IH. reflexivity.
Qed.

Lemma record_roundtrip host_w host_r fs buf : Forall field_ok fs -> record_size fs <= size buf -> size buf < 2 ^ 64 ->
  exists w', w_run host_w (writer_make buf) (map put_field fs) = Ret (map (fun _ => Ok tt) fs, w') /\
  exists r', r_run host_r (reader_make (contents (w_buf w') (w_viewWritten w'))) (map get_field fs)
             = Ret (map field_value fs, r') /\ r_pos r' = r_lim r' /\ r_lim r' = record_size fs.
Proof.
  intros F L Hs.
  destruct (w_put_fields host_w fs (writer_make buf)) as (w' & E & P & B & S).
  { now apply writer_make_inv. } { cbn. lia. }
  cbn in P, B, S. exists w'. split; [exact E|].
  assert (contents (w_buf w') (w_viewWritten w') = concat (map field_bytes fs)) as ->.
  { unfold w_viewWritten. rewrite slice_contents by apply storage_valid. rewrite storage_contents, range_spec.
    rewrite ndrop_0, N.sub_0_r, B. now rewrite ntake_0. }
  pose proof (c_get_fields fs [] F) as C. cbn [app] in C. cbn zeta in C.
  assert (size (concat (map field_bytes fs)) = record_size fs) as Sz.
  { clear. induction fs as [|f fs IH]; [reflexivity|]. cbn. rewrite size_app, IH, size_field_bytes. reflexivity. }
  assert (rinv (reader_make (concat (map field_bytes fs)))) as I by (apply reader_make_inv; lia).
  assert (Forall rop_ok (map get_field fs)) as FO.
  { apply Forall_forall. intros op Hop. apply in_map_iff in Hop as (f & <- & Hf).
    assert (field_size f <= record_size fs) as Hle.
    { clear -Hf. induction fs as [|g fs IH]; [destruct Hf|]. cbn. destruct Hf as [->|Hf]; [lia|].
      specialize (IH Hf). unfold record_size in IH. lia. }
    destruct f; cbn in *; [exact Logic.I|]. lia. }
  destruct (r_run_refines host_r _ _ _ _ I FO C) as (r' & E' & C' & I' & B').
  exists r'. split; [exact E'|]. unfold rcur in C'. injection C' as C1 C2 C3. split; congruence.
Qed.

(** ** Bytes are delivered in order *)

Definition is_next (op : rop) : Prop :=
  match op with RGet => True | RRead n => n < 2 ^ 64 | _ => False end.

Lemma section_succ_nth l p : p < size l -> section l p 1 = [nth (N.to_nat p) l 0].
Proof.
  intros H. rewrite section_spec.
  assert (size (ntake 1 (ndrop p l)) = 1) as S by (rewrite size_ntake, size_ndrop; lia).
  assert (nnth (ntake 1 (ndrop p l)) 0 = Some (nth (N.to_nat p) l 0)) as E.
  { rewrite nnth_ntake, nnth_ndrop by lia. rewrite nnth_nth_error. replace (p + 0) with p by lia.
    apply nth_error_nth'. unfold size in H. lia. }
  destruct (ntake 1 (ndrop p l)) as [|x [|y t]]; cbn in E.
  - discriminate.
  - congruence.
  - rewrite !size_cons in S. lia.
Qed.

Definition delivered (o : result rout) : list N :=
  match o with Ok (OByte b) => [b] | Ok (OBytes bs) => bs | _ => [] end.

Lemma firstn_section l p n : ntake p l ++ section l p n = ntake (p + n) l.
Proof.
  rewrite section_spec. revert p. induction l as [|x l IH]; intros p; [reflexivity|].
  cbn [ntake ndrop].
  destruct (N.eqb_spec p 0) as [->|Z].
  - rewrite N.add_0_l. reflexivity.
  - destruct (N.eqb_spec (p + n) 0); [lia|]. cbn [app]. f_equal.
    rewrite IH. f_equal. lia.
Qed.

Lemma c_in_order ops : forall c, c_pos c <= c_lim c -> c_lim c <= size (c_bytes c) -> Forall is_next ops ->
  exists os c', c_run c ops = Some (os, c') /\
    c_pos c' <= c_lim c' /\ c_lim c' = c_lim c /\ c_bytes c' = c_bytes c /\
    ntake (c_pos c) (c_bytes c) ++ concat (map delivered os) = ntake (c_pos c') (c_bytes c).
Proof.
  induction ops as [|op ops IH]; intros c H1 H2 F.
  - cbn. do 2 eexists; repeat split; auto. apply app_nil_r.
  - inversion F as [|? ? F1 F2]; subst.
    assert (exists o c1, c_step c op = Some (o, c1) /\ c_pos c1 <= c_lim c1 /\ c_lim c1 = c_lim c /\
      c_bytes c1 = c_bytes c /\ ntake (c_pos c) (c_bytes c) ++ delivered o = ntake (c_pos c1) (c_bytes c))
      as (o & c1 & E & A1 & A2 & A3 & A4).
    { destruct op; cbn in F1; try tauto; cbn [c_step].
      - destruct (N.ltb_spec (c_lim c) (c_pos c + 1)).
        + do 2 eexists; repeat split; auto. apply app_nil_r.
        + do 2 eexists; repeat split; cbn; auto.
          rewrite <- firstn_section, section_succ_nth by lia. reflexivity.
      - destruct (N.ltb_spec (c_lim c) (c_pos c + n)).
        + do 2 eexists; repeat split; auto. apply app_nil_r.
        + do 2 eexists; repeat split; cbn; auto. apply firstn_section. }
    destruct (IH c1) as (os & c2 & E2 & B1 & B2 & B3 & B4); auto; [congruence|].
    cbn [c_run]. rewrite E, E2. do 2 eexists; repeat split; auto; try congruence.
    cbn [map concat]. rewrite app_assoc, A4. rewrite A3 in B4. exact B4.
Qed.

Lemma reader_in_order host_be buf ops : size buf < 2 ^ 64 -> Forall is_next ops ->
  exists os r', r_run host_be (reader_make buf) ops = Ret (os, r') /\
    concat (map delivered os) = ntake (r_pos r') buf /\ r_pos r' <= size buf.
Proof.
  intros Hs F. destruct (c_in_order ops (rcur (reader_make buf))) as (os & c' & E & B1 & B2 & B3 & B4); cbn; [lia|lia|assumption|].
  destruct (r_run_refines host_be ops (reader_make buf) c' os) as (r' & E' & <- & I' & B'); auto.
  { now apply reader_make_inv. }
  { revert F. apply Forall_impl. intros []; cbn; tauto. }
  exists os, r'. split; [exact E'|]. cbn in *. rewrite ntake_0 in B4. cbn in B4. split; [exact B4|]. lia.
Qed.
