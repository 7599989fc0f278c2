From Verif Require Import Base BaseLemmas MemViewModel MemViewSpec MemViewProofs ByteIOModel ByteIOSpec ByteIOProofs.
From Verif Require Import Base16Proofs StringModel StringViewModel StringViewProofs StringProofs.
From Verif Require Import FmtModel FmtSpec FmtProofs BuilderModel BuilderSpec.
Ltac Zify.zify_post_hook ::= Z.div_mod_to_equations.

(** The builder [w] over a buffer of [cap] bytes holds the text [t]. *)
Definition holds (cap : N) (w : writer) (t : list N) : Prop :=
  size (w_buf w) = cap /\ w_lim w = cap /\ w_pos w = size t /\ size t <= cap /\ cap < 2 ^ 64 /\
  ntake (size t) (w_buf w) = t.

Lemma holds_make buf : size buf < 2 ^ 64 -> holds (size buf) (sb_make buf) [].
Proof. intros H. unfold holds, sb_make, writer_make; cbn [w_buf w_lim w_pos]. rewrite (@size_nil N), ntake_0. repeat split; lia. Qed.
Lemma holds_inv cap w t : holds cap w t -> winv w.
Proof. intros (A & B & C & D & E & F). unfold winv. rewrite A, B, C. lia. Qed.

Lemma text_spec cap w t s : holds cap w t -> size s < 2 ^ 64 ->
  exists w', sb_text w s = Ret w' /\ holds cap w' (if size t + size s <=? cap then t ++ s else t).
Proof.
  intros H L. pose proof (holds_inv _ _ _ H) as I. destruct H as (A & B & C & D & E & F). unfold sb_text.
  destruct (N.leb_spec (size t + size s) cap) as [G|G].
  - rewrite w_write_append by (assumption || lia). cbn [bind snd]. eexists. split; [reflexivity|].
    unfold holds, append; cbn [w_buf w_lim w_pos]. rewrite size_spliced, size_app, A, B, C by lia. repeat split; try lia.
    rewrite spliced_prefix by lia. now rewrite F.
  - rewrite w_write_reject by (assumption || lia). cbn [bind snd]. exists w. split; [reflexivity|]. repeat split; assumption.
Qed.

Lemma overwrite_after {A} (l : list A) p bs : p <= size l -> ntake p (overwrite l p bs) = ntake p l.
Proof.
  intros H. unfold overwrite. rewrite ntake_app, size_ntake, N.min_l by lia. rewrite N.sub_diag, ntake_0, app_nil_r.
  apply ntake_all. rewrite size_ntake. lia.
Qed.

Lemma num_spec cap w t v : holds cap w t -> v < 2 ^ 64 ->
  exists w', sb_num w v = Ret w' /\ holds cap w' (if size t + size (dec v) + 1 <=? cap then t ++ dec v else t).
Proof.
  intros (A & B & C & D & E & F) Hv. unfold sb_num. pose proof (dec_size v Hv) as L. pose proof (dec_pos v) as P.
  assert (K : v_size (w_viewRemaining w) = cap - size t).
  { unfold w_viewRemaining, view_slice, storage_view. cbn [v_size v_addr]. rewrite A, B, C. lia. }
  rewrite K. unfold snprintf. destruct (N.ltb_spec 0 (size (dec v))); [|lia]. cbn [andb].
  destruct (N.ltb_spec (size (dec v)) (cap - size t)) as [G|G].
  - destruct (N.leb_spec (size t + size (dec v) + 1) cap); [|lia].
    destruct (N.eqb_spec (cap - size t) 0); [lia|]. eexists. split; [reflexivity|].
    rewrite (ntake_all _ (dec v)) by lia.
    unfold w_advance, w_remaining. cbn [w_buf w_lim w_pos]. rewrite B, C, sub64_le by lia.
    destruct (N.ltb_spec (cap - size t) (size (dec v))); [lia|]. cbn [snd]. unfold holds. cbn [w_buf w_lim w_pos].
    assert (T : size (dec v ++ [0]) = size (dec v) + 1) by (rewrite size_app; reflexivity).
    rewrite size_overwrite, size_app by lia. unfold u64. rewrite N.mod_small by lia. repeat split; try lia.
    unfold overwrite. rewrite F. rewrite app_assoc, app_assoc, <- app_assoc. rewrite ntake_app. rewrite size_app.
    rewrite N.sub_diag, ntake_0, app_nil_r. apply ntake_all. rewrite size_app. lia.
  - destruct (N.leb_spec (size t + size (dec v) + 1) cap); [lia|]. eexists. split; [reflexivity|].
    unfold holds. cbn [w_buf w_lim w_pos]. destruct (N.eqb_spec (cap - size t) 0); [repeat split; assumption|].
    assert (Z : size (ntake (cap - size t - 1) (dec v) ++ [0]) = cap - size t) by (rewrite size_app, size_ntake; change (size [0]) with 1; lia).
    rewrite size_overwrite by lia. repeat split; try lia. rewrite C, overwrite_after by lia. exact F.
Qed.

Lemma char_count_spec n ch : char_count n ch <= N.of_nat n /\ char_count n ch <= size ch /\
  Forall (fun b => b <> 0) (ntake (char_count n ch) ch) /\ (char_count n ch = N.of_nat n \/ hd 0 (ndrop (char_count n ch) ch) = 0).
Proof.
  revert ch; induction n as [|n IH]; intros [|b t]; cbn [char_count ntake ndrop hd].
  - split; [lia|]. split; [lia|]. split; [constructor|now left].
  - split; [lia|]. split; [lia|]. split; [constructor|now left].
  - split; [lia|]. split; [lia|]. split; [constructor|now right].
  - destruct (N.eqb_spec b 0) as [->|Hb].
    + split; [lia|]. split; [lia|]. split; [constructor|now right].
    + destruct (IH t) as (A & B & C & D). rewrite size_cons. destruct (N.eqb_spec (char_count n t + 1) 0); [lia|].
      replace (N.pred (char_count n t + 1)) with (char_count n t) by lia. split; [lia|]. split; [lia|]. split; [now constructor|].
      destruct D as [D|D]; [left; lia|now right].
Qed.
Lemma wide_renders ch : renders (PWide ch) (char_bytes ch).
Proof.
  cbn [renders]. unfold char_bytes. destruct (char_count_spec 4 ch) as (A & B & C & D).
  assert (S1 : size (ntake (char_count 4 ch) ch) = char_count 4 ch) by (rewrite size_ntake; lia).
  split; [exact C|]. split; [unfold size in S1; lia|]. exists (ndrop (char_count 4 ch) ch). split; [now rewrite ntake_ndrop|].
  destruct D as [D|D]; [left; unfold size in S1; lia|now right].
Qed.
Lemma renders_det p t u : renders p t -> renders p u -> t = u.
Proof.
  destruct p; cbn [renders]; try congruence; [|apply decimal_unique].
  intros (F1 & L1 & r1 & E1 & Z1) (F2 & L2 & r2 & E2 & Z2). subst ch.
  enough (G : forall a x, a ++ r1 = x ++ r2 -> Forall (fun b => b <> 0) a -> Forall (fun b => b <> 0) x ->
     (length a <= 4 -> length x <= 4 -> forall k, length a <= k -> length x <= k -> (length a = k \/ hd 0%N r1 = 0%N) -> (length x = k \/ hd 0%N r2 = 0%N) -> a = x)%nat)
    by (apply (G t u E2 F1 F2 L1 L2 4%nat); assumption).
  clear. induction a as [|b a IH]; intros [|c x] E Fa Fx La Lx k Ka Kx Za Zx; [reflexivity| | |].
  - cbn in *. subst r1. cbn in Za. inversion Fx; subst. lia.
  - cbn in *. subst r2. cbn in Zx. inversion Fa; subst. lia.
  - cbn in E. injection E as -> E. inversion Fa; inversion Fx; subst. cbn [length] in *. f_equal.
    apply (IH x E) with (k := (k - 1)%nat); try assumption; try lia.
Qed.

Definition piece_text (p : piece) : list N :=
  match p with PText s => s | PChar c => [c] | PWide ch => char_bytes ch | PNum v => dec v end.
Lemma piece_renders p : renders p (piece_text p).
Proof. destruct p; try reflexivity; [apply wide_renders|apply dec_spec]. Qed.

Lemma char_is_text host_be w c : is_byte c -> sb_char host_be w c = sb_text w [c].
Proof.
  intros H. unfold sb_char, sb_text, w_writeRaw. rewrite host_store_order. unfold is_byte in H.
  assert (E : order_bytes host_be (wbytes W8) c = [c]) by (destruct host_be; cbn; rewrite N.div_1_r, N.mod_small by lia; reflexivity).
  now rewrite E.
Qed.

Lemma size_char_bytes ch : size (char_bytes ch) <= 4.
Proof. unfold char_bytes. rewrite size_ntake. destruct (char_count_spec 4 ch) as (A & _). lia. Qed.

Lemma append_spec host_be cap w t p : holds cap w t -> piece_ok p ->
  exists w', sb_append host_be w p = Ret w' /\
    holds cap w' (if size t + size (piece_text p) + spare p <=? cap then t ++ piece_text p else t).
Proof.
  intros H Hp. destruct p as [s|c|ch|v]; cbn [sb_append piece_text spare piece_ok] in *; rewrite ?N.add_0_r.
  - apply text_spec; [assumption|lia].
  - rewrite char_is_text by assumption. apply text_spec; [assumption|reflexivity].
  - apply text_spec; [assumption|]. pose proof (size_char_bytes ch). lia.
  - now apply num_spec.
Qed.

Lemma appends_spec host_be cap ps : forall w t, holds cap w t -> Forall piece_ok ps ->
  exists w', sb_appends host_be w ps = Ret w' /\ holds cap w' (accumulate cap t (map (fun p => (p, piece_text p)) ps)).
Proof.
  induction ps as [|p ps IH]; intros w t H F; cbn [sb_appends map accumulate].
  - eauto.
  - inversion F; subst. destruct (append_spec host_be cap w t p H) as (w' & E & H'); [assumption|]. rewrite E. cbn [bind].
    apply IH; assumption.
Qed.

Lemma renders_map ps ts : Forall2 renders ps ts -> combine ps ts = map (fun p => (p, piece_text p)) ps.
Proof.
  induction 1 as [|p t ps ts R F IH]; [reflexivity|]. cbn. rewrite IH. f_equal. f_equal. eapply renders_det; eauto using piece_renders.
Qed.

Lemma view_holds cap w t : holds cap w t -> size t < 2 ^ 16 -> sb_view w = t.
Proof.
  intros (A & B & C & D & E & F) L. unfold sb_view, w_viewWritten, view_slice, storage_view. cbn [v_size v_addr].
  rewrite A, C, F. unfold u16. rewrite N.mod_small by lia. apply ntake_all. lia.
Qed.

Lemma accumulate_fits cap ps : forall acc ts, (forall p t, In (p, t) (combine ps ts) -> True) -> length ps = length ts ->
  size acc + size (concat ts) + 1 <= cap -> accumulate cap acc (combine ps ts) = acc ++ concat ts.
Proof.
  induction ps as [|p ps IH]; intros acc [|t ts] _ L H; cbn in L; try lia; cbn [combine accumulate concat] in *.
  - now rewrite app_nil_r.
  - rewrite size_app in H. destruct (N.leb_spec (size acc + size t + spare p) cap) as [G|G]; [|destruct p; cbn in G; lia].
    rewrite IH; [now rewrite app_assoc|trivial|lia|]. rewrite size_app. lia.
Qed.

(** ** Searching *)
(** A character as the constructors leave it: its bytes, then zeros. *)
Definition char_wf (ch : list N) : Prop := exists k, ch = char_bytes ch ++ repeat 0 k /\ length ch = 4%nat.

Lemma r_read_at_spec r o n : r_lim r <= size (r_buf r) -> size (r_buf r) < 2 ^ 64 -> o + n <= r_lim r ->
  r_read_at r o n = Ret (Ok (ntake n (ndrop o (r_buf r))), r).
Proof.
  intros H1 H2 H3. unfold r_read_at. unfold u64. rewrite N.mod_small by lia. destruct (N.ltb_spec (r_lim r) (o + n)); [lia|].
  unfold view_slice, storage_view. cbn [v_size v_addr ptr_add option_map].
  destruct (N.ltb_spec (N.min (size (r_buf r)) (N.max (o + n) (N.min o (size (r_buf r)))) - N.min o (size (r_buf r))) n); [lia|].
  unfold load. destruct (N.eqb_spec n 0) as [->|Hn].
  - cbn [bind]. now rewrite ntake_0.
  - rewrite N.add_0_l, N.min_l by lia. destruct (N.leb_spec (o + n) (size (r_buf r))); [|lia]. reflexivity.
Qed.

Lemma zeros_overwrite (ch bs : list N) : char_wf ch -> size bs = size (char_bytes ch) -> Forall (fun b => b <> 0) (char_bytes ch) ->
  list_eqb (overwrite [0;0;0;0] 0 bs) ch = true <-> bs = char_bytes ch.
Proof.
  intros (k & E & L) S F. rewrite list_eqb_eq. unfold overwrite. rewrite ntake_0. cbn [app]. rewrite N.add_0_l.
  assert (Z : forall n, ndrop n [0;0;0;0] = repeat 0 (N.to_nat (4 - n))).
  { intros n. rewrite ndrop_skipn. destruct (N.to_nat n) as [|[|[|[|[|m]]]]] eqn:En; cbn [skipn];
    match goal with |- _ = repeat _ ?x => replace x with (4 - N.to_nat n)%nat by lia; rewrite En end; reflexivity. }
  rewrite Z. assert (K : (k = N.to_nat (4 - size bs))%nat).
  { rewrite S. rewrite E, app_length, repeat_length in L. unfold size. lia. }
  rewrite <- K. split.
  - intros H. rewrite E in H. apply (f_equal (firstn (length bs))) in H.
    rewrite firstn_app, firstn_all, Nat.sub_diag, firstn_O, app_nil_r in H. rewrite firstn_app in H.
    replace (length bs) with (length (char_bytes ch)) in H by (unfold size in S; lia).
    rewrite firstn_all, Nat.sub_diag, firstn_O, app_nil_r in H. exact H.
  - intros ->. now rewrite <- E.
Qed.

Lemma index_loop_spec ch t : char_wf ch -> size t <= 65535 + size (char_bytes ch) -> forall fuel i, i < 2 ^ 16 -> (N.to_nat (size t) - N.to_nat i < fuel)%nat ->
  exists o, sb_index_loop fuel (reader_make t) ch i = Ret o /\
  match o with
  | Some j => i <= j /\ j + size (char_bytes ch) < size t /\ ntake (size (char_bytes ch)) (ndrop j t) = char_bytes ch /\
              forall m, i <= m < j -> ntake (size (char_bytes ch)) (ndrop m t) <> char_bytes ch
  | None => forall m, i <= m -> m + size (char_bytes ch) < size t -> ntake (size (char_bytes ch)) (ndrop m t) <> char_bytes ch
  end.
Proof.
  intros W L. assert (C : size (char_bytes ch) = char_count 4 ch).
  { unfold char_bytes. rewrite size_ntake. destruct (char_count_spec 4 ch) as (A & B & _). lia. }
  assert (F : Forall (fun b => b <> 0) (char_bytes ch)) by (unfold char_bytes; apply (char_count_spec 4 ch)).
  assert (C4 : char_count 4 ch <= 4) by (destruct (char_count_spec 4 ch) as (A & B & _); lia).
  rewrite C in *. induction fuel as [|fuel IH]; intros i Hi Hf; [lia|]. cbn [sb_index_loop]. cbn [reader_make r_lim].
  destruct (N.ltb_spec (i + char_count 4 ch) (size t)) as [G|G].
  - rewrite r_read_at_spec by (cbn [reader_make r_lim r_buf]; lia). cbn [bind fst snd reader_make r_buf].
    assert (S : size (ntake (char_count 4 ch) (ndrop i t)) = size (char_bytes ch)) by (rewrite size_ntake, size_ndrop; lia).
    pose proof (zeros_overwrite ch _ W S F) as Z.
    destruct (list_eqb (overwrite [0;0;0;0] 0 (ntake (char_count 4 ch) (ndrop i t))) ch).
    + eexists. split; [reflexivity|]. split; [lia|]. split; [lia|]. split; [now apply Z|]. intros m Hm. lia.
    + assert (X : ntake (char_count 4 ch) (ndrop i t) <> char_bytes ch) by (intros X; apply Z in X; discriminate).
      unfold u16. rewrite N.mod_small by lia.
      destruct (IH (i + 1)) as (o & E & P); [lia|lia|]. exists o. split; [exact E|]. destruct o as [j|].
      * destruct P as (P1 & P2 & P3 & P4). repeat split; try assumption; try lia. intros m Hm.
        destruct (N.eq_dec m i) as [->|]; [exact X|]. apply P4. lia.
      * intros m Hm Hs. destruct (N.eq_dec m i) as [->|]; [exact X|]. apply P; lia.
  - eexists. split; [reflexivity|]. intros m Hm Hs. lia.
Qed.
