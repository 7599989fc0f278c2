From Verif Require Import Base BaseLemmas MemViewModel MemViewSpec MemViewProofs ByteIOModel ByteIOSpec ByteIOProofs.
From Verif Require Import Base16Model Base16Spec.

(** ** Appending through a writer *)

Definition append (w : writer) (bs : list N) : writer :=
  mkWriter (w_pos w + size bs) (w_lim w) (spliced (w_buf w) (w_pos w) bs).

Lemma w_write_append w bs : winv w -> w_pos w + size bs <= w_lim w -> w_write w bs = Ret (Ok tt, append w bs).
Proof.
  intros I L. pose proof I as (H1 & H2 & H3). rewrite w_write_spec by (assumption || lia). rcase. reflexivity.
Qed.

Lemma append_inv w bs : winv w -> w_pos w + size bs <= w_lim w -> winv (append w bs).
Proof. intros (H1 & H2 & H3) L. repeat split; cbn; rewrite ?size_spliced; lia. Qed.

Lemma append_nil w : w_pos w <= size (w_buf w) -> append w [] = w.
Proof.
  intros H. destruct w as [p l b]; unfold append; cbn in *. f_equal; [lia|].
  rewrite <- overwrite_spliced. unfold overwrite. rewrite (@size_nil N), N.add_0_r. cbn. apply ntake_ndrop.
Qed.

Lemma spliced_app l p a b : p + size a + size b <= size l ->
  spliced (spliced l p a) (p + size a) b = spliced l p (a ++ b).
Proof.
  intros H. rewrite <- !overwrite_spliced.
  assert (p + size (a ++ b) <= size l) as Hab by (rewrite size_app; lia).
  assert (p + size a <= size l) as Ha by lia.
  assert (p + size a + size b <= size (overwrite l p a)) as Hb by (rewrite size_overwrite; lia).
  apply nnth_ext; [rewrite !size_overwrite; lia|]. intros i _. rewrite !nnth_overwrite by lia. rewrite nnth_app, size_app.
  repeat match goal with |- context [?x <=? ?y] => destruct (N.leb_spec x y) end; cbn [andb];
  repeat match goal with |- context [?x <? ?y] => destruct (N.ltb_spec x y) end; try lia; try reflexivity.
  f_equal. lia.
Qed.

Lemma append_app w a b : w_pos w + size a + size b <= size (w_buf w) ->
  append (append w a) b = append w (a ++ b).
Proof.
  intros H. unfold append; cbn. rewrite size_app, spliced_app by lia. f_equal. lia.
Qed.

(** ** Tables *)

Lemma b16_pair_spec b : is_byte b -> b16_pair b = Ret [hex_digit (b / 16); hex_digit (b mod 16)].
Proof.
  intros Hb.
  set (f := fun b => match b16_pair b with
                     | Ret [x; y] => (x =? hex_digit (b / 16)) && (y =? hex_digit (b mod 16))
                     | _ => false end).
  assert (f b = true) as E by (revert b Hb; apply byte_sweep; vm_compute; reflexivity).
  unfold f in E. destruct (b16_pair b) as [[|x [|y [|z t]]]| | | |]; try discriminate.
  apply andb_true_iff in E as [E1 E2]. apply N.eqb_eq in E1, E2. congruence.
Qed.

Lemma charToBin_spec c : c < 128 ->
  charToBin c = match digit_value c with Some v => Ret (Ok v) | None => Ret (Err E_ILSEQ) end.
Proof.
  intros Hc.
  set (f := fun c => if 128 <=? c then true else
                     match charToBin c, digit_value c with
                     | Ret (Ok x), Some v => x =? v
                     | Ret (Err e), None => e =? E_ILSEQ
                     | _, _ => false end).
  assert (f c = true) as E.
  { assert (is_byte c) as Hb by (unfold is_byte; lia). revert c Hb Hc. intros c Hb _. revert c Hb.
    apply byte_sweep. vm_compute. reflexivity. }
  unfold f in E. destruct (N.leb_spec 128 c); [lia|].
  destruct (charToBin c) as [[x|e]| | | |], (digit_value c); try discriminate; apply N.eqb_eq in E; congruence.
Qed.

Lemma charToBin_high c : 128 <= c -> charToBin c = UB.
Proof.
  intros H. unfold charToBin. assert (nnth kHexToBin c = None) as ->; [|reflexivity].
  apply nnth_None. exact H.
Qed.

Lemma digit_value_hex n : n < 16 -> digit_value (hex_digit n) = Some n.
Proof.
  intros H. unfold digit_value, hex_digit. destruct (N.ltb_spec n 10).
  - destruct (N.leb_spec 48 (48 + n)), (N.leb_spec (48 + n) 57); try lia; cbn [andb]. f_equal; lia.
  - destruct (N.leb_spec 48 (97 + (n - 10))), (N.leb_spec (97 + (n - 10)) 57); try lia; cbn [andb].
    destruct (N.leb_spec 97 (97 + (n - 10))), (N.leb_spec (97 + (n - 10)) 102); try lia; cbn [andb]. f_equal; lia.
Qed.

Lemma digit_value_lt c v : digit_value c = Some v -> v < 16 /\ c < 128.
Proof.
  unfold digit_value.
  destruct ((48 <=? c) && (c <=? 57)) eqn:A; [intros E; injection E as <-; lia|].
  destruct ((97 <=? c) && (c <=? 102)) eqn:B; [intros E; injection E as <-; lia|].
  destruct ((65 <=? c) && (c <=? 70)) eqn:C; [intros E; injection E as <-; lia|discriminate].
Qed.

Lemma hex_digit_lt n : n < 16 -> hex_digit n < 128.
Proof. intros. unfold hex_digit. destruct (n <? 10); lia. Qed.

Lemma hex_text_ascii bs : bytes_ok bs -> ascii7 (hex_text bs).
Proof.
  unfold ascii7, hex_text. induction 1 as [|b t Hb _ IH]; [constructor|].
  cbn. unfold is_byte in Hb. repeat constructor; auto; apply hex_digit_lt; lia.
Qed.

Lemma size_hex_text bs : size (hex_text bs) = 2 * size bs.
Proof. unfold hex_text. induction bs as [|b t IH]; [reflexivity|]. cbn [flat_map app]. rewrite !size_cons, IH. lia. Qed.

Lemma hex_value_text bs : bytes_ok bs -> hex_value (hex_text bs) = Some bs.
Proof.
  unfold hex_text. induction 1 as [|b t Hb _ IH]; [reflexivity|]. cbn [flat_map app hex_value].
  unfold is_byte in Hb. rewrite !digit_value_hex, IH by lia. do 2 f_equal. lia.
Qed.

Lemma pair_ind {A} (P : list A -> Prop) :
  P [] -> (forall a, P [a]) -> (forall a b l, P l -> P (a :: b :: l)) -> forall l, P l.
Proof.
  intros H0 H1 H2. assert (forall l, P l /\ forall a, P (a :: l)) as H.
  { induction l as [|a l [IH1 IH2]]; auto. }
  intros l. apply H.
Qed.

Lemma hex_value_size t : forall bs, hex_value t = Some bs -> size t = 2 * size bs /\ bytes_ok bs.
Proof.
  induction t as [|a|a b t IH] using pair_ind; intros bs E; cbn [hex_value] in E.
  - injection E as <-. split; [reflexivity|constructor].
  - discriminate.
  - destruct (digit_value a) as [h|] eqn:Ea; [|discriminate].
    destruct (digit_value b) as [l|] eqn:Eb; [|discriminate].
    destruct (hex_value t) as [r|]; [|discriminate]. injection E as <-.
    destruct (IH r eq_refl) as [S B]. rewrite !size_cons. split; [lia|].
    constructor; [|assumption]. apply digit_value_lt in Ea, Eb. change (16 * h + l < 256). lia.
Qed.

Lemma hex_value_lower bs t : hex_value t = Some bs -> ascii7 t.
Proof.
  revert bs. induction t as [|a|a b t IH] using pair_ind; intros bs E; cbn [hex_value] in E.
  - constructor.
  - discriminate.
  - destruct (digit_value a) as [h|] eqn:Ea; [|discriminate].
    destruct (digit_value b) as [l|] eqn:Eb; [|discriminate].
    destruct (hex_value t) as [r|]; [|discriminate].
    apply digit_value_lt in Ea, Eb. constructor; [tauto|]. constructor; [tauto|]. eapply IH; reflexivity.
Qed.

(** ** Encoder *)

Lemma b16_encode_ok src : forall w, winv w -> bytes_ok src -> w_pos w + 2 * size src <= w_lim w ->
  b16_encode w src = Ret (Ok tt, append w (hex_text src)).
Proof.
  induction src as [|b t IH]; intros w I F L; pose proof I as (H1 & H2 & H3).
  - cbn. rewrite append_nil by lia. reflexivity.
  - inversion F as [|? ? F1 F2]; subst. rewrite size_cons in L. cbn [b16_encode].
    rewrite b16_pair_spec by assumption. cbn [bind].
    set (d := [hex_digit (b / 16); hex_digit (b mod 16)]). assert (size d = 2) as Sd by reflexivity.
    rewrite w_write_append by (assumption || lia). cbn [bind].
    rewrite IH; [|apply append_inv; [assumption|lia]|assumption|cbn [append w_pos w_lim]; lia].
    rewrite append_app; [reflexivity|]. rewrite size_hex_text. lia.
Qed.

Lemma b16_encode_full src : forall w, winv w -> bytes_ok src -> w_lim w < w_pos w + 2 * size src ->
  exists w', b16_encode w src = Ret (Err E_Overflow, w').
Proof.
  induction src as [|b t IH]; intros w I F L; pose proof I as (H1 & H2 & H3).
  - rewrite (@size_nil N) in L. lia.
  - inversion F as [|? ? F1 F2]; subst. rewrite size_cons in L. cbn [b16_encode].
    rewrite b16_pair_spec by assumption. cbn [bind].
    set (d := [hex_digit (b / 16); hex_digit (b mod 16)]). assert (size d = 2) as Sd by reflexivity.
    destruct (N.le_gt_cases (w_pos w + 2) (w_lim w)) as [R|R].
    + rewrite w_write_append by (assumption || lia). cbn [bind].
      apply IH; [apply append_inv; [assumption|lia]|assumption|cbn [append w_pos w_lim]; lia].
    + rewrite w_write_spec by (assumption || lia). rewrite Sd. rcase; eexists; reflexivity.
Qed.

Lemma b16_encode_iter_spec src : bytes_ok src ->
  exists ps, b16_encode_iter src = Ret ps /\ concat ps = hex_text src.
Proof.
  induction 1 as [|b t Hb _ (ps & E & C)]; [eexists; split; reflexivity|].
  cbn [b16_encode_iter]. rewrite b16_pair_spec, E by assumption. cbn [bind].
  eexists; split; [reflexivity|]. cbn [concat]. rewrite C. reflexivity.
Qed.

(** ** Decoder *)

Lemma shift_add h l : h < 16 -> l < 16 -> u8 (N.shiftl h 4 + l) = 16 * h + l.
Proof. intros. unfold u8. rewrite N.shiftl_mul_pow2. change (2 ^ 4) with 16. rewrite N.mod_small; lia. Qed.

Lemma b16_decode_loop_ok src : forall w bs, winv w -> hex_value src = Some bs ->
  w_pos w + size bs <= w_lim w -> b16_decode_loop w src = Ret (Ok tt, append w bs).
Proof.
  induction src as [|a|a b t IH] using pair_ind; intros w bs I E L; pose proof I as (H1 & H2 & H3); cbn [hex_value] in E.
  - injection E as <-. cbn. rewrite append_nil by lia. reflexivity.
  - discriminate.
  - destruct (digit_value a) as [h|] eqn:Ea; [|discriminate].
    destruct (digit_value b) as [l|] eqn:Eb; [|discriminate].
    destruct (hex_value t) as [r|]; [|discriminate]. injection E as <-. rewrite size_cons in L.
    pose proof (digit_value_lt _ _ Ea). pose proof (digit_value_lt _ _ Eb).
    cbn [b16_decode_loop]. rewrite !charToBin_spec, Ea, Eb by tauto. cbn [bind]. rewrite shift_add by tauto.
    assert (size [16 * h + l] = 1) as S1 by reflexivity.
    rewrite w_write_append by (assumption || lia). cbn [bind].
    rewrite (IH _ r); [|apply append_inv; [assumption|lia]|reflexivity|cbn [append w_pos w_lim]; lia].
    rewrite append_app by lia. reflexivity.
Qed.

Lemma b16_decode_ok src w bs : winv w -> hex_value src = Some bs ->
  w_pos w + size bs <= w_lim w -> b16_decode w src = Ret (Ok tt, append w bs).
Proof.
  intros I E L. unfold b16_decode. destruct (hex_value_size _ _ E) as [S _].
  replace (size src mod 2) with 0 by lia. cbn. now apply b16_decode_loop_ok.
Qed.

Lemma b16_decode_loop_bad src : forall w, winv w -> ascii7 src -> size src mod 2 = 0 -> hex_value src = None ->
  exists e w', b16_decode_loop w src = Ret (Err e, w').
Proof.
  induction src as [|a|a b t IH] using pair_ind; intros w I F Ev E; pose proof I as (H1 & H2 & H3); cbn [hex_value] in E.
  - discriminate.
  - cbn in Ev. discriminate.
  - inversion F as [|? ? F1 F2]; subst. inversion F2 as [|? ? F3 F4]; subst. rewrite !size_cons in Ev.
    cbn [b16_decode_loop]. rewrite !charToBin_spec by assumption.
    destruct (digit_value a) as [h|] eqn:Ea; cbn [bind].
    2:{ destruct (digit_value b); cbn [bind]; do 2 eexists; reflexivity. }
    destruct (digit_value b) as [l|] eqn:Eb; cbn [bind]; [|do 2 eexists; reflexivity].
    destruct (hex_value t) as [r|]; [discriminate|].
    set (v := [u8 (N.shiftl h 4 + l)]). assert (size v = 1) as S1 by reflexivity.
    destruct (N.le_gt_cases (w_pos w + 1) (w_lim w)) as [R|R].
    + rewrite w_write_append by (assumption || lia). cbn [bind].
      apply IH; [apply append_inv; [assumption|lia]|assumption|lia|reflexivity].
    + rewrite w_write_spec by (assumption || lia). rewrite S1. rcase; do 2 eexists; reflexivity.
Qed.

Lemma b16_decode_bad src w : winv w -> ascii7 src -> hex_value src = None ->
  exists e w', b16_decode w src = Ret (Err e, w').
Proof.
  intros I F E. unfold b16_decode. destruct (N.eqb_spec (size src mod 2) 0) as [Ev|Ev]; cbn [negb].
  - now apply b16_decode_loop_bad.
  - do 2 eexists; reflexivity.
Qed.

Lemma b16_decode_full src : forall w bs, winv w -> hex_value src = Some bs ->
  w_lim w < w_pos w + size bs -> exists w', b16_decode w src = Ret (Err E_Overflow, w').
Proof.
  intros w bs I E L. unfold b16_decode. destruct (hex_value_size _ _ E) as [S _].
  replace (size src mod 2) with 0 by lia. cbn. clear S. revert w bs I E L.
  induction src as [|a|a b t IH] using pair_ind; intros w bs I E L; pose proof I as (H1 & H2 & H3); cbn [hex_value] in E.
  - injection E as <-. rewrite (@size_nil N) in L. lia.
  - discriminate.
  - destruct (digit_value a) as [h|] eqn:Ea; [|discriminate].
    destruct (digit_value b) as [l|] eqn:Eb; [|discriminate].
    destruct (hex_value t) as [r|] eqn:Et; [|discriminate]. injection E as <-. rewrite size_cons in L.
    pose proof (digit_value_lt _ _ Ea). pose proof (digit_value_lt _ _ Eb).
    cbn [b16_decode_loop]. rewrite !charToBin_spec, Ea, Eb by tauto. cbn [bind].
    set (v := [u8 (N.shiftl h 4 + l)]). assert (size v = 1) as S1 by reflexivity.
    destruct (N.le_gt_cases (w_pos w + 1) (w_lim w)) as [R|R].
    + rewrite w_write_append by (assumption || lia). cbn [bind].
      eapply IH; [apply append_inv; [assumption|lia]|reflexivity|cbn [append w_pos w_lim]; lia].
    + rewrite w_write_spec by (assumption || lia). rewrite S1. rcase; eexists; reflexivity.
Qed.

(** Every text with a byte above 127 reached by the decoder is undefined
    behaviour; 7-bit text never is. *)
Lemma b16_decode_safe src w : winv w -> ascii7 src -> exists p, b16_decode w src = Ret p.
Proof.
  intros I F. destruct (hex_value src) as [bs|] eqn:E.
  - destruct (N.le_gt_cases (w_pos w + size bs) (w_lim w)).
    + rewrite (b16_decode_ok src w bs) by assumption. eauto.
    + destruct (b16_decode_full src w bs I E) as (w' & E'); [lia|]. eauto.
  - destruct (b16_decode_bad src w I F E) as (e & w' & E'). eauto.
Qed.

Lemma b16_decode_iter_spec src : forall fuel, ascii7 src -> (length src < fuel)%nat ->
  b16_decode_iter fuel src = Ret (hex_prefix src).
Proof.
  induction src as [|a|a b t IH] using pair_ind; intros fuel F L; (destruct fuel as [|fuel]; [cbn in L; lia|]).
  - reflexivity.
  - reflexivity.
  - inversion F as [|? ? F1 F2]; subst. inversion F2 as [|? ? F3 F4]; subst.
    cbn [b16_decode_iter b16_iter_at hex_prefix]. unfold decode16. rewrite !charToBin_spec by assumption.
    destruct (digit_value a) as [h|] eqn:Ea; cbn [bind].
    2:{ destruct (digit_value b); reflexivity. }
    destruct (digit_value b) as [l|] eqn:Eb; cbn [bind]; [|reflexivity].
    cbn in L. rewrite IH by (assumption || lia). cbn.
    rewrite shift_add; [reflexivity|apply (digit_value_lt _ _ Ea)|apply (digit_value_lt _ _ Eb)].
Qed.

Lemma hex_prefix_value t bs : hex_value t = Some bs -> hex_prefix t = bs.
Proof.
  revert bs. induction t as [|a|a b t IH] using pair_ind; intros bs E; cbn [hex_value hex_prefix] in *.
  - congruence.
  - discriminate.
  - destruct (digit_value a) as [h|]; [|discriminate].
    destruct (digit_value b) as [l|]; [|discriminate].
    destruct (hex_value t) as [r|]; [|discriminate]. injection E as <-. f_equal. now apply IH.
Qed.

(** Encoding what a reader has left. *)
Lemma encode_reader_ok enc dest r dest' : rinv r ->
  enc dest (section (r_buf r) (r_pos r) (r_lim r - r_pos r)) = Ret (Ok tt, dest') ->
  encode_reader enc dest r = Ret (Ok tt, (dest', mkReader (r_lim r) (r_lim r) (r_buf r))).
Proof.
  intros (H1 & H2 & H3) E. unfold encode_reader.
  assert (load (r_buf r) (v_addr (r_viewRemaining r)) (v_size (r_viewRemaining r)) =
          Ret (section (r_buf r) (r_pos r) (r_lim r - r_pos r))) as ->.
  { rewrite load_valid_all by (apply slice_valid, storage_valid).
    unfold r_viewRemaining. rewrite slice_contents by apply storage_valid.
    rewrite storage_contents, range_spec, section_spec. reflexivity. }
  cbn [bind]. rewrite E. cbn [bind]. unfold r_advance, r_remaining.
  rewrite sub64_le by lia. rewrite N.ltb_irrefl. unfold u64. rewrite N.mod_small by lia.
  replace (r_pos r + (r_lim r - r_pos r)) with (r_lim r) by lia. reflexivity.
Qed.

Lemma append_written w bs : winv w -> w_pos w + size bs <= w_lim w ->
  contents (w_buf (append w bs)) (w_viewWritten (append w bs)) =
  contents (w_buf w) (w_viewWritten w) ++ bs.
Proof.
  intros (H1 & H2 & H3) L. unfold w_viewWritten. rewrite !slice_contents by apply storage_valid.
  rewrite !storage_contents, !range_spec, !ndrop_0, !N.sub_0_r. cbn [append w_pos w_buf].
  apply spliced_prefix. lia.
Qed.
