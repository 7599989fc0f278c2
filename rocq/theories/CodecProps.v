(** C129: what the codecs leave behind, for every input and every amount of room. *)
From Verif Require Import Base BaseLemmas MemViewModel MemViewSpec MemViewProofs ByteIOModel ByteIOSpec ByteIOProofs.
From Verif Require Import Base16Model Base16Spec Base16Proofs Base64Model Base64Spec Base64Proofs CodecSpec CodecProofs.

(** Base16 encoding writes the hexadecimal text pair by pair. *)
Theorem C129_encode16 : forall w src, writer_ok w -> bytes_ok src ->
  b16_encode w src = Ret (in_pieces 2 w (hex_text src)).
Proof. intros. now apply b16_encode_pieces. Qed.
Print Assumptions C129_encode16.

(** Base64 encoding writes the RFC 4648 text by groups of four characters. *)
Theorem C129_encode64 : forall url w src, writer_ok w -> bytes_ok src ->
  b64_encode url w src = Ret (in_pieces 4 w (b64_text url src)).
Proof. intros. now apply b64_encode_pieces. Qed.
Print Assumptions C129_encode64.

(** Base16 decoding of arbitrary bytes: an odd number is refused before anything is
    written; otherwise the bytes of the leading digit pairs are written as far as
    there is room; if all are written and text is left, its first pair is the
    reason of the failure - undefined behaviour when it contains a byte above 127. *)
Theorem C129_decode16 : forall w src, writer_ok w -> bytes_ok src ->
  b16_decode w src =
    if negb (size src mod 2 =? 0) then Ret (Err E_DOM, w)
    else if room w <? size (hex_prefix src) then Ret (in_pieces 1 w (hex_prefix src))
    else if size src =? 2 * size (hex_prefix src) then Ret (Ok tt, appended w (hex_prefix src))
    else if existsb (fun c => 128 <=? c) (firstn 2 (skipn (2 * length (hex_prefix src)) src)) then UB
    else Ret (Err E_ILSEQ, appended w (hex_prefix src)).
Proof.
  intros w src I F. unfold b16_decode. destruct (N.eqb_spec (size src mod 2) 0) as [E|E]; cbn [negb]; [|reflexivity].
  now apply b16_decode_loop_pieces.
Qed.
Print Assumptions C129_decode16.

(** Base64 decoding of any memory, with or without enough room. *)
Theorem C129_decode64 : forall url w mem a n, writer_ok w -> bytes_ok mem ->
  b64_decode url w mem (mkView (Some a) n) =
    if n =? 0 then Ret (Err E_NODATA, w)
    else match b64_leading url (skipn (N.to_nat a) mem) with
         | None => UB
         | Some vs => Ret (then_pieces (in_pieces 3 w (firstn (grouped vs) (sextet_bytes vs)))
                                       1 (skipn (grouped vs) (sextet_bytes vs)))
         end.
Proof.
  intros url w mem a n I F. destruct (N.eqb_spec n 0) as [->|Hn]; [reflexivity|].
  rewrite <- ndrop_skipn.
  destruct (b64_leading url (ndrop a mem)) as [vs|] eqn:E; [|now apply b64_decode_ub].
  unfold b64_decode, base64decode; cbn [v_size v_addr].
  destruct (N.eqb_spec n 0); [contradiction|].
  rewrite b64_scan_spec, E by (apply bytes_ok_ndrop; assumption). cbn [bind].
  apply (b64_loop_pieces url (length vs)); auto. apply leading_starts; [apply bytes_ok_ndrop; assumption|assumption].
Qed.
Print Assumptions C129_decode64.

(** Whatever happens, what was written before stays, the limit and the size of the
    buffer stay, and what is added is an initial part of the full result. *)
Definition added (w w' : writer) (t : list N) : Prop :=
  w_lim w' = w_lim w /\ size (w_buf w') = size (w_buf w) /\
  exists n, contents (w_buf w') (w_viewWritten w') = contents (w_buf w) (w_viewWritten w) ++ firstn n t.
Theorem C129_kept : forall url w w' src r, writer_ok w -> bytes_ok src ->
  (b16_encode w src = Ret (r, w') -> added w w' (hex_text src)) /\
  (b64_encode url w src = Ret (r, w') -> added w w' (b64_text url src)) /\
  (b16_decode w src = Ret (r, w') -> added w w' (hex_prefix src)) /\
  (forall a n, b64_decode url w src (mkView (Some a) n) = Ret (r, w') ->
     exists t, added w w' t /\
       (n <> 0 -> exists vs, b64_leading url (skipn (N.to_nat a) src) = Some vs /\ t = sextet_bytes vs)).
Proof.
  intros url w w' src r I F.
  assert (added w w []) as A0.
  { split; [reflexivity|]. split; [reflexivity|]. exists 0%nat. now rewrite app_nil_r. }
  assert (forall t, added w w t) as At.
  { intros t. split; [reflexivity|]. split; [reflexivity|]. exists 0%nat. now rewrite app_nil_r. }
  assert (forall t, size t <= room w -> added w (appended w t) t) as Aa.
  { intros t L. pose proof (I : winv w) as (H1 & H2 & H3). unfold room in L. split; [reflexivity|]. change appended with append.
    split; [cbn [append w_buf]; rewrite size_spliced; [reflexivity|lia]|].
    exists (length t). rewrite firstn_all. apply append_written; [assumption|lia]. }
  assert (forall k t r1 w1, k <> 0 -> in_pieces k w t = (r1, w1) -> added w w1 t) as Ap.
  { intros k t r1 w1 K E. destruct (in_pieces_kept k w t r1 w1 I K E) as (A & B & C & _). now split. }
  split; [|split; [|split]].
  - rewrite C129_encode16 by assumption. intros E. injection E as E. eapply Ap; [|exact E]. discriminate.
  - rewrite C129_encode64 by assumption. intros E. injection E as E. eapply Ap; [|exact E]. discriminate.
  - rewrite C129_decode16 by assumption.
    destruct (negb _); [intros E; injection E as <- <-; apply At|].
    destruct (N.ltb_spec (room w) (size (hex_prefix src))) as [L|L].
    { intros E. injection E as E. eapply Ap; [|exact E]. discriminate. }
    destruct (size src =? _); [intros E; injection E as <- <-; now apply Aa|].
    destruct (existsb _ _); [discriminate|]. intros E; injection E as <- <-; now apply Aa.
  - intros a n. rewrite C129_decode64 by assumption. destruct (N.eqb_spec n 0) as [->|Hn].
    { intros E. injection E as <- <-. exists []. split; [apply At|]. congruence. }
    destruct (b64_leading url (skipn (N.to_nat a) src)) as [vs|] eqn:V; [|discriminate].
    intros E. injection E as E. exists (sextet_bytes vs). split; [|intros _; exists vs; auto].
    destruct (in_pieces 3 w (firstn (grouped vs) (sextet_bytes vs))) as [r1 w1] eqn:E1.
    destruct (in_pieces_kept 3 w _ r1 w1 I ltac:(discriminate) E1) as (A & B & (m & C) & D).
    destruct r1 as [[]|e]; cbn [then_pieces] in E.
    + destruct (D eq_refl) as (-> & L).
      assert (winv (append w (firstn (grouped vs) (sextet_bytes vs)))) as I1.
      { pose proof (I : winv w) as (H1 & H2 & H3). apply append_inv; [assumption|]. unfold room in L. lia. }
      destruct (in_pieces_kept 1 _ _ r w' I1 ltac:(discriminate) E) as (A' & B' & (m' & C') & _).
      split; [congruence|]. split; [congruence|].
      exists (length (firstn (grouped vs) (sextet_bytes vs)) + m')%nat.
      rewrite C', append_written by (try assumption; pose proof (I : winv w) as (H1 & H2 & H3); unfold room in L; lia).
      rewrite <- app_assoc. f_equal.
      rewrite <- (firstn_skipn (grouped vs) (sextet_bytes vs)) at 4. rewrite firstn_app_2. reflexivity.
    + injection E as <- <-. split; [assumption|]. split; [assumption|].
      exists (Nat.min m (grouped vs)). rewrite C. now rewrite firstn_firstn.
Qed.
Print Assumptions C129_kept.

(** Encoding from a reader: when the encoder fails, the reader has not moved. *)
Theorem C129_reader_kept : forall enc w r e w' r', r_pos r <= r_lim r -> r_lim r <= size (r_buf r) -> size (r_buf r) < 2 ^ 64 ->
  encode_reader enc w r = Ret (Err e, (w', r')) ->
  r' = r /\ enc w (section (r_buf r) (r_pos r) (r_lim r - r_pos r)) = Ret (Err e, w').
Proof.
  intros enc w r e w' r' H1 H2 H3 E.
  assert (rinv r) as I by (split; [assumption|split; assumption]).
  destruct (enc w (section (r_buf r) (r_pos r) (r_lim r - r_pos r))) as [[[[]|e1] w1]| | | |] eqn:X.
  { rewrite (encode_reader_ok enc w r w1 I X) in E. discriminate. }
  all: unfold encode_reader in E;
    assert (load (r_buf r) (v_addr (r_viewRemaining r)) (v_size (r_viewRemaining r)) =
          Ret (section (r_buf r) (r_pos r) (r_lim r - r_pos r))) as L by
     (rewrite load_valid_all by (apply slice_valid, storage_valid);
      unfold r_viewRemaining; rewrite slice_contents by apply storage_valid;
      rewrite storage_contents, range_spec, section_spec; reflexivity);
    rewrite L in E; cbn [bind] in E; rewrite X in E; cbn [bind] in E; try discriminate.
  injection E as -> -> ->. split; reflexivity.
Qed.
Print Assumptions C129_reader_kept.

(** Five free bytes, three bytes "abc" to encode, four characters may be used of a
    buffer of six: the first two pairs are written, the third - refused - lies
    behind the limit. *)
Example C129_ok :
  b16_encode (mkWriter 0 4 (repeat 0 6)) [0x61; 0x62; 0x63] = Ret (Err E_Overflow, mkWriter 4 4 [54; 49; 54; 50; 54; 51]) /\
  in_pieces 2 (mkWriter 0 4 (repeat 0 6)) (hex_text [0x61; 0x62; 0x63]) = (Err E_Overflow, mkWriter 4 4 [54; 49; 54; 50; 54; 51]) /\
  writer_ok (mkWriter 0 4 (repeat 0 6)) /\
  b64_encode false (writer_make (repeat 0 6)) [1; 2; 3; 4] = Ret (Err E_Overflow, mkWriter 4 6 [65; 81; 73; 68; 0; 0]) /\
  b16_decode (writer_make [0; 0; 0]) [49; 50; 71; 48] = Ret (Err E_ILSEQ, mkWriter 1 3 [18; 0; 0]) /\
  b16_decode (writer_make [0; 0; 0]) [49; 50; 52; 200] = UB /\
  b64_decode false (writer_make [0; 0]) [65; 81; 73; 68; 66; 65; 61] (mkView (Some 0) 6) = Ret (Err E_Overflow, mkWriter 0 2 [0; 0]) /\
  b64_decode false (writer_make [0; 0]) [65; 81; 73; 68; 61] (mkView (Some 0) 4) = Ret (Err E_Overflow, mkWriter 2 2 [1; 2]).
Proof.
  split; [reflexivity|]. split; [reflexivity|]. split; [cbv; repeat split; discriminate|].
  split; [reflexivity|]. split; [reflexivity|]. split; [reflexivity|]. split; reflexivity.
Qed.
