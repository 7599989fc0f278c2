(** C08 - C10: Base16. *)
From Verif Require Import Base BaseLemmas MemViewModel MemViewSpec ByteIOModel ByteIOSpec ByteIOProofs.
From Verif Require Import Base16Model Base16Spec Base16Proofs.

(** C08: with room for the text, encoding appends exactly the lower-case
    hexadecimal text and succeeds; without, it reports an error. *)
Theorem C08_encode_exact : forall w src, writer_ok w -> bytes_ok src ->
  if w_pos w + 2 * size src <=? w_lim w
  then b16_encode w src = Ret (Ok tt, appended w (hex_text src))
  else exists w', b16_encode w src = Ret (Err E_Overflow, w').
Proof.
  intros w src I F. destruct (N.leb_spec (w_pos w + 2 * size src) (w_lim w)).
  - now apply b16_encode_ok.
  - apply b16_encode_full; auto.
Qed.
Print Assumptions C08_encode_exact.

Example C08_encode_exact_ok :
  b16_encode (writer_make [0;0;0;0;0;0]) [0x1f; 0xa0] = Ret (Ok tt, mkWriter 4 6 [49;102;97;48;0;0]).
Proof. reflexivity. Qed.

(** C08: the written region grows by exactly that text. *)
Theorem C08_written : forall w bs, writer_ok w -> w_pos w + size bs <= w_lim w ->
  contents (w_buf (appended w bs)) (w_viewWritten (appended w bs)) =
  contents (w_buf w) (w_viewWritten w) ++ bs.
Proof. exact append_written. Qed.
Print Assumptions C08_written.

(** C08: encodedSize predicts the length of the text (while 2n is representable). *)
Theorem C08_encodedSize : forall src, 2 * size src < 2 ^ 64 ->
  size (hex_text src) = b16_encodedSize (size src).
Proof. intros. rewrite size_hex_text. unfold b16_encodedSize, u64. rewrite N.mod_small; lia. Qed.
Print Assumptions C08_encodedSize.

(** C08: the encode iterator yields the same characters. *)
Theorem C08_iterator : forall src, bytes_ok src ->
  exists ps, b16_encode_iter src = Ret ps /\ concat ps = hex_text src.
Proof. exact b16_encode_iter_spec. Qed.
Print Assumptions C08_iterator.

(** C08: encoding a ByteReader encodes all it has left and consumes it. *)
Theorem C08_encode_reader : forall w r, writer_ok w -> bytes_ok (r_buf r) ->
  r_pos r <= r_lim r -> r_lim r <= size (r_buf r) -> size (r_buf r) < 2 ^ 64 ->
  w_pos w + 2 * (r_lim r - r_pos r) <= w_lim w ->
  encode_reader b16_encode w r =
    Ret (Ok tt, (appended w (hex_text (section (r_buf r) (r_pos r) (r_lim r - r_pos r))),
                 mkReader (r_lim r) (r_lim r) (r_buf r))).
Proof.
  intros w r I F H1 H2 H3 L. apply encode_reader_ok; [repeat split; auto|].
  rewrite b16_encode_ok; auto; rewrite section_spec.
  - apply bytes_ok_ntake, bytes_ok_ndrop, F.
  - rewrite size_ntake, size_ndrop. lia.
Qed.
Print Assumptions C08_encode_reader.

Example C08_encode_reader_ok :
  encode_reader b16_encode (writer_make (repeat 0 4)) (mkReader 1 3 [1;2;255;4]) =
  Ret (Ok tt, (mkWriter 4 4 [48;50;102;102], mkReader 3 3 [1;2;255;4])).
Proof. reflexivity. Qed.

(** C09: decoding inverts encoding. *)
Theorem C09_decode_encode : forall w bs, writer_ok w -> bytes_ok bs -> w_pos w + size bs <= w_lim w ->
  b16_decode w (hex_text bs) = Ret (Ok tt, appended w bs).
Proof. intros. apply b16_decode_ok; auto using hex_value_text. Qed.
Print Assumptions C09_decode_encode.

Example C09_decode_encode_ok :
  b16_decode (writer_make [0;0;0]) (hex_text [0x1f; 0xa0]) = Ret (Ok tt, mkWriter 2 3 [0x1f; 0xa0; 0]).
Proof. reflexivity. Qed.

(** C09: 7-bit text is accepted iff it is an even number of digits of either
    case, and then yields the bytes it denotes; anything else is an error. *)
Theorem C09_decode_total : forall w t, writer_ok w -> ascii7 t ->
  match hex_value t with
  | Some bs =>
      if w_pos w + size bs <=? w_lim w
      then b16_decode w t = Ret (Ok tt, appended w bs)
      else exists w', b16_decode w t = Ret (Err E_Overflow, w')
  | None => exists e w', b16_decode w t = Ret (Err e, w')
  end.
Proof.
  intros w t I F. destruct (hex_value t) as [bs|] eqn:E.
  - destruct (N.leb_spec (w_pos w + size bs) (w_lim w)).
    + now apply b16_decode_ok.
    + apply (b16_decode_full t w bs); auto.
  - now apply b16_decode_bad.
Qed.
Print Assumptions C09_decode_total.

Example C09_decode_total_ok :
  hex_value [70;102;48;57] = Some [255;9] /\ hex_value [70;103] = None /\ hex_value [48;48;48] = None /\
  b16_decode (writer_make [0;0;0]) [70;102;48;57] = Ret (Ok tt, mkWriter 2 3 [255;9;0]) /\
  b16_decode (writer_make [0;0;0]) [70;103] = Ret (Err 84, mkWriter 0 3 [0;0;0]).
Proof. repeat split; reflexivity. Qed.

(** C09: the decode iterator yields the bytes of the longest prefix made of digit
    pairs, hence the decoded bytes of a well-formed text. *)
Theorem C09_iterator : forall t, ascii7 t ->
  b16_decode_iter (S (length t)) t = Ret (hex_prefix t) /\
  (forall bs, hex_value t = Some bs -> hex_prefix t = bs).
Proof. intros t F. split; [apply b16_decode_iter_spec; auto|intros; now apply hex_prefix_value]. Qed.
Print Assumptions C09_iterator.

(** C10: 7-bit text is decoded without undefined behaviour ... *)
Theorem C10_decode_safe_partial : forall w t, writer_ok w -> ascii7 t -> exists p, b16_decode w t = Ret p.
Proof. intros. now apply b16_decode_safe. Qed.
Print Assumptions C10_decode_safe_partial.

Example C10_decode_safe_partial_ok : ascii7 [70;102;126;0].
Proof. repeat constructor. Qed.

(** ... but C10 in full is false: the decoding table has 128 entries and is
    indexed by an unchecked byte.  Any pair starting with a byte above 127 is
    undefined behaviour. *)
Theorem C10_decode_refuted : forall w a b rest, 128 <= a -> size rest mod 2 = 0 ->
  b16_decode w (a :: b :: rest) = UB.
Proof.
  intros w a b rest Ha Hr. unfold b16_decode. rewrite !size_cons.
  replace ((size rest + 1 + 1) mod 2) with 0 by lia. cbn [N.eqb negb b16_decode_loop].
  now rewrite charToBin_high.
Qed.
Print Assumptions C10_decode_refuted.
