(** C11 - C14: Base64. *)
From Verif Require Import Base BaseLemmas MemViewModel MemViewSpec ByteIOModel ByteIOSpec ByteIOProofs.
From Verif Require Import Base16Proofs Base64Model Base64Spec Base64Proofs.

(** C11: both encoders append exactly the RFC 4648 text, or report an error when
    it does not fit. *)
Theorem C11_encode_rfc4648 : forall url w src, writer_ok w -> bytes_ok src ->
  if w_pos w + size (b64_text url src) <=? w_lim w
  then b64_encode url w src = Ret (Ok tt, appended w (b64_text url src))
  else exists w', b64_encode url w src = Ret (Err E_Overflow, w').
Proof.
  intros url w src I F. destruct (N.leb_spec (w_pos w + size (b64_text url src)) (w_lim w)).
  - now apply b64_encode_ok.
  - apply b64_encode_full; auto.
Qed.
Print Assumptions C11_encode_rfc4648.

(* "Man" -> "TWFu", "Ma" -> "TWE=", "M" -> "TQ==" *)
Example C11_encode_ok :
  b64_text false [77;97;110] = [84;87;70;117] /\ b64_text false [77;97] = [84;87;69;61] /\
  b64_text false [77] = [84;81;61;61] /\ b64_text true [255;255;254] = [95;95;95;45] /\
  b64_encode false (writer_make (repeat 0 5)) [77;97] = Ret (Ok tt, mkWriter 4 5 [84;87;69;61;0]).
Proof. repeat split; reflexivity. Qed.

(** C11: encodedSize predicts the length of the text. *)
Theorem C11_encodedSize : forall url src, 4 * size src + 12 < 2 ^ 64 ->
  b64_encodedSize (size src) = size (b64_text url src).
Proof. intros. rewrite size_b64_text. now apply b64_encodedSize_spec. Qed.
Print Assumptions C11_encodedSize.

(** Exact behaviour of the decoders on any memory: the leading alphabet characters
    found from the start of the view on are decoded (ignoring incomplete octets),
    wherever they end; if the allocation ends first it is undefined behaviour. *)
Theorem C13_decode_exact : forall url w mem a n, bytes_ok mem -> writer_ok w -> n <> 0 ->
  match b64_leading url (skipn (N.to_nat a) mem) with
  | Some vs => w_pos w + size (sextet_bytes vs) <= w_lim w ->
      b64_decode url w mem (mkView (Some a) n) = Ret (Ok tt, appended w (sextet_bytes vs))
  | None => b64_decode url w mem (mkView (Some a) n) = UB
  end.
Proof.
  intros url w mem a n F I Hn. rewrite <- ndrop_skipn. destruct (b64_leading url (ndrop a mem)) as [vs|] eqn:E.
  - intros R. now apply b64_decode_ok.
  - now apply b64_decode_ub.
Qed.
Print Assumptions C13_decode_exact.

(** C12: decoding the encoder's text returns the message, for both alphabets, if
    the message is not empty and either its length is not a multiple of three
    (the text is padded) or the memory after the text starts with a byte outside
    the alphabet, such as a terminating NUL. *)
Theorem C12_decode_encode_partial : forall url w bs after,
  writer_ok w -> bytes_ok bs -> bytes_ok after -> bs <> [] ->
  (size bs mod 3 <> 0 \/ exists c t, after = c :: t /\ b64_value url c = None) ->
  w_pos w + size bs <= w_lim w ->
  b64_decode url w (b64_text url bs ++ after) (mkView (Some 0) (size (b64_text url bs))) =
    Ret (Ok tt, appended w bs).
Proof.
  intros url w bs after I F Fa Hne H R.
  rewrite (b64_decode_ok url w _ 0 _ (sx bs)).
  - rewrite sextet_bytes_sx by assumption. reflexivity.
  - apply bytes_ok_app. split; [apply b64_text_ok|assumption].
  - assumption.
  - rewrite size_b64_text. destruct bs as [|b t]; [contradiction|]. rewrite size_cons. lia.
  - rewrite ndrop_0. now apply leading_text.
  - rewrite sextet_bytes_sx by assumption. exact R.
Qed.
Print Assumptions C12_decode_encode_partial.

Example C12_decode_encode_ok :
  b64_decode true (writer_make (repeat 0 8)) (b64_text true [1;2;250;255] ++ []) (mkView (Some 0) 8) =
    Ret (Ok tt, mkWriter 4 8 [1;2;250;255;0;0;0;0]) /\
  b64_decode false (writer_make (repeat 0 4)) (b64_text false [1;2;250] ++ [0]) (mkView (Some 0) 4) =
    Ret (Ok tt, mkWriter 3 4 [1;2;250;0]).
Proof. split; reflexivity. Qed.

(** C12 in full is false: the empty message is rejected, and a message whose
    length is a multiple of three decodes to more bytes than were encoded when
    the text happens to be followed by alphabet characters. *)
Theorem C12_decode_encode_refuted :
  (b64_decode false (writer_make [0;0]) (b64_text false [] ++ [0]) (mkView (Some 0) (size (b64_text false []))) =
     Ret (Err E_NODATA, writer_make [0;0])) /\
  (exists bs after w', b64_decode false (writer_make (repeat 0 8)) (b64_text false bs ++ after)
       (mkView (Some 0) (size (b64_text false bs))) = Ret (Ok tt, w') /\ w_pos w' <> size bs).
Proof.
  split; [reflexivity|]. exists [1;2;3], [65;65;65;65;0]. eexists. split; [vm_compute; reflexivity|]. discriminate.
Qed.
Print Assumptions C12_decode_encode_refuted.

(** C13: a text that contains a terminating character is decoded from the view
    alone: the memory behind it does not matter. *)
Theorem C13_decode_local_partial : forall url w text after after',
  writer_ok w -> bytes_ok text -> bytes_ok after -> bytes_ok after' ->
  (exists c, In c text /\ b64_value url c = None) ->
  (forall vs, b64_leading url text = Some vs -> w_pos w + size (sextet_bytes vs) <= w_lim w) ->
  b64_decode url w (text ++ after) (mkView (Some 0) (size text)) =
  b64_decode url w (text ++ after') (mkView (Some 0) (size text)) /\
  b64_decode url w (text ++ after) (mkView (Some 0) (size text)) <> UB.
Proof.
  intros url w text after after' I F Fa Fa' (c & Hc & V) R.
  assert (size text <> 0) as Hn by (destruct text; [destruct Hc|rewrite size_cons; lia]).
  assert (exists vs, b64_leading url text = Some vs /\ forall x, b64_leading url (text ++ x) = Some vs) as (vs & E & Ex).
  { clear -Hc V. induction text as [|d t IH]; [destruct Hc|]. cbn [b64_leading app].
    destruct (b64_value url d) as [v|] eqn:D; [|exists []; auto].
    destruct Hc as [->|Hc]; [congruence|]. destruct (IH Hc) as (vs & E & Ex).
    exists (v :: vs). rewrite E. split; [reflexivity|]. intros x. now rewrite Ex. }
  specialize (R vs E).
  rewrite !(b64_decode_ok url w _ 0 _ vs); rewrite ?ndrop_0; auto;
    try (apply bytes_ok_app; split; assumption). split; [reflexivity|discriminate].
Qed.
Print Assumptions C13_decode_local_partial.

Example C13_decode_local_ok : In 61 [84;87;69;61] /\ b64_value false 61 = None.
Proof. split; [cbn; tauto|reflexivity]. Qed.

(** C13 in full is false: text without a terminator (every unpadded encoding)
    makes the decoder read behind the view. *)
Theorem C13_decode_local_refuted :
  (forall url w text, bytes_ok text -> text <> [] -> (forall c, In c text -> b64_value url c <> None) ->
     b64_decode url w text (mkView (Some 0) (size text)) = UB) /\
  (exists w text after after', b64_decode false w (text ++ after) (mkView (Some 0) (size text)) <>
     b64_decode false w (text ++ after') (mkView (Some 0) (size text))).
Proof.
  split.
  - intros url w text F Hne H. apply b64_decode_ub; [assumption| |rewrite ndrop_0].
    + destruct text; [contradiction|]. rewrite size_cons. lia.
    + clear -H. induction text as [|c t IH]; [reflexivity|]. cbn [b64_leading].
      destruct (b64_value url c) eqn:E; [|exfalso; apply (H c); [left; reflexivity|assumption]].
      rewrite IH; [reflexivity|]. intros d Hd. apply H. now right.
  - exists (writer_make (repeat 0 8)), [84;87;70;117], [0], [65;65;65;65;0]. vm_compute. discriminate.
Qed.
Print Assumptions C13_decode_local_refuted.

(** C14: decodedSize of a text of the standard encoder is the number of bytes. *)
Theorem C14_decodedSize_partial : forall bs, 4 * size bs + 12 < 2 ^ 62 ->
  b64_decodedSize (b64_text false bs) = Ret (size bs).
Proof. exact b64_decodedSize_text. Qed.
Print Assumptions C14_decodedSize_partial.

Example C14_decodedSize_ok : b64_decodedSize (b64_text false [1;2;3;4;255]) = Ret 5.
Proof. reflexivity. Qed.

(** C14 in full is false for the URL-safe decoder, which inherits a decodedSize
    that counts with the standard table. *)
Theorem C14_decodedSize_url_refuted : exists bs n,
  b64_decodedSize (b64_text true bs) = Ret n /\ n <> size bs.
Proof. exists [255;255;254], 0. split; [vm_compute; reflexivity|discriminate]. Qed.
Print Assumptions C14_decodedSize_url_refuted.
