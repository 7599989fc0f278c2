(** C160: encoding and decoding within one buffer. *)
From Verif Require Import Base BaseLemmas MemViewModel MemViewSpec ByteIOModel ByteIOSpec ByteIOProofs.
From Verif Require Import Base16Model Base16Spec Base16Proofs Base64Model Base64Spec Base64Proofs InPlaceModel InPlaceProofs InPlaceSharp InPlaceSharp64.

Lemma holds_section m w s n : s + n <= size (block m w) -> holds m w s (section (block m w) s n).
Proof.
  intros H i Hi. rewrite section_spec in *. rewrite size_ntake, size_ndrop in Hi.
  rewrite nnth_ntake by lia. now rewrite nnth_ndrop.
Qed.

Lemma size_section l s n : s + n <= size l -> size (section l s n) = n.
Proof. intros H. rewrite section_spec, size_ntake, size_ndrop. lia. Qed.

Lemma length_section l s n : s + n <= size l -> length (section l s n) = N.to_nat n.
Proof. intros H. apply size_section in H. unfold size in H. lia. Qed.

(** C160: decoding hexadecimal text that lies in the same block as the writer's storage, at the address
    the writer is at or after it, or one byte before it, or entirely before it, answers and writes what
    decoding a copy of the text would. *)
Theorem C160_decode16 : forall m w s n, writer_ok w -> s + n <= size (block m w) ->
  (size (before m) + w_pos w <= s + 1 \/ s + n <= size (before m) + w_pos w) ->
  b16_decode_in m w s (N.to_nat n) = b16_decode w (section (block m w) s n).
Proof.
  intros m w s n I R D. rewrite <- (length_section _ s n R). apply b16_decode_in_eq; [assumption|now apply holds_section|].
  now rewrite size_section.
Qed.
Print Assumptions C160_decode16.

(** C160: in particular, text denoting bytes is replaced by them. *)
Theorem C160_decode16_text : forall m w s n bs, writer_ok w -> s + n <= size (block m w) -> size (before m) + w_pos w <= s ->
  hex_value (section (block m w) s n) = Some bs -> w_pos w + size bs <= w_lim w ->
  b16_decode_in m w s (N.to_nat n) = Ret (Ok tt, appended w bs).
Proof.
  intros m w s n bs I R D V L. rewrite C160_decode16 by (assumption || lia). now apply b16_decode_ok.
Qed.
Print Assumptions C160_decode16_text.

(** C160: Base64: the characters of the alphabet found from the start of the source on are decoded as
    from a copy of them, when they start at the address the writer is at or after it, or end before it.
    So are up to two or exactly five characters anywhere, five or more that start one byte before the
    writer, and characters of which only the last one, left over after groups of four, is at the writer. *)
Theorem C160_decode64 : forall url m w s n, writer_ok w -> bytes_ok (block m w) -> n <> 0 ->
  match b64_leading url (skipn (N.to_nat s) (block m w)) with
  | Some vs =>
      (size (before m) + w_pos w <= s \/ s + size vs <= size (before m) + w_pos w \/ size vs <= 2 \/ size vs = 5 \/
       (size (before m) + w_pos w = s + 1 /\ 5 <= size vs) \/ (size vs mod 4 = 1 /\ size (before m) + w_pos w + 1 = s + size vs)) ->
      b64_decode_in url m w s n = b64_decode url w (block m w) (mkView (Some s) n)
  | None => b64_decode_in url m w s n = UB
  end.
Proof.
  intros url m w s n I F Hn. rewrite <- ndrop_skipn.
  assert (bytes_ok (ndrop s (block m w))) as F' by now apply bytes_ok_ndrop.
  unfold b64_decode_in, base64decode_in, b64_decode, base64decode; cbn [v_size v_addr].
  destruct (N.eqb_spec n 0); [contradiction|]. rewrite (b64_scan_spec url _ F').
  destruct (b64_leading url (ndrop s (block m w))) as [vs|] eqn:E; cbn [bind]; [|reflexivity].
  intros D. assert (size vs <= size (ndrop s (block m w))) as LE.
  { clear - E. revert vs E. induction (ndrop s (block m w)) as [|c t IH]; intros vs E; cbn in E; [discriminate|].
    destruct (b64_value url c); [|injection E as <-; rewrite size_nil; lia].
    destruct (b64_leading url t) as [vs'|]; [|discriminate]. injection E as <-. rewrite !size_cons. specialize (IH vs' eq_refl). lia. }
  set (L := size vs) in *. rewrite <- (N2Nat.id L) at 2. pose proof (used_le L) as UL.
  apply (b64_loop_in_eq m (table_of url) (N.to_nat L)); rewrite ?N2Nat.id; auto.
  - intros i Hi. rewrite size_ntake in Hi. rewrite nnth_ntake by lia. now rewrite nnth_ndrop.
  - unfold at_pos. destruct D as [D|[D|[D|[D|[D|(D1 & D2)]]]]]; [lia..|]. right. left. unfold used. rewrite D1. cbn [N.eqb Pos.eqb]. lia.
Qed.
Print Assumptions C160_decode64.

(** C160: an empty source is reported, as from a copy, and nothing is written. *)
Theorem C160_decode64_empty : forall url m w s v, v_size v = 0 ->
  b64_decode_in url m w s 0 = b64_decode url w (block m w) v /\ b64_decode_in url m w s 0 = Ret (Err E_NODATA, w).
Proof.
  intros url m w s v H. unfold b64_decode_in, base64decode_in, b64_decode, base64decode. rewrite H. split; reflexivity.
Qed.
Print Assumptions C160_decode64_empty.

(** C160: so the text of a message, followed by a byte outside the alphabet, is replaced by the message. *)
Theorem C160_decode64_text : forall url m w pre bs c post, writer_ok w -> bytes_ok (block m w) -> bytes_ok bs -> bs <> [] ->
  block m w = pre ++ b64_text url bs ++ c :: post -> b64_value url c = None ->
  size (before m) + w_pos w <= size pre -> w_pos w + size bs <= w_lim w ->
  b64_decode_in url m w (size pre) (size (b64_text url bs)) = Ret (Ok tt, appended w bs).
Proof.
  intros url m w pre bs c post I F Fb Hbs B V D L.
  assert (ndrop (size pre) (block m w) = b64_text url bs ++ c :: post) as E by (rewrite B; apply ndrop_app_exact).
  assert (size (b64_text url bs) <> 0) as Hn.
  { rewrite size_b64_text. destruct bs; [contradiction|]. rewrite size_cons.
    assert (1 <= (size bs + 1 + 2) / 3) by (apply N.div_le_lower_bound; lia). lia. }
  assert (b64_leading url (ndrop (size pre) (block m w)) = Some (sx bs)) as E0.
  { rewrite E. apply leading_text. right. exists c, post. auto. }
  pose proof (C160_decode64 url m w (size pre) _ I F Hn) as T. rewrite <- ndrop_skipn, E0 in T. rewrite T by auto.
  rewrite (b64_decode_ok url w _ (size pre) _ (sx bs)); auto; rewrite sextet_bytes_sx; auto.
Qed.
Print Assumptions C160_decode64_text.

(** C160: encoding grows: bytes in the same block as the writer's storage are encoded as a copy of them
    would be when they lie far enough behind the address the writer is at, or entirely before it. *)
Theorem C160_encode16 : forall m w s n, writer_ok w -> s + n <= size (block m w) ->
  (size (before m) + w_pos w + n <= s + 1 \/ s + n <= size (before m) + w_pos w) ->
  b16_encode_in m w s (N.to_nat n) = b16_encode w (section (block m w) s n).
Proof.
  intros m w s n I R D. rewrite <- (length_section _ s n R). apply b16_encode_in_eq; [assumption|now apply holds_section|].
  now rewrite size_section.
Qed.
Print Assumptions C160_encode16.

Theorem C160_encode64 : forall url m w s n, writer_ok w -> s + n <= size (block m w) ->
  (3 * (size (before m) + w_pos w) + n <= 3 * s + 3 \/ s + n <= size (before m) + w_pos w \/ n <= 3) ->
  b64_encode_in url m w s (N.to_nat n) = b64_encode url w (section (block m w) s n).
Proof.
  intros url m w s n I R D. rewrite <- (length_section _ s n R).
  apply base64encode_in_eq; [assumption|now apply holds_section|]. now rewrite size_section.
Qed.
Print Assumptions C160_encode64.

(** C160: for hexadecimal text these conditions are exact.  In every other position there is a buffer
    for which decoding or encoding within it does something else than with a copy. *)
Theorem C160_decode16_sharp : forall p s k cap, s + 2 <= p -> p < s + 2 * k -> p + k <= cap -> s + 2 * k <= cap -> cap < 2 ^ 64 ->
  exists w, writer_ok w /\ w_pos w = p /\ N.of_nat (length (w_buf w)) = cap /\
    b16_decode_in (mkAround [] []) w s (N.to_nat (2 * k)) <> b16_decode w (section (w_buf w) s (2 * k)).
Proof.
  intros p s k L H1 H2 H3 H4 H5. exists (mkWriter p L (repeat 48 (N.to_nat L))).
  assert (writer_ok (mkWriter p L (repeat 48 (N.to_nat L)))) as I by (unfold writer_ok; cbn; rewrite repeat_length; lia).
  split; [assumption|]. split; [reflexivity|]. split; [cbn; rewrite repeat_length; lia|].
  destruct (b16_decode_clash p s (N.to_nat k) (N.to_nat L)) as (w' & E); try lia.
  rewrite N2Nat.id in E. replace (N.to_nat (2 * k)) with (2 * N.to_nat k)%nat by lia. change (mkAround [] []) with alone. rewrite E.
  assert (section (repeat 48 (N.to_nat L)) s (2 * k) = repeat 48 (2 * N.to_nat k)) as S1.
  { apply nnth_ext; rewrite section_spec.
    - rewrite size_ntake, size_ndrop, !size_repeat. lia.
    - intros i Hi. rewrite size_ntake, size_ndrop, !size_repeat in Hi.
      rewrite nnth_ntake, nnth_ndrop, !nnth_repeat by lia. reflexivity. }
  cbn [w_buf]. rewrite S1.
  assert (forall m, hex_value (repeat 48 (2 * m)) = Some (repeat 0 m)) as V.
  { induction m as [|m IH]; [reflexivity|]. replace (2 * Datatypes.S m)%nat with (Datatypes.S (Datatypes.S (2 * m))) by lia.
    cbn [repeat hex_value]. rewrite IH. reflexivity. }
  rewrite (b16_decode_ok _ _ _ I (V (N.to_nat k))); [discriminate|]. rewrite size_repeat. cbn. lia.
Qed.
Print Assumptions C160_decode16_sharp.

Theorem C160_encode16_sharp : forall p s n cap, s + 1 < p + n -> p < s + n -> p + 2 * n <= cap -> s + n <= cap -> cap < 2 ^ 64 ->
  exists w, writer_ok w /\ w_pos w = p /\ N.of_nat (length (w_buf w)) = cap /\
    b16_encode_in (mkAround [] []) w s (N.to_nat n) <> b16_encode w (section (w_buf w) s n).
Proof.
  intros p s n L H1 H2 H3 H4 H5. set (w := mkWriter p L (repeat 0 (N.to_nat L))). exists w.
  assert (writer_ok w) as I by (unfold writer_ok; cbn; rewrite repeat_length; lia).
  split; [assumption|]. split; [reflexivity|]. split; [cbn; rewrite repeat_length; lia|].
  destruct (b16_encode_clash (N.to_nat n) w s) as (w' & E & _ & j & Hj & Nj);
    change (w_pos w) with p in *; change (w_lim w) with L in *;
    [exact I|lia|intros; apply nnth_repeat; lia|lia|lia|].
  change (mkAround [] []) with alone. rewrite E. assert (section (w_buf w) s n = repeat 0 (N.to_nat n)) as S1.
  { apply nnth_ext; rewrite section_spec; cbn [w w_buf].
    - rewrite size_ntake, size_ndrop, !size_repeat. lia.
    - intros i Hi. rewrite size_ntake, size_ndrop, !size_repeat in Hi.
      rewrite nnth_ntake, nnth_ndrop, !nnth_repeat by lia. reflexivity. }
  rewrite S1, b16_encode_ok; [|exact I|apply Forall_forall; intros x Hx; apply repeat_spec in Hx as ->; unfold is_byte; lia|rewrite size_repeat; change (w_pos w) with p; change (w_lim w) with L; lia].
  intros Q. injection Q as Q. apply Nj. rewrite Q. cbn [append w_buf w w_pos] in *.
  assert (forall m, hex_text (repeat 0 m) = repeat 48 (2 * m)) as V.
  { induction m as [|m IH]; [reflexivity|]. replace (2 * Datatypes.S m)%nat with (Datatypes.S (Datatypes.S (2 * m))) by lia.
    cbn [repeat]. rewrite <- IH. reflexivity. }
  rewrite V, <- overwrite_spliced, nnth_overwrite by (rewrite !size_repeat; lia). rewrite size_repeat.
  destruct (N.leb_spec p j); [|lia]. destruct (N.ltb_spec j (p + N.of_nat (2 * N.to_nat n))); [|lia]. cbn [andb].
  apply nnth_repeat. lia.
Qed.
Print Assumptions C160_encode16_sharp.

(** C160: and so are those for Base64, with either alphabet. *)
Theorem C160_encode64_sharp : forall url p s n cap, 3 < n -> 3 * s + 3 < 3 * p + n -> p < s + n ->
  p + 4 * ((n + 2) / 3) <= cap -> s + n <= cap -> cap < 2 ^ 64 ->
  exists w, writer_ok w /\ w_pos w = p /\ N.of_nat (length (w_buf w)) = cap /\
    b64_encode_in url (mkAround [] []) w s (N.to_nat n) <> b64_encode url w (section (w_buf w) s n).
Proof.
  intros url p s n L H1 H2 H3 H4 H5 H6. set (w := mkWriter p L (repeat 0 (N.to_nat L))). exists w.
  split; [unfold writer_ok; cbn; rewrite repeat_length; lia|]. split; [reflexivity|]. split; [cbn; rewrite repeat_length; lia|].
  assert (section (w_buf w) s n = repeat 0 (N.to_nat n)) as ->.
  { apply nnth_ext; rewrite section_spec; cbn [w w_buf].
    - rewrite size_ntake, size_ndrop, !size_repeat. lia.
    - intros i Hi. rewrite size_ntake, size_ndrop, !size_repeat in Hi.
      rewrite nnth_ntake, nnth_ndrop, !nnth_repeat by lia. reflexivity. }
  now apply (b64_encode_clash url p s n L).
Qed.
Print Assumptions C160_encode64_sharp.

Theorem C160_decode64_sharp : forall url p s l cap n, s < p -> p < s + l -> 2 < l -> l <> 5 ->
  (p = s + 1 -> l < 5) -> (l mod 4 = 1 -> p + 1 <> s + l) ->
  n <> 0 -> p + 3 * l / 4 <= cap -> s + l + 1 <= cap -> cap < 2 ^ 64 ->
  exists w vs, writer_ok w /\ w_pos w = p /\ N.of_nat (length (w_buf w)) = cap /\ bytes_ok (w_buf w) /\
    b64_leading url (skipn (N.to_nat s) (w_buf w)) = Some vs /\ N.of_nat (length vs) = l /\
    b64_decode_in url (mkAround [] []) w s n <> b64_decode url w (w_buf w) (mkView (Some s) n).
Proof.
  intros url p s l cap n H1 H2 H3 H4 H5 H6 Hn R1 R2 R3.
  exists (mkWriter p cap (ones_buf url s l cap)), (repeat 63 (N.to_nat l)).
  assert (N.of_nat (length (ones_buf url s l cap)) = cap) as SZ by (unfold ones_buf; rewrite !app_length; cbn [length]; rewrite !repeat_length; lia).
  split; [unfold writer_ok; cbn [w_pos w_lim w_buf]; lia|]. split; [reflexivity|]. split; [exact SZ|]. split; [apply ones_ok|].
  split; [rewrite <- ndrop_skipn; apply ones_leading|]. split; [rewrite repeat_length; lia|].
  apply (b64_decode_clash url p s l cap n); auto; lia.
Qed.
Print Assumptions C160_decode64_sharp.

(* "6162" decoded over itself; one byte further on it still is; two bytes further on the digits are lost *)
Example C160_decode16_ok :
  b16_decode_in (mkAround [] []) (mkWriter 0 6 [54;49;54;50;7;7]) 0 4 = Ret (Ok tt, mkWriter 2 6 [97;98;54;50;7;7]) /\
  b16_decode_in (mkAround [] []) (mkWriter 1 6 [54;49;54;50;7;7]) 0 4 = Ret (Ok tt, mkWriter 3 6 [54;97;98;50;7;7]) /\
  b16_decode_in (mkAround [] []) (mkWriter 2 6 [54;49;54;50;7;7]) 0 4 = Ret (Ok tt, mkWriter 4 6 [54;49;97;162;7;7]) /\
  b16_decode_in (mkAround [] []) (mkWriter 4 6 [54;49;54;50;7;7]) 0 4 = Ret (Ok tt, mkWriter 6 6 [54;49;54;50;97;98]).
Proof. repeat split; reflexivity. Qed.

(* "TWFu" decoded over itself, and one byte further on: the second and third bytes are wrong *)
Example C160_decode64_ok :
  b64_decode_in false (mkAround [] []) (mkWriter 0 6 [84;87;70;117;0;0]) 0 4 = Ret (Ok tt, mkWriter 3 6 [77;97;110;117;0;0]) /\
  b64_decode_in false (mkAround [] []) (mkWriter 1 6 [84;87;70;117;0;0]) 0 4 <> b64_decode false (mkWriter 1 6 [84;87;70;117;0;0]) [84;87;70;117;0;0] (mkView (Some 0) 4).
Proof. split; [reflexivity|]. vm_compute. discriminate. Qed.

(* bytes at the end of a buffer encoded into it from its start, and one byte too near *)
Example C160_encode_ok :
  b16_encode_in (mkAround [] []) (writer_make [0;0;0;31;160;255]) 3 3 = Ret (Ok tt, mkWriter 6 6 [49;102;97;48;102;102]) /\
  b16_encode_in (mkAround [] []) (mkWriter 2 6 [0;0;0;31;160;255]) 3 2 = Ret (Ok tt, mkWriter 6 6 [0;0;49;102;97;48]) /\
  b16_encode_in (mkAround [] []) (mkWriter 0 6 [0;31;160;255;0;0]) 1 3 = Ret (Ok tt, mkWriter 6 6 [49;102;97;48;51;48]) /\
  b64_encode_in false (mkAround [] []) (writer_make [0;77;97;110]) 1 3 = Ret (Ok tt, mkWriter 4 4 [84;87;70;117]) /\
  b64_encode_in false (mkAround [] []) (writer_make [0;0;77;97;110;77;97;110]) 2 6 = Ret (Ok tt, mkWriter 8 8 [84;87;70;117;84;87;70;117]).
Proof. repeat split; reflexivity. Qed.

(* the storage is a part of the block: text that starts inside it and ends behind it *)
Example C160_block_ok :
  b16_decode_in (mkAround [1] [54;50;9]) (mkWriter 0 3 [5;54;49]) 2 4 = Ret (Ok tt, mkWriter 2 3 [97;98;49]) /\
  b64_decode_in true (mkAround [7;7] [70;117;0]) (mkWriter 0 4 [0;0;84;87]) 4 4 = Ret (Ok tt, mkWriter 3 4 [77;97;110;87]) /\
  b16_encode_in (mkAround [7] [160]) (mkWriter 0 4 [0;0;0;31]) 4 2 = Ret (Ok tt, mkWriter 4 4 [49;102;97;48]).
Proof. repeat split; reflexivity. Qed.

(* "TWFuTWE" decoded one byte further on: as a copy; two bytes further on it is not *)
Example C160_decode64_case :
  b64_decode_in false (mkAround [] []) (mkWriter 1 8 [84;87;70;117;84;87;69;0]) 0 7 = Ret (Ok tt, mkWriter 6 8 [84;77;97;110;77;97;69;0]) /\
  b64_decode false (mkWriter 1 8 [84;87;70;117;84;87;69;0]) [84;87;70;117;84;87;69;0] (mkView (Some 0) 7) = Ret (Ok tt, mkWriter 6 8 [84;77;97;110;77;97;69;0]) /\
  b64_decode_in false (mkAround [] []) (mkWriter 2 8 [84;87;70;117;84;87;69;0]) 0 7 = Ret (Ok tt, mkWriter 7 8 [84;87;77;97;110;157;1;0]) /\
  b64_decode false (mkWriter 2 8 [84;87;70;117;84;87;69;0]) [84;87;70;117;84;87;69;0] (mkView (Some 0) 7) = Ret (Ok tt, mkWriter 7 8 [84;87;77;97;110;77;97;0]).
Proof. repeat split; reflexivity. Qed.
