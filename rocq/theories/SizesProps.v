(** C132: a destination of the predicted size is enough. *)
From Verif Require Import Base BaseLemmas MemViewModel MemViewSpec MemViewProofs ByteIOModel ByteIOSpec ByteIOProofs.
From Verif Require Import Base16Model Base16Spec Base16Proofs Base64Model Base64Spec Base64Proofs CodecSpec CodecProofs CodecProps.
Ltac Zify.zify_post_hook ::= Z.div_mod_to_equations.

(** Encoding works exactly when there is room for the predicted size, which is the size
    of the text written. *)
Theorem C132_encode : forall url w src, writer_ok w -> bytes_ok src -> 4 * size src + 12 < 2 ^ 64 ->
  (if b16_encodedSize (size src) <=? room w
   then b16_encode w src = Ret (Ok tt, appended w (hex_text src)) /\ size (hex_text src) = b16_encodedSize (size src)
   else exists w', b16_encode w src = Ret (Err E_Overflow, w')) /\
  (if b64_encodedSize (size src) <=? room w
   then b64_encode url w src = Ret (Ok tt, appended w (b64_text url src)) /\ size (b64_text url src) = b64_encodedSize (size src)
   else exists w', b64_encode url w src = Ret (Err E_Overflow, w')).
Proof.
  intros url w src I F L. rewrite C129_encode16, C129_encode64 by assumption.
  assert (b16_encodedSize (size src) = size (hex_text src)) as -> by (rewrite size_hex_text; unfold b16_encodedSize, u64; rewrite N.mod_small; lia).
  assert (b64_encodedSize (size src) = size (b64_text url src)) as -> by (rewrite size_b64_text; now apply b64_encodedSize_spec).
  unfold in_pieces. split.
  - destruct (size (hex_text src) <=? room w); [split; reflexivity|eauto].
  - destruct (size (b64_text url src) <=? room w); [split; reflexivity|eauto].
Qed.
Print Assumptions C132_encode.

Lemma size_hex_prefix t : 2 * size (hex_prefix t) <= size t.
Proof.
  induction t as [|a|a b t IH] using pair_ind; [cbn; lia|cbn; unfold size; cbn; lia|].
  cbn [hex_prefix]. destruct (_ : option N); [|rewrite (@size_nil N); lia].
  destruct (_ : option N); rewrite ?(@size_nil N), ?size_cons; lia.
Qed.

(** Base16 decoding with the predicted room, for arbitrary bytes: never an overflow; if
    it succeeds exactly that many bytes were added. *)
Theorem C132_decode16 : forall w src r w', writer_ok w -> bytes_ok src -> b16_decodedSize (size src) <= room w ->
  b16_decode w src = Ret (r, w') ->
  r <> Err E_Overflow /\
  (r = Ok tt -> exists bytes, w' = appended w bytes /\ hex_value src = Some bytes /\ size bytes = b16_decodedSize (size src)).
Proof.
  intros w src r w' I F R E. rewrite C129_decode16 in E by assumption. pose proof (size_hex_prefix src) as S. unfold b16_decodedSize in *.
  destruct (N.eqb_spec (size src mod 2) 0) as [P|P]; cbn [negb] in E; [|injection E as <- <-; split; discriminate].
  destruct (N.ltb_spec (room w) (size (hex_prefix src))); [lia|].
  destruct (N.eqb_spec (size src) (2 * size (hex_prefix src))) as [Q|Q].
  - injection E as <- <-. split; [discriminate|]. intros _. exists (hex_prefix src). split; [reflexivity|]. split; [|lia].
    clear - Q. induction src as [|a|a b t IH] using pair_ind; [reflexivity|cbn in Q; unfold size in Q; cbn in Q; lia|].
    cbn [hex_prefix hex_value] in *. destruct (digit_value a); [|rewrite (@size_nil N), !size_cons in Q; lia].
    destruct (digit_value b); [|rewrite (@size_nil N), !size_cons in Q; lia]. rewrite IH by (rewrite !size_cons in Q; lia). reflexivity.
  - destruct (existsb _ _); [discriminate|]. injection E as <- <-. split; discriminate.
Qed.
Print Assumptions C132_decode16.

(** The number predicted for a Base64 text: nothing unless the length is a multiple of
    four, otherwise three quarters of the leading characters of the standard alphabet. *)
Fixpoint leading_count (t : list N) : N :=
  match t with
  | [] => 0
  | c :: t' => match b64_value false c with Some _ => 1 + leading_count t' | None => 0 end
  end.
Lemma leading_count_ok t : match b64_leading false t with Some vs => leading_count t = size vs | None => leading_count t = size t end.
Proof.
  induction t as [|c t IH]; [reflexivity|]. cbn [leading_count b64_leading]. destruct (b64_value false c); [|reflexivity].
  destruct (b64_leading false t); cbn [option_map]; rewrite size_cons, IH; lia.
Qed.
Lemma leading_count_le t : leading_count t <= size t.
Proof.
  induction t as [|c t IH]; [cbn; lia|]. cbn [leading_count]. rewrite size_cons. destruct (b64_value false c); lia.
Qed.
Theorem C132_predicted64 : forall data, bytes_ok data -> 3 * size data < 2 ^ 64 ->
  b64_decodedSize data = Ret (if size data mod 4 =? 0 then 3 * leading_count data / 4 else 0).
Proof.
  intros data F L. unfold b64_decodedSize. pose proof (leading_count_le data). destruct (N.eqb_spec (size data) 0) as [E|E].
  - apply size_0_nil in E. subst. reflexivity.
  - destruct (N.eqb_spec (size data mod 4) 0); cbn [negb]; [|reflexivity]. rewrite b64_count_leading by assumption.
    pose proof (leading_count_ok data) as C. unfold u64.
    destruct (b64_leading false data); cbn [bind]; rewrite <- C, N.mod_small by lia; f_equal; f_equal; lia.
Qed.
Print Assumptions C132_predicted64.

Lemma size_octets_aux n : forall l, (length l <= n)%nat -> size (octets l) = N.of_nat (length l) / 8.
Proof.
  induction n as [|n IH]; intros l L.
  - destruct l; [reflexivity|cbn in L; lia].
  - do 8 (destruct l as [|? l]; [reflexivity|]). cbn [octets]. rewrite size_cons, IH by (cbn in L; lia). cbn [length].
    rewrite <- (N.div_add _ 1 8) by lia. f_equal. lia.
Qed.
Lemma size_sextet_bytes vs : size (sextet_bytes vs) = 3 * size vs / 4.
Proof.
  unfold sextet_bytes. rewrite (size_octets_aux _ _ (Nat.le_refl _)).
  assert (length (flat_map (bits 6) vs) = 6 * length vs)%nat as ->.
  { induction vs as [|v vs IH]; [reflexivity|]. cbn [flat_map length]. rewrite app_length, IH. unfold bits. rewrite map_length, seq_length. lia. }
  unfold size. lia.
Qed.

(** Base64 decoding of a text with a character outside the alphabet in it (such as '=')
    and a length that is a multiple of four: the predicted number is enough, and is the
    number of bytes added. *)
Theorem C132_decode64_partial : forall w before text after n, writer_ok w -> bytes_ok (before ++ text ++ after) ->
  3 * size text < 2 ^ 64 -> size text mod 4 = 0 -> (exists c, In c text /\ b64_value false c = None) ->
  b64_decodedSize text = Ret n -> n <= room w ->
  exists vs, b64_leading false text = Some vs /\ size (sextet_bytes vs) = n /\
    b64_decode false w (before ++ text ++ after) (mkView (Some (size before)) (size text)) = Ret (Ok tt, appended w (sextet_bytes vs)).
Proof.
  intros w before text after n I F L M (c & Hc & V) E R.
  apply bytes_ok_app in F as (F0 & F). pose proof F as F1. apply bytes_ok_app in F1 as (F1 & F2).
  assert (exists vs, b64_leading false text = Some vs /\ forall x, b64_leading false (text ++ x) = Some vs) as (vs & Q & Qx).
  { clear -Hc V. induction text as [|d t IH]; [destruct Hc|]. cbn [b64_leading app].
    destruct (b64_value false d) as [v|] eqn:D; [|exists []; auto].
    destruct Hc as [->|Hc]; [congruence|]. destruct (IH Hc) as (vs & E & Ex).
    exists (v :: vs). rewrite E. split; [reflexivity|]. intros x. now rewrite Ex. }
  exists vs. split; [exact Q|]. rewrite C132_predicted64 in E by assumption. rewrite M in E. change (0 =? 0) with true in E. cbv iota in E.
  assert (3 * leading_count text / 4 = n) as E' by congruence. clear E. rename E' into E.
  pose proof (leading_count_ok text) as C. rewrite Q in C. rewrite C in E. rewrite size_sextet_bytes. split; [exact E|].
  pose proof (I : winv w) as (H1 & H2 & H3). unfold room in R.
  rewrite (b64_decode_ok false w _ (size before) _ vs); auto.
  - apply bytes_ok_app; split; assumption.
  - destruct text; [destruct Hc|]. rewrite size_cons. lia.
  - rewrite ndrop_app_exact. apply Qx.
  - rewrite size_sextet_bytes. lia.
Qed.
Print Assumptions C132_decode64_partial.

(** Otherwise nothing is predicted, although the text is decoded: for a length that is no
    multiple of four, and for a URL-safe text that starts with '-' or '_'. *)
Theorem C132_decode64_refuted : forall url w text vs, writer_ok w -> bytes_ok text -> 3 * size text < 2 ^ 64 ->
  b64_leading url text = Some vs -> 2 <= size vs ->
  size text mod 4 <> 0 \/ url = true /\ (exists t, text = 45 :: t \/ text = 95 :: t) ->
  b64_decodedSize text = Ret 0 /\
  (room w = 0 -> exists w', b64_decode url w text (mkView (Some 0) (size text)) = Ret (Err E_Overflow, w')) /\
  (size (sextet_bytes vs) <= room w -> sextet_bytes vs <> [] /\
     b64_decode url w text (mkView (Some 0) (size text)) = Ret (Ok tt, appended w (sextet_bytes vs))).
Proof.
  intros url w text vs I F L E S H. pose proof (size_sextet_bytes vs) as B.
  assert (sextet_bytes vs <> []) as NE by (intros Q; rewrite Q, (@size_nil N) in B; lia).
  assert (size text <> 0) as NZ by (destruct text; [discriminate E|rewrite size_cons; lia]).
  split; [|split].
  - rewrite C132_predicted64 by assumption. f_equal. destruct H as [H|(-> & t & H)].
    + now destruct (N.eqb_spec (size text mod 4) 0).
    + destruct H as [-> | ->]; cbn [leading_count]; now destruct (_ =? 0).
  - intros R. rewrite C129_decode64 by assumption. destruct (N.eqb_spec (size text) 0); [contradiction|]. cbn [N.to_nat skipn]. rewrite E.
    unfold then_pieces, in_pieces. rewrite R. set (a := firstn (grouped vs) (sextet_bytes vs)). set (b := skipn (grouped vs) (sextet_bytes vs)).
    destruct (N.leb_spec (size a) 0) as [A|A]; [|eauto].
    assert (a = []) as Ea by (apply size_0_nil; lia). rewrite Ea. change (appended w []) with (append w []). pose proof (I : winv w) as (H1 & H2 & H3).
    rewrite append_nil by lia. rewrite R. assert (size b = size (sextet_bytes vs)) as Sb.
    { unfold b. rewrite <- (firstn_skipn (grouped vs) (sextet_bytes vs)) at 2. fold a. now rewrite Ea. }
    destruct (N.leb_spec (size b) 0); [lia|eauto].
  - intros R. split; [exact NE|]. pose proof (I : winv w) as (H1 & H2 & H3). unfold room in R.
    rewrite (b64_decode_ok url w _ 0 _ vs); rewrite ?ndrop_0; auto; lia.
Qed.
Print Assumptions C132_decode64_refuted.

Example C132_ok :
  (exists c, In c [84;87;69;61] /\ b64_value false c = None) /\ b64_decodedSize [84;87;69;61] = Ret 2 /\
  b64_leading false [84;87;69;61;10] = Some [19; 22; 4] /\ size [84;87;69;61;10] mod 4 <> 0 /\
  b64_leading true [45;45;61;61] = Some [62; 62] /\ b16_decodedSize (size [65; 66; 71]) = 1.
Proof. split; [exists 61; split; [cbn; tauto|reflexivity]|]. repeat split. discriminate. Qed.
