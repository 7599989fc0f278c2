From Verif Require Import Base BaseLemmas MemViewModel MemViewSpec MemViewProofs ByteIOModel ByteIOSpec ByteIOProofs.
From Verif Require Import LexSpec LexProofs Base16Model Base16Spec Base16Proofs UUIDModel UUIDSpec UUIDProofs.

(** C16: toString writes the canonical 36 characters into any buffer of at least 36
    bytes and leaves the rest of the buffer alone. *)
Theorem C16_to_string : forall u buf, is_uuid u -> 36 <= size buf -> size buf < 2 ^ 64 ->
  uuid_toString_buf u buf = Ret (uuid_text u, uuid_text u ++ skipn 36 buf) /\ length (uuid_text u) = 36%nat.
Proof.
  intros u buf H H1 H2. rewrite toString_buf_ok by assumption. rewrite ndrop_skipn. split; [reflexivity|].
  pose proof (hex_group u 0 4 H) as (E1 & _); [lia|]. pose proof (hex_group u 4 2 H) as (E2 & _); [lia|].
  pose proof (hex_group u 6 2 H) as (E3 & _); [lia|]. pose proof (hex_group u 8 2 H) as (E4 & _); [lia|].
  pose proof (hex_group u 10 6 H) as (E5 & _); [lia|]. unfold uuid_text, size in *. rewrite !app_length. cbn [length]. lia.
Qed.
Print Assumptions C16_to_string.

(** C16: parsing what toString produced gives the UUID back, whatever the stack
    buffer held before and whatever memory follows the text. *)
Theorem C16_round_trip : forall u garbage after, is_uuid u -> length garbage = 36%nat ->
  exists t, uuid_toString u garbage = Ret t /\ uuid_parse t after = Ret (Ok (map Some u)).
Proof.
  intros u g after H L. exists (uuid_text u). split; [|now apply parse_text].
  unfold uuid_toString. rewrite toString_buf_ok; [reflexivity|assumption|unfold size; lia|unfold size; lia].
Qed.
Print Assumptions C16_round_trip.

Definition sample_uuid : list N := [18;62;69;103;232;155;18;211;164;86;66;102;85;68;0;0].
Example C16_ok : is_uuid sample_uuid /\
  uuid_text sample_uuid = [49;50;51;101;52;53;54;55;45;101;56;57;98;45;49;50;100;51;45;97;52;53;54;45;
                           52;50;54;54;53;53;52;52;48;48;48;48].
Proof. split; [split; [reflexivity|repeat constructor]|reflexivity]. Qed.

(** C17: a 7-bit text whose dashes are exactly where they belong is parsed strictly:
    the result is the value of its digits, whose canonical text is the input up to
    letter case, or an error; a text of the wrong length is an error.  Missing:
    all other texts of 36 characters, see the refutations. *)
Theorem C17_strict_partial : forall t after,
  (length t <> 36%nat -> exists e, uuid_parse t after = Ret (Err e)) /\
  (ascii7 t -> dash_positions t ->
    match hex_value (filter (fun c => negb (c =? 45)) t) with
    | Some u => uuid_parse t after = Ret (Ok (map Some u)) /\ is_uuid u /\ uuid_text u = map lower t
    | None => exists e, uuid_parse t after = Ret (Err e)
    end).
Proof.
  intros t after. split.
  - intros H. unfold uuid_parse. destruct (N.eqb_spec (size t) 36) as [E|E]; [unfold size in E; lia|]. cbn [negb]. eauto.
  - intros F D. destruct (dash_positions_grouped t F D) as (g1 & g2 & g3 & g4 & g5 & -> & G1 & G2 & G3 & G4 & G5).
    rewrite filter_grouped, parse_grouped by assumption.
    destruct (hex_value (g1 ++ g2 ++ g3 ++ g4 ++ g5)) as [bs|] eqn:E; [|eauto].
    split; [reflexivity|]. now apply grouped_text.
Qed.
Print Assumptions C17_strict_partial.

Example C17_strict_partial_ok : ascii7 (uuid_text sample_uuid) /\ dash_positions (uuid_text sample_uuid).
Proof.
  split; [repeat constructor|]. split; [reflexivity|]. intros i Hi.
  do 36 (destruct i as [|i]; [cbn; split; [intros; try discriminate; tauto|intros; try lia; reflexivity]|]). lia.
Qed.

(** C17 in full is false.  Thirty-six digits without dashes are written past the end
    of the 16-byte value. *)
Theorem C17_overflow_refuted : forall t bs after, length t = 36%nat -> hex_value t = Some bs ->
  uuid_parse t after = UB.
Proof.
  intros t bs after L E. unfold uuid_parse. assert (size t = 36) as S by (unfold size; lia). rewrite S.
  cbn [N.eqb Pos.eqb negb].
  rewrite <- (firstn_skipn 32 t) in E |- *. set (a := firstn 32 t) in *. set (b := skipn 32 t) in *.
  assert (size a = 32) as Sa by (unfold a, size; rewrite firstn_length; lia).
  assert (size b = 4) as Sb by (unfold b, size; rewrite skipn_length; lia). clearbody a b.
  rewrite hex_value_app in E by (rewrite Sa; reflexivity).
  destruct (hex_value a) as [va|] eqn:Ea; [|discriminate]. destruct (hex_value b) as [vb|] eqn:Eb; [|discriminate].
  pose proof (hex_value_size _ _ Ea) as (Za & _).
  rewrite <- app_assoc, (parse_group a va) by (assumption || (rewrite ?(@size_nil N); lia)). rewrite Sa.
  destruct b as [|x [|y b]]; [discriminate Sb..|]. cbn [hex_value] in Eb.
  destruct (digit_value x) as [h|] eqn:Ex; [|discriminate]. destruct (digit_value y) as [l|] eqn:Ey; [|discriminate].
  pose proof (digit_not_dash _ _ Ex). pose proof (digit_value_lt _ _ Ex) as (_ & ?). pose proof (digit_value_lt _ _ Ey) as (_ & ?).
  cbn [app uuid_parse_loop]. change (0 + 32 <? 36) with true. cbn [bind]. destruct (N.eqb_spec x 45); [lia|].
  rewrite !charToBin_spec, Ex, Ey by assumption. cbn [bind app]. destruct (N.leb_spec 16 (size va)); [reflexivity|lia].
Qed.
Print Assumptions C17_overflow_refuted.
Example C17_overflow_refuted_ok : hex_value (repeat 48 36) = Some (repeat 0 18).
Proof. reflexivity. Qed.

(** Misplaced dashes are accepted as a UUID with a different text. *)
Theorem C17_misplaced_refuted : exists t u, ascii7 t /\ length t = 36%nat /\ is_uuid u /\
  (forall after, uuid_parse t after = Ret (Ok (map Some u))) /\ uuid_text u <> map lower t.
Proof.
  exists (repeat 45 4 ++ repeat 49 32), (repeat 17 16). split; [repeat constructor|]. split; [reflexivity|].
  split; [split; [reflexivity|repeat constructor]|]. split; [intros [|]; reflexivity|discriminate].
Qed.
Print Assumptions C17_misplaced_refuted.

(** A text of dashes only is accepted and all 16 bytes of the result are indeterminate. *)
Theorem C17_indeterminate_refuted : forall after, uuid_parse (repeat 45 36) after = Ret (Ok (repeat None 16)).
Proof. intros [|]; reflexivity. Qed.
Print Assumptions C17_indeterminate_refuted.

(** The character after the end of the text is read: the result depends on it. *)
Theorem C17_overread_refuted :
  let t := repeat 45 35 ++ [48] in
  uuid_parse t [] = UB /\ uuid_parse t [49] = Ret (Ok (Some 1 :: repeat None 15)) /\
  uuid_parse t [50] = Ret (Ok (Some 2 :: repeat None 15)).
Proof. repeat split. Qed.
Print Assumptions C17_overread_refuted.

(** A byte above 127 at the front indexes past the decoding table. *)
Theorem C17_high_byte_refuted : forall c t after, 128 <= c -> length t = 35%nat -> uuid_parse (c :: t) after = UB.
Proof.
  intros c t after H L. unfold uuid_parse. rewrite size_cons. replace (size t + 1) with 36 by (unfold size; lia).
  cbn [N.eqb Pos.eqb negb app uuid_parse_loop N.ltb N.compare]. destruct (N.eqb_spec c 45); [lia|].
  now rewrite charToBin_high.
Qed.
Print Assumptions C17_high_byte_refuted.

(** C18: == is equality of all bytes and != its negation. *)
Theorem C18_equality : forall u v, is_uuid u -> is_uuid v ->
  (uuid_eq u v = true <-> u = v) /\ (uuid_ne u v = true <-> u <> v).
Proof.
  intros u v (L1 & _) (L2 & _). assert (uuid_eq u v = true <-> u = v) as E by (apply uuid_eq_spec; congruence).
  split; [exact E|]. unfold uuid_ne. destruct (uuid_eq u v); cbn; split; intros H.
  - discriminate.
  - exfalso. now apply H, E.
  - intros ->. destruct E as [_ E]. now specialize (E eq_refl).
  - reflexivity.
Qed.
Print Assumptions C18_equality.

(** C18: < is lexicographic order; the other comparisons are derived from it. *)
Theorem C18_order : forall u v, is_uuid u -> is_uuid v ->
  (uuid_lt u v = true <-> lex_lt u v) /\ (uuid_gt u v = true <-> lex_lt v u) /\
  (uuid_le u v = true <-> lex_lt u v \/ u = v) /\ (uuid_ge u v = true <-> lex_lt v u \/ u = v).
Proof.
  intros u v (L1 & _) (L2 & _).
  assert (uuid_lt u v = true <-> lex_lt u v) as A by (apply uuid_lt_spec; congruence).
  assert (uuid_lt v u = true <-> lex_lt v u) as B by (apply uuid_lt_spec; congruence).
  split; [exact A|]. split; [exact B|]. unfold uuid_le, uuid_ge.
  pose proof (lex_total u v) as T. pose proof (lex_asym u v) as X. pose proof (lex_asym v u) as Y.
  destruct (uuid_lt u v), (uuid_lt v u); cbn;
    repeat match goal with H : true = true <-> _ |- _ => assert (H' := proj1 H eq_refl); clear H
                         | H : false = true <-> ?P |- _ => assert (~ P) by (intros Q; apply H in Q; discriminate); clear H end;
    split; split; intros; try discriminate; try tauto;
    match goal with H : _ \/ u = v |- _ => destruct H as [H| ->]; [tauto|] end; exfalso;
    match goal with H : lex_lt ?x ?x |- _ => exact (lex_irrefl _ H) end.
Qed.
Print Assumptions C18_order.

(** C18: < is a strict total order consistent with ==. *)
Theorem C18_strict_total_order : forall u v w, is_uuid u -> is_uuid v -> is_uuid w ->
  uuid_lt u u = false /\
  (uuid_lt u v = true -> uuid_lt v w = true -> uuid_lt u w = true) /\
  (uuid_lt u v = true \/ uuid_eq u v = true \/ uuid_lt v u = true) /\
  ~ (uuid_lt u v = true /\ uuid_eq u v = true) /\ ~ (uuid_lt u v = true /\ uuid_lt v u = true).
Proof.
  intros u v w (L1 & _) (L2 & _) (L3 & _).
  assert (forall a b, length a = 16%nat -> length b = 16%nat -> (uuid_lt a b = true <-> lex_lt a b)) as A
    by (intros; apply uuid_lt_spec; congruence).
  assert (uuid_eq u v = true <-> u = v) as E by (apply uuid_eq_spec; congruence).
  rewrite !A, E by assumption. split; [|split; [|split; [|split]]].
  - destruct (uuid_lt u u) eqn:X; [|reflexivity]. exfalso. apply A in X; [|assumption..]. exact (lex_irrefl _ X).
  - apply lex_trans.
  - apply lex_total.
  - intros (H & ->). exact (lex_irrefl _ H).
  - intros (H1 & H2). exact (lex_asym _ _ H1 H2).
Qed.
Print Assumptions C18_strict_total_order.

(** C18: isNull, swap and the assignments. *)
Theorem C18_null_swap : forall u v, is_uuid u -> is_uuid v ->
  (uuid_isNull u = true <-> u = repeat 0 16) /\
  uuid_swap u v = (v, u) /\ fst (uuid_copy_assign u v) = v /\ snd (uuid_copy_assign u v) = v /\
  fst (uuid_move_assign u v) = v.
Proof.
  intros u v (L & _) _. split; [|repeat split]. rewrite isNull_spec. split.
  - intros F. rewrite <- L. clear L. induction F as [|b l -> _ IH]; [reflexivity|]. cbn. now f_equal.
  - intros ->. repeat constructor.
Qed.
Print Assumptions C18_null_swap.

Example C18_ok : is_uuid sample_uuid /\ is_uuid uuid_null /\ uuid_lt uuid_null sample_uuid = true.
Proof. repeat split; repeat constructor. Qed.

(** C57: makeUUID of a view of at least 16 bytes takes the first 16 of them and
    raises an exception for a shorter view. *)
Theorem C57_from_view : forall mem v, valid mem v ->
  makeUUID_view mem v = if 16 <=? v_size v then Ret (firstn 16 (contents mem v)) else Throws AssertFailed.
Proof.
  intros mem v V. unfold makeUUID_view. destruct (N.leb_spec 16 (v_size v)); [|reflexivity].
  now rewrite uuid_copy_spec by (assumption || (cbn; lia)).
Qed.
Print Assumptions C57_from_view.
Example C57_from_view_ok : valid (repeat 7 20) (storage_view (repeat 7 20)) /\
  makeUUID_view (repeat 7 20) (storage_view (repeat 7 20)) = Ret (repeat 7 16).
Proof. split; [apply storage_valid|reflexivity]. Qed.

(** C57: makeUUID of four words lays out each word in host byte order. *)
Theorem C57_from_words : forall host_be garbage a0 a1 a2 a3, length garbage = 16%nat ->
  makeUUID_words host_be garbage a0 a1 a2 a3 =
    Ret (order_bytes host_be 4 a0 ++ order_bytes host_be 4 a1 ++ order_bytes host_be 4 a2 ++ order_bytes host_be 4 a3).
Proof.
  intros h g a0 a1 a2 a3 L. unfold makeUUID_words, w_writeRaw.
  assert (forall a, host_store h W32 a = order_bytes h 4 a) as R.
  { intros a. unfold host_store, order_bytes, be_bytes. rewrite <- le_store_spec. now destruct h. }
  rewrite !R. assert (forall a, size (order_bytes h 4 a) = 4) as S by (intros; unfold size; rewrite order_bytes_length; reflexivity).
  set (w0 := writer_make g). assert (winv w0) as I0 by (unfold w0, winv, writer_make, size; cbn; lia).
  assert (w_pos w0 = 0 /\ w_lim w0 = 16 /\ w_buf w0 = g) as (P & Q & B)
    by (unfold w0, writer_make, size; cbn; rewrite L; auto).
  rewrite (w_write_append w0) by (assumption || (rewrite S; lia)). cbn [bind snd].
  assert (forall w x, winv w -> w_pos w + 4 <= w_lim w -> winv (append w (order_bytes h 4 x)) /\
     w_pos (append w (order_bytes h 4 x)) = w_pos w + 4 /\ w_lim (append w (order_bytes h 4 x)) = w_lim w) as A.
  { intros w x I H. split; [apply append_inv; rewrite ?S; assumption|]. cbn. rewrite S. auto. }
  destruct (A w0 a0 I0) as (I1 & P1 & Q1); [lia|].
  rewrite w_write_append by (assumption || (rewrite S; lia)). cbn [bind snd].
  destruct (A _ a1 I1) as (I2 & P2 & Q2); [lia|].
  rewrite w_write_append by (assumption || (rewrite S; lia)). cbn [bind snd].
  destruct (A _ a2 I2) as (I3 & P3 & Q3); [lia|].
  rewrite w_write_append by (assumption || (rewrite S; lia)). cbn [bind snd].
  assert (size g = 16) as Sg by (unfold size; lia).
  rewrite (append_app w0) by (rewrite !S, B; lia).
  rewrite (append_app w0) by (rewrite !size_app, !S, B; lia).
  rewrite (append_app w0) by (rewrite !size_app, !S, B; lia).
  f_equal. unfold append. cbn [w_buf]. rewrite P, B, <- overwrite_spliced. unfold overwrite.
  rewrite ntake_0, ndrop_all by (rewrite !size_app, !S; lia). rewrite app_nil_r. cbn [app]. now rewrite <- !app_assoc.
Qed.
Print Assumptions C57_from_words.
Example C57_from_words_ok : makeUUID_words false (repeat 255 16) 1 2 3 0x04030201 =
  Ret [1;0;0;0; 2;0;0;0; 3;0;0;0; 1;2;3;4].
Proof. reflexivity. Qed.

(** Indexing gives the byte, an assignment changes that one only; all other indices are
    refused. *)
Theorem C57_index : forall u i b, is_uuid u ->
  uuid_index u i = match nth_error u (N.to_nat i) with Some x => Ret x | None => Throws IndexOutOfRange end /\
  match nth_error u (N.to_nat i) with
  | None => uuid_assign u i b = Throws IndexOutOfRange
  | Some _ => exists u', uuid_assign u i b = Ret u' /\ (is_byte b -> is_uuid u') /\
      forall j, nth_error u' j = if Nat.eqb j (N.to_nat i) then Some b else nth_error u j
  end.
Proof.
  intros u i b (L & F). unfold uuid_index, uuid_assign. rewrite nnth_nth_error.
  destruct (N.leb_spec 16 i) as [H|H].
  - assert (nth_error u (N.to_nat i) = None) as -> by (apply nth_error_None; lia). now split.
  - destruct (nth_error u (N.to_nat i)) as [x|] eqn:E; [|apply nth_error_None in E; lia].
    split; [reflexivity|]. eexists. split; [reflexivity|].
    assert (overwrite u i [b] = firstn (N.to_nat i) u ++ b :: skipn (S (N.to_nat i)) u) as ->.
    { unfold overwrite. rewrite ntake_firstn, ndrop_skipn. cbn [app]. do 3 f_equal. unfold size. cbn [length]. lia. }
    split.
    + intros B. unfold bytes_ok in F. rewrite Forall_forall in F. split.
      * rewrite app_length, firstn_length. cbn [length]. rewrite skipn_length. lia.
      * apply Forall_app. split; [apply Forall_forall; intros y Y; apply F; rewrite <- (firstn_skipn (N.to_nat i) u); apply in_or_app; now left|].
        constructor; [exact B|]. apply Forall_forall; intros y Y; apply F; rewrite <- (firstn_skipn (S (N.to_nat i)) u); apply in_or_app; now right.
    + intros j. destruct (Nat.eqb_spec j (N.to_nat i)) as [->|D].
      * rewrite nth_error_app2 by (rewrite firstn_length; lia). rewrite firstn_length. replace (N.to_nat i - _)%nat with 0%nat by lia. reflexivity.
      * destruct (Nat.lt_ge_cases j (N.to_nat i)) as [G|G].
        -- rewrite nth_error_app1 by (rewrite firstn_length; lia). rewrite <- (firstn_skipn (N.to_nat i) u) at 2. rewrite nth_error_app1 by (rewrite firstn_length; lia). reflexivity.
        -- rewrite nth_error_app2 by (rewrite firstn_length; lia). rewrite firstn_length.
           replace (j - Nat.min (N.to_nat i) (length u))%nat with (S (j - S (N.to_nat i)))%nat by lia. cbn [nth_error].
           rewrite <- (firstn_skipn (S (N.to_nat i)) u) at 2. rewrite nth_error_app2 by (rewrite firstn_length; lia). f_equal. rewrite firstn_length. lia.
Qed.
Print Assumptions C57_index.
Example C57_index_ok : is_uuid sample_uuid /\ exists u, uuid_assign sample_uuid 15 7 = Ret u /\ uuid_index u 15 = Ret 7 /\
  uuid_index u 16 = Throws IndexOutOfRange /\ u <> sample_uuid.
Proof. split; [repeat split; repeat constructor|]. eexists. split; [reflexivity|]. repeat split. discriminate. Qed.
