(** C88: printing a UUID into a buffer of any length. *)
From Verif Require Import Base BaseLemmas MemViewModel MemViewSpec MemViewProofs ByteIOModel ByteIOSpec ByteIOProofs.
From Verif Require Import Base16Model Base16Spec Base16Proofs UUIDModel UUIDSpec UUIDProofs UUIDProps.

Lemma skipn_skipn {A} n m (l : list A) : skipn n (skipn m l) = skipn (m + n) l.
Proof. revert l. induction m as [|m IH]; intros l; [reflexivity|]. destruct l; cbn; [apply skipn_nil|apply IH]. Qed.

(** A writer that has put [t] at the start of [buf]. *)
Definition at_text (buf t : list N) (w : writer) : Prop :=
  w = mkWriter (size t) (size buf) (t ++ skipn (length t) buf) /\ size t <= size buf /\ size buf < 2 ^ 64.
(** The text grows by what fits. *)
Definition push (n : N) (t c : list N) : list N := if size t + size c <=? n then t ++ c else t.

Lemma at_inv buf t w : at_text buf t w -> winv w /\ w_pos w = size t /\ w_lim w = size buf /\ size (w_buf w) = size buf.
Proof.
  intros (-> & L & S). cbn. assert (X : size (t ++ skipn (length t) buf) = size buf).
  { rewrite size_app. unfold size in *. rewrite skipn_length. lia. }
  unfold winv. cbn [w_pos w_lim w_buf]. rewrite X. repeat split; lia.
Qed.
Lemma write_push buf t w c : at_text buf t w -> size c < 2 ^ 64 -> exists r w',
  w_write w c = Ret (r, w') /\ at_text buf (push (size buf) t c) w' /\
  (r = Ok tt /\ size t + size c <= size buf \/ r = Err E_Overflow /\ size buf < size t + size c).
Proof.
  intros A C. destruct (at_inv _ _ _ A) as (I & P & Q & B). rewrite (w_write_spec w c I C), P, Q, B. unfold push.
  destruct (N.leb_spec (size t + size c) (size buf)) as [H|H].
  - eexists _, _. split; [reflexivity|]. destruct A as (-> & L & S). split; [|left; now split]. cbn [w_buf].
    split; [|split; [rewrite size_app; lia|exact S]]. f_equal; [now rewrite size_app|].
    unfold spliced. replace (N.to_nat (size t)) with (length t) by (unfold size; lia).
    rewrite firstn_app, Nat.sub_diag, firstn_O, app_nil_r, firstn_all. rewrite <- app_assoc. f_equal. f_equal.
    rewrite skipn_app, skipn_all2 by lia. replace (length t + length c - length t)%nat with (length c) by lia. cbn [app].
    rewrite skipn_skipn, app_length. reflexivity.
  - rewrite (proj2 (N.ltb_lt _ _)) by exact H. eexists _, _. split; [reflexivity|]. split; [exact A|]. right. now split.
Qed.

Definition digits (b : N) : list N := [hex_digit (b / 16); hex_digit (b mod 16)].
Lemma push_full n t c : n < size t + size c -> push n t c = t.
Proof. intros H. unfold push. now rewrite (proj2 (N.leb_gt _ _)). Qed.
Lemma pushes_full n t bs : n < size t + 2 -> fold_left (push n) (map digits bs) t = t.
Proof. intros H. induction bs as [|b bs IH]; [reflexivity|]. cbn [map fold_left]. now rewrite push_full. Qed.

Lemma encode_push buf bs : forall t w, at_text buf t w -> bytes_ok bs -> exists r w',
  b16_encode w bs = Ret (r, w') /\ at_text buf (fold_left (push (size buf)) (map digits bs) t) w'.
Proof.
  induction bs as [|b bs IH]; intros t w A B; [eexists _, _; split; [reflexivity|exact A]|].
  inversion B; subst. cbn [b16_encode map fold_left]. rewrite b16_pair_spec by assumption. cbn [bind].
  destruct (write_push buf t w (digits b) A) as (r & w' & E & A' & R); [reflexivity|]. unfold digits in E at 1. rewrite E. cbn [bind].
  destruct R as [(-> & F)|(-> & F)].
  - now apply IH.
  - eexists _, _. split; [reflexivity|]. rewrite push_full in * by exact F. rewrite pushes_full by exact F. exact A'.
Qed.
Lemma put_push buf t w u from to : at_text buf t w -> bytes_ok u -> exists w',
  uuid_put u from to w = Ret w' /\ at_text buf (fold_left (push (size buf)) (map digits (section u from (to - from))) t) w'.
Proof.
  intros A B. unfold uuid_put, view_bytes.
  rewrite load_valid_all by (apply slice_valid, storage_valid). rewrite slice_contents by apply storage_valid.
  rewrite storage_contents, range_spec, <- section_spec. cbn [bind].
  destruct (encode_push buf (section u from (to - from)) t w A) as (r & w' & E & A'); [now apply bytes_ok_section|].
  rewrite E. cbn [bind snd]. eauto.
Qed.
Lemma dash_push buf t w : at_text buf t w -> exists w', uuid_dash w = Ret w' /\ at_text buf (push (size buf) t [45]) w'.
Proof.
  intros A. unfold uuid_dash. destruct (write_push buf t w [45] A) as (r & w' & -> & A' & _); [reflexivity|]. cbn [bind snd]. eauto.
Qed.

Definition chunks (u : list N) : list (list N) :=
  map digits (section u 0 4) ++ [[45]] ++ map digits (section u 4 2) ++ [[45]] ++ map digits (section u 6 2) ++ [[45]] ++
  map digits (section u 8 2) ++ [[45]] ++ map digits (section u 10 6).

Lemma toString_chunks u buf : is_uuid u -> size buf <= 36 ->
  let t := fold_left (push (size buf)) (chunks u) [] in
  uuid_toString_buf u buf = Ret (t ++ skipn (length t) buf, t ++ skipn (length t) buf).
Proof.
  intros (_ & B) S t. assert (A : at_text buf [] (writer_make buf)) by (split; [reflexivity|]; rewrite (@size_nil N); lia).
  unfold uuid_toString_buf.
  destruct (put_push _ _ _ u 0 4 A B) as (w1 & -> & A1). cbn [bind]. destruct (dash_push _ _ _ A1) as (w2 & -> & A2). cbn [bind].
  destruct (put_push _ _ _ u 4 6 A2 B) as (w3 & -> & A3). cbn [bind]. destruct (dash_push _ _ _ A3) as (w4 & -> & A4). cbn [bind].
  destruct (put_push _ _ _ u 6 8 A4 B) as (w5 & -> & A5). cbn [bind]. destruct (dash_push _ _ _ A5) as (w6 & -> & A6). cbn [bind].
  destruct (put_push _ _ _ u 8 10 A6 B) as (w7 & -> & A7). cbn [bind]. destruct (dash_push _ _ _ A7) as (w8 & -> & A8). cbn [bind].
  destruct (put_push _ _ _ u 10 16 A8 B) as (w9 & -> & A9). cbn [bind].
  match type of A9 with at_text _ ?x _ => assert (X : x = t) end.
  { unfold t, chunks. rewrite !fold_left_app. cbn [fold_left]. reflexivity. }
  rewrite X in A9. clear X A1 A2 A3 A4 A5 A6 A7 A8. destruct (at_inv _ _ _ A9) as (_ & _ & _ & Z).
  unfold view_bytes. rewrite load_valid_all by (apply mslice_valid, storage_valid).
  rewrite mslice_contents by apply storage_valid. rewrite storage_contents, range_spec, ndrop_0. cbn [bind].
  rewrite ntake_all by (rewrite Z; lia). destruct A9 as (-> & _). reflexivity.
Qed.

(** The places of the first digit of a byte. *)
Definition pair_start (i : nat) : bool := existsb (Nat.eqb i) [0; 2; 4; 6; 9; 11; 14; 16; 19; 21; 24; 26; 28; 30; 32; 34]%nat.

(** C88: a buffer of n < 36 bytes holds the first n characters of the text, except that its
    last byte, when it should be the first of two digits, is a '-', or, in the last group
    of digits, what the buffer had there before. *)
Theorem C88_short : forall u buf, is_uuid u -> (length buf < 36)%nat -> exists t,
  uuid_toString_buf u buf = Ret (t, t) /\ length t = length buf /\
  forall i, (i < length buf)%nat ->
    nth i t 0 = if Nat.eqb (i + 1) (length buf) && pair_start i then (if Nat.ltb i 24 then 45 else nth i buf 0)
                else nth i (uuid_text u) 0.
Proof.
  intros u buf U L. eexists. split; [apply toString_chunks; [exact U|unfold size; lia]|].
  destruct U as (Lu & _).
  destruct u as [|u0 [|u1 [|u2 [|u3 [|u4 [|u5 [|u6 [|u7 [|u8 [|u9 [|u10 [|u11 [|u12 [|u13 [|u14 [|u15 [|]]]]]]]]]]]]]]]]]; try discriminate Lu.
  clear Lu. set (t := fold_left _ _ _).
  assert (G : forall (g : nat -> N) l, l = map g (seq 0 (length buf)) -> length l = length buf /\ forall i, (i < length buf)%nat -> nth i l 0 = g i).
  { intros g l ->. rewrite map_length, seq_length. split; [reflexivity|]. intros i H.
    rewrite (nth_indep _ 0 (g 0%nat)) by now rewrite map_length, seq_length. rewrite map_nth, seq_nth by exact H. reflexivity. }
  apply G. clear G. unfold t, chunks, uuid_text, hex_text, digits, section, size. clear t. cbn [N.to_nat].
  do 36 (destruct buf as [|? buf]; [cbv -[hex_digit N.div N.modulo]; reflexivity|]). cbn in L. lia.
Qed.
Print Assumptions C88_short.
(** So a prefix of the text comes out when the buffer does not end in the middle of a byte, *)
Theorem C88_prefix_partial : forall u buf, is_uuid u -> (length buf <= 36)%nat -> pair_start (length buf - 1) = false ->
  uuid_toString_buf u buf = Ret (firstn (length buf) (uuid_text u), firstn (length buf) (uuid_text u)).
Proof.
  intros u buf U L P. assert (L36 : length (uuid_text u) = 36%nat) by (apply (C16_to_string u (repeat 0 36) U); [cbn; lia|reflexivity]).
  destruct (Nat.eq_dec (length buf) 36) as [E|E].
  - destruct (C16_to_string u buf U) as (-> & _); [unfold size; lia|unfold size; lia|].
    rewrite skipn_all2, app_nil_r, firstn_all2 by lia. reflexivity.
  - destruct (C88_short u buf U) as (t & -> & Lt & H); [lia|]. assert (X : t = firstn (length buf) (uuid_text u)); [|now rewrite X].
    apply (nth_ext _ _ 0 0); [rewrite firstn_length; lia|]. intros i I. rewrite H by lia. rewrite <- (firstn_skipn (length buf) (uuid_text u)) at 1.
    rewrite app_nth1 by (rewrite firstn_length; lia). destruct (Nat.eqb_spec (i + 1) (length buf)) as [Q|Q]; [|reflexivity].
    replace i with (length buf - 1)%nat at 1 by lia. rewrite P. reflexivity.
Qed.
Print Assumptions C88_prefix_partial.
(** and otherwise a '-' that the text does not have there, or an old byte of the buffer;
    nothing tells the caller. *)
Theorem C88_prefix_refuted : forall u buf, is_uuid u -> (length buf < 36)%nat -> pair_start (length buf - 1) = true ->
  (0 < length buf)%nat -> exists t, uuid_toString_buf u buf = Ret (t, t) /\
    firstn (length buf - 1) t = firstn (length buf - 1) (uuid_text u) /\
    last t 0 = (if Nat.ltb (length buf) 25 then 45 else last buf 0).
Proof.
  intros u buf U L P Z. assert (L36 : length (uuid_text u) = 36%nat) by (apply (C16_to_string u (repeat 0 36) U); [cbn; lia|reflexivity]).
  destruct (C88_short u buf U L) as (t & E & Lt & H). exists t. split; [exact E|].
  assert (La : forall l : list N, last l 0 = nth (length l - 1) l 0).
  { clear. induction l as [|x l IH]; [reflexivity|]. destruct l as [|y l]; [reflexivity|]. change (last (x :: y :: l) 0) with (last (y :: l) 0). rewrite IH.
    cbn [length Nat.sub]. rewrite Nat.sub_0_r. reflexivity. }
  split.
  - apply (nth_ext _ _ 0 0); [rewrite !firstn_length; lia|]. intros i I. rewrite firstn_length in I.
    assert (F : forall l : list N, (length buf <= length l)%nat -> nth i (firstn (length buf - 1) l) 0 = nth i l 0).
    { intros l Ll. rewrite <- (firstn_skipn (length buf - 1) l) at 2. rewrite app_nth1; [reflexivity|]. rewrite firstn_length. lia. }
    rewrite !F by lia. rewrite H by lia. destruct (Nat.eqb_spec (i + 1) (length buf)); [lia|]. reflexivity.
  - rewrite !La, Lt, H by lia. replace (length buf - 1 + 1)%nat with (length buf) by lia. rewrite Nat.eqb_refl, P. cbn [andb].
    destruct (Nat.ltb_spec (length buf - 1) 24), (Nat.ltb_spec (length buf) 25); try lia; reflexivity.
Qed.
Print Assumptions C88_prefix_refuted.
Example C88_case : uuid_toString_buf (repeat 17 16) [1; 1; 1] = Ret ([49; 49; 45], [49; 49; 45]) /\ is_uuid (repeat 17 16) /\ pair_start 2 = true.
Proof. split; [reflexivity|]. split; [split; [reflexivity|repeat constructor]|reflexivity]. Qed.
