(** C03 - C07: ByteReader and ByteWriter. *)
From Verif Require Import Base BaseLemmas MemViewModel MemViewSpec ByteIOModel ByteIOSpec ByteIOProofs.

(** C03: every history of reader operations is what the abstract cursor does
    (ByteIOSpec.c_step: consecutive bytes, an unsatisfiable request is an error
    that changes nothing), provided limit() is never put below the position. *)
Theorem C03_reader_refines_cursor : forall host_be buf ops os c',
  size buf < 2 ^ 64 -> Forall rop_ok ops ->
  c_run (mkCursor 0 (size buf) buf) ops = Some (os, c') ->
  exists r', r_run host_be (reader_make buf) ops = Ret (os, r') /\
    r_pos r' = c_pos c' /\ r_lim r' = c_lim c' /\ r_buf r' = buf /\
    r_pos r' <= r_lim r' <= size buf.
Proof.
  intros host_be buf ops os c' Hs F E.
  destruct (r_run_refines host_be ops (reader_make buf) c' os) as (r' & E' & <- & (I1 & I2 & I3) & B); auto.
  - now apply reader_make_inv.
  - exists r'. cbn in *. rewrite B in *. repeat split; auto.
Qed.
Print Assumptions C03_reader_refines_cursor.

Example C03_reader_refines_cursor_ok :
  c_run (mkCursor 0 6 [1;2;3;4;5;6]) [RRead 2; RLimit 5; RReadInt true W16; RGet; RGet; RRewind; RGetAt 4; RReadAt 1 3] =
  Some ([Ok (OBytes [1;2]); Ok OUnit; Ok (OInt 772); Ok (OByte 5); Err 75; Ok OUnit; Ok (OByte 5); Ok (OBytes [2;3;4])],
        mkCursor 0 5 [1;2;3;4;5;6]).
Proof. vm_compute. reflexivity. Qed.

(** C03: consuming operations deliver the bytes of the buffer in order, once. *)
Theorem C03_delivered_in_order : forall host_be buf ops,
  size buf < 2 ^ 64 ->
  Forall (fun op => match op with RGet => True | RRead n => n < 2 ^ 64 | _ => False end) ops ->
  exists os r', r_run host_be (reader_make buf) ops = Ret (os, r') /\
    concat (map (fun o => match o with Ok (OByte b) => [b] | Ok (OBytes bs) => bs | _ => [] end) os)
      = firstn (N.to_nat (r_pos r')) buf /\
    r_pos r' <= size buf.
Proof.
  intros host_be buf ops Hs F. destruct (reader_in_order host_be buf ops Hs F) as (os & r' & E & D & L).
  exists os, r'. rewrite <- ntake_firstn. auto.
Qed.
Print Assumptions C03_delivered_in_order.

Example C03_delivered_in_order_ok :
  r_run false (reader_make [1;2;3;4;5;6]) [RRead 2; RGet; RRead 4; RRead 3] =
  Ret ([Ok (OBytes [1;2]); Ok (OByte 3); Err 75; Ok (OBytes [4;5;6])], mkReader 6 6 [1;2;3;4;5;6]).
Proof. reflexivity. Qed.

(** C03/C04: whatever is called in whatever order (also with a limit below the
    position), the reader never accesses memory outside its buffer and never
    changes it; the only bad outcome is program termination by an assertion. *)
Theorem C04_reader_memory_safe : forall host_be buf ops,
  r_run host_be (reader_make buf) ops = Terminates \/
  exists os r', r_run host_be (reader_make buf) ops = Ret (os, r') /\ r_buf r' = buf.
Proof. intros. apply r_run_safe. Qed.
Print Assumptions C04_reader_memory_safe.

Theorem C04_writer_memory_safe : forall host_be buf ops,
  exists os w', w_run host_be (writer_make buf) ops = Ret (os, w') /\ size (w_buf w') = size buf.
Proof. intros. apply w_run_safe. Qed.
Print Assumptions C04_writer_memory_safe.

(** C04 holds for histories that respect the contract of limit() (corollary of
    C03): remaining() <= capacity().  *)
Theorem C04_limit_partial : forall host_be buf ops os c',
  size buf < 2 ^ 64 -> Forall rop_ok ops ->
  c_run (mkCursor 0 (size buf) buf) ops = Some (os, c') ->
  exists r', r_run host_be (reader_make buf) ops = Ret (os, r') /\ r_remaining r' <= size buf.
Proof.
  intros host_be buf ops os c' Hs F E.
  destruct (C03_reader_refines_cursor host_be buf ops os c' Hs F E) as (r' & E' & _ & _ & _ & L).
  exists r'. split; [exact E'|]. unfold r_remaining. rewrite sub64_le by lia. lia.
Qed.
Print Assumptions C04_limit_partial.

(** C04 in full is false: limit() accepts a limit below the position, after which
    remaining() is astronomically large, bytes beyond the limit are delivered,
    and get() at the end of the buffer terminates the program. *)
Theorem C04_limit_refuted :
  (exists buf ops os r', r_run false (reader_make buf) ops = Ret (os, r') /\ size buf < r_remaining r') /\
  (exists buf ops r', r_run false (reader_make buf) ops = Ret ([Ok OUnit; Ok OUnit; Ok (OByte 30)], r') /\
     buf = [10;20;30;40] /\ r_lim r' = 1) /\
  (exists buf ops, r_run false (reader_make buf) ops = Terminates).
Proof.
  split; [|split].
  - exists [1;2;3], [RAdvance 2; RLimit 1]. do 2 eexists. split; vm_compute; reflexivity.
  - exists [10;20;30;40], [RAdvance 2; RLimit 1; RGet]. eexists. vm_compute. auto.
  - exists [1;2], [RAdvance 2; RLimit 1; RGet]. vm_compute. reflexivity.
Qed.
Print Assumptions C04_limit_refuted.

(** C05: exact effect of a write in any state with position <= limit <= capacity:
    success stores the bytes at the position and nothing else; failure leaves
    position and limit; the buffer is unchanged too unless the bytes fit the
    capacity but not the limit - then they are stored although an error is
    returned (the missing part of C05). *)
Theorem C05_write_partial : forall w bs,
  w_pos w <= w_lim w -> w_lim w <= size (w_buf w) -> size (w_buf w) < 2 ^ 64 -> size bs < 2 ^ 64 ->
  w_write w bs =
    if w_pos w + size bs <=? w_lim w
    then Ret (Ok tt, mkWriter (w_pos w + size bs) (w_lim w) (spliced (w_buf w) (w_pos w) bs))
    else if size (w_buf w) <? w_pos w + size bs
    then Ret (Err E_Overflow, w)
    else Ret (Err E_Overflow, mkWriter (w_pos w) (w_lim w) (spliced (w_buf w) (w_pos w) bs)).
Proof. intros. apply w_write_spec; [repeat split|]; assumption. Qed.
Print Assumptions C05_write_partial.

Example C05_write_partial_ok :
  w_write (mkWriter 1 3 [0;0;0;0]) [7;8] = Ret (Ok tt, mkWriter 3 3 [0;7;8;0]) /\
  w_write (mkWriter 1 3 [0;0;0;0]) [7;8;9;9] = Ret (Err E_Overflow, mkWriter 1 3 [0;0;0;0]).
Proof. split; reflexivity. Qed.

(** C05 for whole histories: a writer whose limit is never lowered behaves as
    the ideal write cursor (ByteIOSpec.wc_step), whose failing writes change
    nothing. *)
Theorem C05_history_partial : forall host_be buf ops,
  size buf < 2 ^ 64 -> Forall wop_ok ops -> Forall never_lowers_limit ops ->
  exists os c' w', wc_run host_be (mkWCursor 0 (size buf) buf) ops = Some (os, c') /\
    w_run host_be (writer_make buf) ops = Ret (os, w') /\
    w_pos w' = wc_pos c' /\ w_lim w' = wc_lim c' /\ w_buf w' = wc_bytes c'.
Proof.
  intros host_be buf ops Hs F G.
  destruct (wc_run_total host_be ops (mkWCursor 0 (size buf) buf) G) as ([os c'] & E).
  destruct (w_run_refines host_be ops (writer_make buf) c' os) as (w' & E' & <-); auto using writer_make_inv.
  exists os, (wcur w'), w'. cbn. auto.
Qed.
Print Assumptions C05_history_partial.

Example C05_history_partial_ok :
  w_run false (writer_make [0;0;0;0;0]) [WWriteInt true W16 258; WWrite [9;9;9;9]; WWriteRaw W16 1; WAdvance 2] =
  Ret ([Ok tt; Err 75; Ok tt; Err 75], mkWriter 4 5 [1;2;1;0;0]).
Proof. reflexivity. Qed.

(** C05 in full is false. *)
Theorem C05_rejected_write_refuted : exists buf ops w',
  w_run false (writer_make buf) ops = Ret ([Ok tt; Err E_Overflow], w') /\ w_buf w' <> buf.
Proof.
  exists [1;2;3;4], [WLimit 1; WWrite [9;9]]. eexists. split; [vm_compute; reflexivity|]. discriminate.
Qed.
Print Assumptions C05_rejected_write_refuted.

(** C06: byte order of the rendered integers, on either host ... *)
Theorem C06_writer_byte_order : forall host_be be wd v w,
  w_pos w + N.of_nat (wbytes wd) <= w_lim w -> w_lim w <= size (w_buf w) -> size (w_buf w) < 2 ^ 64 ->
  w_writeInt host_be be wd v w =
    Ret (Ok tt, mkWriter (w_pos w + N.of_nat (wbytes wd)) (w_lim w)
                  (spliced (w_buf w) (w_pos w) (order_bytes be (wbytes wd) v))).
Proof.
  intros host_be be wd v w H1 H2 H3. unfold w_writeInt. rewrite swap_store.
  assert (size (order_bytes be (wbytes wd) v) = N.of_nat (wbytes wd)) as S
    by (unfold size; now rewrite order_bytes_length).
  rewrite w_write_spec; rewrite ?S.
  - destruct (N.leb_spec (w_pos w + N.of_nat (wbytes wd)) (w_lim w)); [reflexivity|lia].
  - repeat split; lia.
  - destruct wd; cbn; lia.
Qed.
Print Assumptions C06_writer_byte_order.

(** ... where order_bytes is most significant first / least significant first: *)
Theorem C06_order_meaning : forall v,
  order_bytes true 4 v = [v / 2 ^ 24 mod 256; v / 2 ^ 16 mod 256; v / 2 ^ 8 mod 256; v / 2 ^ 0 mod 256] /\
  order_bytes false 4 v = [v / 2 ^ 0 mod 256; v / 2 ^ 8 mod 256; v / 2 ^ 16 mod 256; v / 2 ^ 24 mod 256] /\
  order_bytes true 2 v = [v / 2 ^ 8 mod 256; v / 2 ^ 0 mod 256] /\
  order_bytes false 2 v = [v / 2 ^ 0 mod 256; v / 2 ^ 8 mod 256] /\
  order_bytes false 8 v = map (fun i => v / 2 ^ (8 * i) mod 256) [0;1;2;3;4;5;6;7] /\
  order_bytes true 8 v = map (fun i => v / 2 ^ (8 * i) mod 256) [7;6;5;4;3;2;1;0].
Proof. intros v. repeat split; reflexivity. Qed.
Print Assumptions C06_order_meaning.

(** ... and reading interprets the bytes in the same order and gives the value back. *)
Theorem C06_reader_byte_order : forall host_be be wd r,
  r_pos r + N.of_nat (wbytes wd) <= r_lim r -> r_lim r <= size (r_buf r) -> size (r_buf r) < 2 ^ 64 ->
  r_readInt host_be be wd r =
    Ret (Ok (order_value be (section (r_buf r) (r_pos r) (N.of_nat (wbytes wd)))),
         mkReader (r_pos r + N.of_nat (wbytes wd)) (r_lim r) (r_buf r)).
Proof.
  intros host_be be wd r H1 H2 H3. unfold r_readInt. rewrite r_read_ok; [|repeat split; lia|lia].
  cbn [bind]. rewrite swap_host; [reflexivity|].
  unfold section. rewrite firstn_length, skipn_length. unfold size in *. lia.
Qed.
Print Assumptions C06_reader_byte_order.

Theorem C06_value_of_bytes : forall be wd v, v < 256 ^ N.of_nat (wbytes wd) ->
  order_value be (order_bytes be (wbytes wd) v) = v.
Proof. intros. now apply order_value_bytes. Qed.
Print Assumptions C06_value_of_bytes.

Example C06_ok :
  w_writeInt false true W32 0x01020304 (writer_make [0;0;0;0;0]) = Ret (Ok tt, mkWriter 4 5 [1;2;3;4;0]) /\
  w_writeInt true false W32 0x01020304 (writer_make [0;0;0;0;0]) = Ret (Ok tt, mkWriter 4 5 [4;3;2;1;0]) /\
  r_readInt false true W32 (reader_make [1;2;3;4;0]) = Ret (Ok 0x01020304, mkReader 4 5 [1;2;3;4;0]).
Proof. repeat split; reflexivity. Qed.

(** C07: a record of typed fields written field by field reads back unchanged,
    also when writer and reader run on hosts of different byte order. *)
Theorem C07_record_roundtrip : forall host_w host_r fs buf,
  Forall field_ok fs -> record_size fs <= size buf -> size buf < 2 ^ 64 ->
  exists w', w_run host_w (writer_make buf) (map put_field fs) = Ret (map (fun _ => Ok tt) fs, w') /\
  exists r', r_run host_r (reader_make (contents (w_buf w') (w_viewWritten w'))) (map get_field fs)
             = Ret (map field_value fs, r') /\ r_pos r' = r_lim r' /\ r_lim r' = record_size fs.
Proof. exact record_roundtrip. Qed.
Print Assumptions C07_record_roundtrip.

Example C07_ok :
  let fs := [FInt true W16 500; FBytes [1;2;3]; FInt false W64 77] in
  Forall field_ok fs /\ record_size fs <= size (repeat 0 20).
Proof. cbn. split; [repeat constructor|]; unfold field_ok; cbn; lia. Qed.

(** C58: after any writes that fit, viewWritten shows exactly the bytes written, flip
    makes them what remains to be processed, and clear makes the whole buffer
    available again. *)
Lemma w_run_writes host_be ws : forall w, winv w -> w_pos w + size (concat ws) <= w_lim w ->
  exists os w', w_run host_be w (map WWrite ws) = Ret (os, w') /\ Forall (fun o => o = Ok tt) os /\ winv w' /\
    w_pos w' = w_pos w + size (concat ws) /\ w_lim w' = w_lim w /\ size (w_buf w') = size (w_buf w) /\
    ntake (w_pos w') (w_buf w') = ntake (w_pos w) (w_buf w) ++ concat ws.
Proof.
  induction ws as [|b ws IH]; intros w I H; cbn [map w_run concat].
  - exists [], w. rewrite (@size_nil N), N.add_0_r, app_nil_r. repeat split; auto; apply I.
  - cbn [concat] in H. rewrite size_app in H. cbn [w_step]. destruct I as (I1 & I2 & I3).
    rewrite w_write_spec by (repeat split; lia).
    destruct (N.leb_spec (w_pos w + size b) (w_lim w)); [|lia]. cbn [bind fst snd].
    destruct (IH (mkWriter (w_pos w + size b) (w_lim w) (spliced (w_buf w) (w_pos w) b))) as (os & w' & -> & F & I' & P & L & S & T).
    { unfold winv. cbn. rewrite size_spliced by lia. lia. } { cbn. lia. }
    cbn [bind fst snd]. exists (Ok tt :: os), w'. cbn in P, L, S, T. rewrite size_spliced in S by lia.
    repeat split; auto; try apply I'; try (rewrite size_app; lia).
    rewrite T, spliced_prefix by lia. now rewrite <- app_assoc.
Qed.

Theorem C58_flip_exposes_written : forall host_be buf ws,
  size buf < 2 ^ 64 -> size (concat ws) <= size buf ->
  exists os w', w_run host_be (writer_make buf) (map WWrite ws) = Ret (os, w') /\ Forall (fun o => o = Ok tt) os /\
    contents (w_buf w') (w_viewWritten w') = concat ws /\
    contents (w_buf w') (w_viewRemaining (w_flip w')) = concat ws /\
    valid (w_buf w') (w_viewRemaining (w_flip w')) /\
    w_remaining (w_flip w') = size (concat ws) /\
    w_pos (w_flip w') = 0 /\ w_buf (w_flip w') = w_buf w' /\
    w_pos (w_rewind w') = 0 /\ w_lim (w_rewind w') = w_lim w' /\
    w_pos (w_clear (w_flip w')) = 0 /\ w_remaining (w_clear (w_flip w')) = size buf.
Proof.
  intros host_be buf ws Hs Hf.
  destruct (w_run_writes host_be ws (writer_make buf)) as (os & w' & E & F & (I1 & I2 & I3) & P & L & S & T).
  { now apply writer_make_inv. } { cbn. lia. }
  cbn in P, L, S, T. rewrite ntake_0 in T. cbn [app] in T. exists os, w'. split; [exact E|]. split; [exact F|].
  assert (C : contents (w_buf w') (view_slice (storage_view (w_buf w')) 0 (w_pos w')) = concat ws).
  { rewrite MemViewProofs.slice_contents by apply storage_valid. rewrite MemViewProofs.range_spec, storage_contents, N.sub_0_r, ndrop_0. exact T. }
  split; [exact C|]. split; [exact C|]. split; [apply MemViewProofs.slice_valid, storage_valid|].
  unfold w_remaining. cbn. rewrite !sub64_le by lia. repeat split; lia.
Qed.
Print Assumptions C58_flip_exposes_written.
Example C58_flip_ok : size (concat [[1;2];[3]]) <= size [0;0;0;0] /\
  w_run false (writer_make [0;0;0;0]) (map WWrite [[1;2];[3]]) = Ret ([Ok tt; Ok tt], mkWriter 3 4 [1;2;3;0]).
Proof. split; [vm_compute; discriminate|reflexivity]. Qed.
