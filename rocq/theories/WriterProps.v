(** C04, C05: every history of a writer in which the limit is not put below the position. *)
From Verif Require Import Base BaseLemmas MemViewModel ByteIOModel ByteIOSpec ByteIOProofs.

(** A write cursor that is not ideal: bytes that are refused because of the limit, but
    would fit the buffer, are stored all the same. *)
Definition kc_write (c : wcursor) (bs : list N) : result unit * wcursor :=
  let fin := wc_pos c + N.of_nat (length bs) in
  let stored := spliced (wc_bytes c) (wc_pos c) bs in
  if fin <=? wc_lim c then (Ok tt, mkWCursor fin (wc_lim c) stored)
  else if fin <=? N.of_nat (length (wc_bytes c)) then (Err E_Overflow, mkWCursor (wc_pos c) (wc_lim c) stored)
  else (Err E_Overflow, c).
(** Otherwise it does what the ideal one does ([wc_step]); [None]: the limit was put below
    the position. *)
Definition kc_step (host_be : bool) (c : wcursor) (op : wop) : option (result unit * wcursor) :=
  match op with
  | WWrite bs => Some (kc_write c bs)
  | WWriteInt be w v => Some (kc_write c (order_bytes be (wbytes w) v))
  | WWriteRaw w v => Some (kc_write c (order_bytes host_be (wbytes w) v))
  | _ => wc_step host_be c op
  end.
Fixpoint kc_run (host_be : bool) (c : wcursor) (ops : list wop) : option (list (result unit) * wcursor) :=
  match ops with
  | [] => Some ([], c)
  | op :: ops' =>
      match kc_step host_be c op with
      | None => None
      | Some (o, c') => match kc_run host_be c' ops' with None => None | Some (os, c'') => Some (o :: os, c'') end
      end
  end.

Lemma kc_write_ok w bs : winv w -> size bs < 2 ^ 64 ->
  exists w', w_write w bs = Ret (fst (kc_write (wcur w) bs), w') /\ wcur w' = snd (kc_write (wcur w) bs) /\ winv w'.
Proof.
  intros I B. pose proof I as (H1 & H2 & H3). rewrite w_write_spec by assumption.
  unfold kc_write. cbn [wcur wc_pos wc_lim wc_bytes]. fold (size bs) (size (w_buf w)).
  destruct (N.leb_spec (w_pos w + size bs) (w_lim w)) as [L|L]; cbn [fst snd].
  - eexists. split; [reflexivity|]. split; [reflexivity|]. unfold winv. cbn [w_pos w_lim w_buf]. rewrite size_spliced by lia. lia.
  - destruct (N.leb_spec (w_pos w + size bs) (size (w_buf w))) as [M|M]; destruct (N.ltb_spec (size (w_buf w)) (w_pos w + size bs)); try lia; cbn [fst snd].
    + eexists. split; [reflexivity|]. split; [reflexivity|]. unfold winv. cbn [w_pos w_lim w_buf]. rewrite size_spliced by lia. lia.
    + eexists. split; [reflexivity|]. split; [reflexivity|]. exact I.
Qed.
Lemma order_small be w v : size (order_bytes be (wbytes w) v) < 2 ^ 64.
Proof. unfold size. rewrite order_bytes_length. destruct w; cbn; lia. Qed.
Lemma kc_step_ok host_be w op o c' : winv w -> wop_ok op -> kc_step host_be (wcur w) op = Some (o, c') ->
  exists w', w_step host_be w op = Ret (o, w') /\ wcur w' = c' /\ winv w'.
Proof.
  intros I Hok E. pose proof I as (H1 & H2 & H3).
  assert (forall bs o c', size bs < 2 ^ 64 -> Some (kc_write (wcur w) bs) = Some (o, c') ->
    exists w', w_write w bs = Ret (o, w') /\ wcur w' = c' /\ winv w') as W.
  { intros bs o0 c0 B X. injection X as X. destruct (kc_write_ok w bs I B) as (w' & Y & Z & I'). rewrite X in Y, Z. eauto. }
  destruct op; cbn [kc_step wc_step] in E; cbn [w_step]; cbn [wop_ok] in Hok.
  - cbn [wcur wc_pos wc_lim wc_bytes] in E. fold (size (w_buf w)) in E. unfold w_limit. destruct (N.ltb_spec (size (w_buf w)) n); [injection E as <- <-; eauto|].
    destruct (N.ltb_spec n (w_pos w)); [discriminate|]. injection E as <- <-. eexists. split; [reflexivity|]. split; [reflexivity|]. unfold winv. cbn. lia.
  - cbn [wcur wc_pos wc_lim wc_bytes] in E. unfold w_position. destruct (N.ltb_spec (w_lim w) n); injection E as <- <-; [eauto|].
    eexists. split; [reflexivity|]. split; [reflexivity|]. unfold winv. cbn. lia.
  - cbn [wcur wc_pos wc_lim wc_bytes] in E. unfold w_advance, w_remaining. rewrite sub64_le by lia.
    destruct (N.ltb_spec (w_lim w) (w_pos w + n)), (N.ltb_spec (w_lim w - w_pos w) n); try lia; injection E as <- <-; [eauto|].
    unfold u64. rewrite N.mod_small by lia. eexists. split; [reflexivity|]. split; [reflexivity|]. unfold winv. cbn. lia.
  - apply W; assumption.
  - unfold w_writeInt. rewrite swap_store. apply W; [apply order_small|exact E].
  - unfold w_writeRaw. rewrite host_store_order. apply W; [apply order_small|exact E].
  - injection E as <- <-. eexists. split; [reflexivity|]. split; [reflexivity|]. unfold winv. cbn. lia.
  - injection E as <- <-. eexists. split; [reflexivity|]. split; [reflexivity|]. unfold winv. cbn. lia.
  - injection E as <- <-. eexists. split; [reflexivity|]. split; [reflexivity|]. unfold winv. cbn. lia.
Qed.
Theorem C05_limit_history : forall host_be buf ops os c', size buf < 2 ^ 64 -> Forall wop_ok ops ->
  kc_run host_be (mkWCursor 0 (size buf) buf) ops = Some (os, c') ->
  exists w', w_run host_be (writer_make buf) ops = Ret (os, w') /\
    w_pos w' = wc_pos c' /\ w_lim w' = wc_lim c' /\ w_buf w' = wc_bytes c' /\
    w_pos w' <= w_lim w' <= size buf /\ w_remaining w' = wc_lim c' - wc_pos c'.
Proof.
  intros host_be buf ops os c' S F.
  assert (forall ops w os c', winv w -> Forall wop_ok ops -> kc_run host_be (wcur w) ops = Some (os, c') ->
    exists w', w_run host_be w ops = Ret (os, w') /\ wcur w' = c' /\ winv w') as G.
  { clear. induction ops as [|op ops IH]; intros w os c' I F E; cbn [kc_run] in E.
    - injection E as <- <-. exists w. auto.
    - inversion F as [|? ? F1 F2]; subst. destruct (kc_step host_be (wcur w) op) as [[o c1]|] eqn:K; [|discriminate].
      destruct (kc_step_ok host_be w op o c1 I F1 K) as (w1 & E1 & <- & I1).
      destruct (kc_run host_be (wcur w1) ops) as [[os2 c2]|] eqn:R; [|discriminate]. injection E as <- <-.
      destruct (IH w1 os2 c2 I1 F2 R) as (w2 & E2 & C & I2). exists w2. cbn [w_run]. rewrite E1. cbn [bind fst snd]. rewrite E2. auto. }
  intros E. destruct (G ops (writer_make buf) os c' (writer_make_inv buf S) F E) as (w' & E' & <- & I'). pose proof I' as (H1 & H2 & H3).
  assert (size (w_buf w') = size buf) as Z.
  { destruct (w_run_safe host_be ops (writer_make buf)) as (os2 & w2 & E2 & B). rewrite E' in E2. injection E2 as _ <-. exact B. }
  exists w'. split; [exact E'|]. cbn [wcur wc_pos wc_lim wc_bytes]. repeat split; try lia. unfold w_remaining. apply sub64_le; lia.
Qed.
Print Assumptions C05_limit_history.
Example C05_limit_history_ok :
  kc_run false (mkWCursor 0 5 [0;0;0;0;0]) [WWrite [1]; WLimit 2; WWriteInt true W16 258; WLimit 9; WClear; WAdvance 4; WWrite [7]] =
    Some ([Ok tt; Ok tt; Err E_Overflow; Err E_Overflow; Ok tt; Ok tt; Ok tt], mkWCursor 5 5 [1;1;2;0;7]) /\
  kc_run false (mkWCursor 0 5 [0;0;0;0;0]) [WWrite [1; 2]; WLimit 1] = None.
Proof. split; reflexivity. Qed.

(** Every limit below the position is accepted, and what remains is then almost 2^64 bytes. *)
Theorem C04_writer_limit_refuted : forall host_be buf k n, n < k -> k <= size buf -> size buf < 2 ^ 64 ->
  exists w', w_run host_be (writer_make buf) [WAdvance k; WLimit n] = Ret ([Ok tt; Ok tt], w') /\
    w_pos w' = k /\ w_lim w' = n /\ w_buf w' = buf /\ w_remaining w' = 2 ^ 64 - (k - n).
Proof.
  intros host_be buf k n H1 H2 H3. cbn [w_run w_step]. unfold w_advance, w_remaining at 1, writer_make. cbn [w_pos w_lim w_buf]. rewrite sub64_le by lia.
  destruct (N.ltb_spec (size buf - 0) k); [lia|]. cbn [bind fst snd]. unfold w_limit. cbn [w_pos w_lim w_buf]. destruct (N.ltb_spec (size buf) n); [lia|]. cbn [bind fst snd].
  eexists. split; [reflexivity|]. cbn [w_pos w_lim w_buf]. rewrite N.add_0_l. unfold w_remaining. cbn [w_pos w_lim]. unfold u64. rewrite N.mod_small by lia. repeat split.
  unfold sub64, sub_wrap. rewrite (N.mod_small n), (N.mod_small k) by lia. rewrite N.mod_small by lia. lia.
Qed.
Print Assumptions C04_writer_limit_refuted.
Example C04_writer_limit_ok : 1 < 2 /\ 2 <= size [7; 8; 9] /\ size [7; 8; 9] < 2 ^ 64.
Proof. vm_compute. repeat split; discriminate. Qed.
