(** Outside the conditions of C160 something is read after it was overwritten: buffers for which the
    outcome is another one. *)
From Verif Require Import Base BaseLemmas MemViewModel MemViewSpec MemViewProofs ByteIOModel ByteIOSpec ByteIOProofs.
From Verif Require Import Base16Model Base16Spec Base16Proofs Base64Model Base64Spec Base64Proofs InPlaceModel InPlaceProofs.

Lemma w_write_room w bs : winv w -> w_pos w + size bs <= w_lim w ->
  exists w', w_write w bs = Ret (Ok tt, w') /\ winv w' /\ w_pos w' = w_pos w + size bs /\ w_lim w' = w_lim w /\
  size (w_buf w') = size (w_buf w) /\
  forall j, nnth (w_buf w') j = if (w_pos w <=? j) && (j <? w_pos w + size bs) then nnth bs (j - w_pos w) else nnth (w_buf w) j.
Proof.
  intros I L. pose proof I as (H1 & H2 & H3). exists (append w bs). split; [now apply w_write_append|].
  split; [now apply append_inv|]. cbn. repeat split; auto.
  - rewrite size_spliced; lia.
  - intros j. rewrite <- overwrite_spliced, nnth_overwrite by lia. reflexivity.
Qed.

(** The storage is the whole block. *)
Definition alone : around := mkAround [] [].

Lemma block_alone w : block alone w = w_buf w.
Proof. unfold block. cbn. apply app_nil_r. Qed.

Lemma byte_in_some w a x : nnth (w_buf w) a = Some x -> byte_in alone w a = Ret x.
Proof. intros E. unfold byte_in, at_. now rewrite block_alone, E. Qed.

(** ** Decoding hexadecimal text: a digit overwritten by a zero byte *)

Lemma b16_decode_zero k : forall w s, winv w -> w_pos w + N.of_nat k <= w_lim w ->
  (forall i, i < 2 * N.of_nat k -> nnth (w_buf w) (s + i) = Some 48 \/ nnth (w_buf w) (s + i) = Some 0) ->
  (exists i, i < 2 * N.of_nat k /\ nnth (w_buf w) (s + i) = Some 0) ->
  exists w', b16_decode_loop_in alone w s (2 * k) = Ret (Err E_ILSEQ, w').
Proof.
  induction k as [|k IH]; intros w s I L A (z & Hz & Z); [cbn in Hz; lia|].
  replace (2 * Datatypes.S k)%nat with (Datatypes.S (Datatypes.S (2 * k))) by lia. cbn [b16_decode_loop_in].
  pose proof (A 0 ltac:(lia)) as A0. rewrite N.add_0_r in A0. pose proof (A 1 ltac:(lia)) as A1.
  destruct A0 as [A0|A0]; destruct A1 as [A1|A1]; rewrite (byte_in_some _ _ _ A0), (byte_in_some _ _ _ A1);
    cbn [bind charToBin nnth]; try (eexists; reflexivity).
  change (charToBin 48) with (Ret (Ok 0)). cbn [bind].
  change (u8 (N.shiftl 0 4 + 0)) with 0.
  destruct (w_write_room w [0] I) as (w' & W & I' & P & Lm & _ & K); [rewrite (size_cons _ []), size_nil; lia|].
  rewrite W. cbn [bind]. change (size [0]) with 1 in *.
  apply IH; [assumption|lia| |].
  - intros i Hi. replace (s + 2 + i) with (s + (2 + i)) by lia. rewrite K.
    destruct ((w_pos w <=? s + (2 + i)) && (s + (2 + i) <? w_pos w + 1)) eqn:C.
    + right. apply andb_prop in C as (C1 & C2). apply N.leb_le in C1. apply N.ltb_lt in C2.
      replace (s + (2 + i) - w_pos w) with 0 by lia. reflexivity.
    + apply A. lia.
  - assert (2 <= z) as Z2.
    { destruct (N.lt_ge_cases z 2) as [B|B]; [|assumption]. assert (z = 0 \/ z = 1) as [-> | ->] by lia.
      - rewrite N.add_0_r, A0 in Z. discriminate.
      - rewrite A1 in Z. discriminate. }
    exists (z - 2). split; [lia|]. replace (s + 2 + (z - 2)) with (s + z) by lia. rewrite K.
    destruct ((w_pos w <=? s + z) && (s + z <? w_pos w + 1)) eqn:C; [|assumption].
    apply andb_prop in C as (C1 & C2). apply N.leb_le in C1. apply N.ltb_lt in C2.
    replace (s + z - w_pos w) with 0 by lia. reflexivity.
Qed.

Lemma nnth_repeat {A} (x : A) k i : i < N.of_nat k -> nnth (repeat x k) i = Some x.
Proof.
  intros H. rewrite nnth_nth_error. rewrite (nth_error_nth' _ x) by (rewrite repeat_length; lia).
  now rewrite nth_repeat.
Qed.

Lemma size_repeat {A} (x : A) k : size (repeat x k) = N.of_nat k.
Proof. unfold size. now rewrite repeat_length. Qed.

Lemma b16_decode_clash p s k L : s + 2 <= p -> p < s + 2 * N.of_nat k ->
  p + N.of_nat k <= N.of_nat L -> s + 2 * N.of_nat k <= N.of_nat L -> N.of_nat L < 2 ^ 64 ->
  exists w', b16_decode_in alone (mkWriter p (N.of_nat L) (repeat 48 L)) s (2 * k) = Ret (Err E_ILSEQ, w').
Proof.
  intros H1 H2 H3 H4 H5. unfold b16_decode_in.
  replace (N.of_nat (2 * k)) with (N.of_nat k * 2) by lia. rewrite N.mod_mul by lia. cbn [N.eqb negb].
  destruct k as [|k]; [lia|].
  set (w := mkWriter p (N.of_nat L) (repeat 48 L)).
  assert (winv w) as I by (unfold winv, w; cbn; rewrite size_repeat; lia).
  replace (2 * Datatypes.S k)%nat with (Datatypes.S (Datatypes.S (2 * k))) by lia. cbn [b16_decode_loop_in].
  assert (forall i, i < N.of_nat L -> nnth (w_buf w) i = Some 48) as A by (intros; now apply nnth_repeat).
  rewrite (byte_in_some w s 48) by (apply A; lia). rewrite (byte_in_some w (s + 1) 48) by (apply A; lia).
  cbn [bind]. change (charToBin 48) with (Ret (Ok 0)). cbn [bind]. change (u8 (N.shiftl 0 4 + 0)) with 0.
  destruct (w_write_room w [0] I) as (w' & W & I' & P & Lm & SZ & K); [rewrite (size_cons _ []), size_nil; cbn; lia|].
  rewrite W. cbn [bind]. change (size [0]) with 1 in *. cbn [w_pos w w_lim] in *.
  apply b16_decode_zero; [assumption|cbn in *; lia| |].
  - intros i Hi. rewrite K. destruct ((p <=? s + 2 + i) && (s + 2 + i <? p + 1)) eqn:C.
    + right. apply andb_prop in C as (C1 & C2). apply N.leb_le in C1. apply N.ltb_lt in C2.
      replace (s + 2 + i - p) with 0 by lia. reflexivity.
    + left. apply A. lia.
  - exists (p - s - 2). split; [lia|]. rewrite K. replace (s + 2 + (p - s - 2)) with p by lia.
    destruct (N.leb_spec p p); [|lia]. destruct (N.ltb_spec p (p + 1)); [|lia]. cbn. now rewrite N.sub_diag.
Qed.

(** ** Encoding: a zero overwritten by a character *)

Lemma b16_pair_cases x : x < 256 -> exists a b, b16_pair x = Ret [a; b] /\ 0 < a < 256 /\ 0 < b < 256 /\ (x <> 0 -> a <> 48 \/ b <> 48).
Proof.
  intros H. pose (f := fun x => match b16_pair x with Ret [a; b] => (0 <? a) && (a <? 256) && (0 <? b) && (b <? 256) && ((x =? 0) || negb (a =? 48) || negb (b =? 48)) | _ => false end).
  assert (f x = true) as E by (apply byte_sweep; [vm_compute; reflexivity|exact H]).
  unfold f in E. destruct (b16_pair x) as [[|a [|b [|]]]| | | |]; try discriminate.
  exists a, b. split; [reflexivity|]. rewrite !andb_true_iff, !orb_true_iff, !negb_true_iff, !N.ltb_lt, !N.eqb_eq, !N.eqb_neq in E. intuition.
Qed.

Lemma b16_encode_other n : forall w s, winv w -> w_pos w + 2 * N.of_nat n <= w_lim w ->
  (forall i, i < N.of_nat n -> exists x, nnth (w_buf w) (s + i) = Some x /\ x < 256) ->
  (exists i x, i < N.of_nat n /\ nnth (w_buf w) (s + i) = Some x /\ x <> 0) ->
  exists w', b16_encode_in alone w s n = Ret (Ok tt, w') /\
    (forall j, j < w_pos w -> nnth (w_buf w') j = nnth (w_buf w) j) /\
    exists j, w_pos w <= j < w_pos w + 2 * N.of_nat n /\ nnth (w_buf w') j <> Some 48.
Proof.
  assert (forall n w s, winv w -> w_pos w + 2 * N.of_nat n <= w_lim w ->
    (forall i, i < N.of_nat n -> exists x, nnth (w_buf w) (s + i) = Some x /\ x < 256) ->
    exists w', b16_encode_in alone w s n = Ret (Ok tt, w') /\ forall j, j < w_pos w -> nnth (w_buf w') j = nnth (w_buf w) j) as RUN.
  { clear n. induction n as [|n IH]; intros w s I L A; [eexists; split; [reflexivity|auto]|].
    cbn [b16_encode_in]. destruct (A 0 ltac:(lia)) as (x & E & X). rewrite N.add_0_r in E. rewrite (byte_in_some _ _ _ E). cbn [bind].
    destruct (b16_pair_cases x X) as (a & b & -> & Ha & Hb & _). cbn [bind].
    destruct (w_write_room w [a; b] I) as (w' & W & I' & P & Lm & SZ & K); [change (size [a; b]) with 2; lia|].
    rewrite W. cbn [bind]. change (size [a; b]) with 2 in *.
    destruct (IH w' (s + 1) I') as (w2 & E2 & K2); [lia| |].
    - intros i Hi. rewrite K. destruct ((w_pos w <=? s + 1 + i) && (s + 1 + i <? w_pos w + 2)) eqn:C.
      + apply andb_prop in C as (C1 & C2). apply N.leb_le in C1. apply N.ltb_lt in C2.
        assert (s + 1 + i - w_pos w = 0 \/ s + 1 + i - w_pos w = 1) as [-> | ->] by lia; eexists; split; [reflexivity|lia|reflexivity|lia].
      + replace (s + 1 + i) with (s + (1 + i)) by lia. apply A. lia.
    - exists w2. split; [assumption|]. intros j Hj. rewrite K2 by lia. rewrite K. destruct (N.leb_spec (w_pos w) j); [lia|]. reflexivity. }
  induction n as [|n IH]; intros w s I L A (z & y & Hz & Z & Y); [cbn in Hz; lia|].
  cbn [b16_encode_in]. destruct (A 0 ltac:(lia)) as (x & E & X). rewrite N.add_0_r in E. rewrite (byte_in_some _ _ _ E). cbn [bind].
  destruct (b16_pair_cases x X) as (a & b & -> & Ha & Hb & AB). cbn [bind].
  destruct (w_write_room w [a; b] I) as (w' & W & I' & P & Lm & SZ & K); [change (size [a; b]) with 2; lia|].
  rewrite W. cbn [bind]. change (size [a; b]) with 2 in *.
  assert (forall i, i < N.of_nat n -> exists x, nnth (w_buf w') (s + 1 + i) = Some x /\ x < 256 /\
    (nnth (w_buf w) (s + 1 + i) <> Some 0 -> x <> 0)) as A'.
  { intros i Hi. rewrite K. destruct ((w_pos w <=? s + 1 + i) && (s + 1 + i <? w_pos w + 2)) eqn:C.
    + apply andb_prop in C as (C1 & C2). apply N.leb_le in C1. apply N.ltb_lt in C2.
      assert (s + 1 + i - w_pos w = 0 \/ s + 1 + i - w_pos w = 1) as [-> | ->] by lia; eexists; (split; [reflexivity|]); lia.
    + replace (s + 1 + i) with (s + (1 + i)) by lia. destruct (A (1 + i)) as (q & Q & B); [lia|]. exists q. rewrite Q. repeat split; auto. congruence. }
  destruct (N.eq_dec x 0) as [-> |NZ].
  - assert (z <> 0) as Z0 by (intros ->; rewrite N.add_0_r in Z; congruence).
    destruct (IH w' (s + 1) I') as (w2 & E2 & K2 & j & Hj & Nj); [lia| | |].
    + intros i Hi. destruct (A' i Hi) as (q & Q & B & _). eauto.
    + destruct (A' (z - 1)) as (q & Q & B & C); [lia|]. exists (z - 1), q. split; [lia|]. split; [assumption|].
      apply C. replace (s + 1 + (z - 1)) with (s + z) by lia. congruence.
    + exists w2. split; [assumption|]. split.
      * intros i Hi. rewrite K2 by lia. rewrite K. destruct (N.leb_spec (w_pos w) i); [lia|]. reflexivity.
      * exists j. split; [lia|assumption].
  - destruct (RUN n w' (s + 1) I') as (w2 & E2 & K2); [lia| |].
    + intros i Hi. destruct (A' i Hi) as (q & Q & B & _). eauto.
    + exists w2. split; [assumption|]. split.
      * intros i Hi. rewrite K2 by lia. rewrite K. destruct (N.leb_spec (w_pos w) i); [lia|]. reflexivity.
      * destruct (AB NZ) as [B|B]; [exists (w_pos w)|exists (w_pos w + 1)]; (split; [lia|]); rewrite K2, K by lia.
        -- destruct (N.leb_spec (w_pos w) (w_pos w)); [|lia]. destruct (N.ltb_spec (w_pos w) (w_pos w + 2)); [|lia].
           cbn [andb]. rewrite N.sub_diag. cbn. congruence.
        -- destruct (N.leb_spec (w_pos w) (w_pos w + 1)); [|lia]. destruct (N.ltb_spec (w_pos w + 1) (w_pos w + 2)); [|lia].
           cbn [andb]. replace (w_pos w + 1 - w_pos w) with 1 by lia. cbn. congruence.
Qed.

Lemma b16_encode_clash n : forall w s, winv w -> w_pos w + 2 * N.of_nat n <= w_lim w ->
  (forall i, i < N.of_nat n -> nnth (w_buf w) (s + i) = Some 0) ->
  s + 1 < w_pos w + N.of_nat n -> w_pos w < s + N.of_nat n ->
  exists w', b16_encode_in alone w s n = Ret (Ok tt, w') /\
    (forall j, j < w_pos w -> nnth (w_buf w') j = nnth (w_buf w) j) /\
    exists j, w_pos w <= j < w_pos w + 2 * N.of_nat n /\ nnth (w_buf w') j <> Some 48.
Proof.
  induction n as [|n IH]; intros w s I L A C1 C2; [cbn in C1; lia|].
  cbn [b16_encode_in]. pose proof (A 0 ltac:(lia)) as E. rewrite N.add_0_r in E. rewrite (byte_in_some _ _ _ E). cbn [bind].
  change (b16_pair 0) with (Ret [48; 48]). cbn [bind].
  destruct (w_write_room w [48; 48] I) as (w' & W & I' & P & Lm & SZ & K); [change (size [48; 48]) with 2; lia|].
  rewrite W. cbn [bind]. change (size [48; 48]) with 2 in *.
  assert (exists w2, b16_encode_in alone w' (s + 1) n = Ret (Ok tt, w2) /\
    (forall j, j < w_pos w' -> nnth (w_buf w2) j = nnth (w_buf w') j) /\
    exists j, w_pos w' <= j < w_pos w' + 2 * N.of_nat n /\ nnth (w_buf w2) j <> Some 48) as (w2 & E2 & K2 & j & Hj & Nj).
  { destruct (N.lt_ge_cases (w_pos w) s) as [B|B].
    - apply IH; [assumption|lia| |lia|lia]. intros i Hi. rewrite K.
      destruct (N.leb_spec (w_pos w) (s + 1 + i)); destruct (N.ltb_spec (s + 1 + i) (w_pos w + 2)); cbn [andb]; try lia;
        replace (s + 1 + i) with (s + (1 + i)) by lia; apply A; lia.
    - apply b16_encode_other; [assumption|lia| |].
      + intros i Hi. rewrite K. destruct ((w_pos w <=? s + 1 + i) && (s + 1 + i <? w_pos w + 2)) eqn:C.
        * apply andb_prop in C as (D1 & D2). apply N.leb_le in D1. apply N.ltb_lt in D2.
          assert (s + 1 + i - w_pos w = 0 \/ s + 1 + i - w_pos w = 1) as [-> | ->] by lia; eexists; (split; [reflexivity|lia]).
        * replace (s + 1 + i) with (s + (1 + i)) by lia. exists 0. split; [apply A; lia|lia].
      + destruct (N.eq_dec (w_pos w) s) as [Q|Q].
        * exists 0, 48. split; [lia|]. split; [|lia]. rewrite K, Q.
          destruct (N.leb_spec s (s + 1 + 0)); [|lia]. destruct (N.ltb_spec (s + 1 + 0) (s + 2)); [|lia]. cbn [andb].
          replace (s + 1 + 0 - s) with 1 by lia. reflexivity.
        * exists (w_pos w - s - 1), 48. split; [lia|]. split; [|lia]. rewrite K.
          replace (s + 1 + (w_pos w - s - 1)) with (w_pos w) by lia.
          destruct (N.leb_spec (w_pos w) (w_pos w)); [|lia]. destruct (N.ltb_spec (w_pos w) (w_pos w + 2)); [|lia]. cbn [andb].
          rewrite N.sub_diag. reflexivity. }
  exists w2. split; [assumption|]. split.
  - intros i Hi. rewrite K2 by lia. rewrite K. destruct (N.leb_spec (w_pos w) i); [lia|]. reflexivity.
  - exists j. split; [lia|assumption].
Qed.
