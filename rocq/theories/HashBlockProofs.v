(** The unrolled block functions equal the published round loops. *)
From Coq Require Import Lia.
From Verif Require Import Base BaseLemmas ByteIOModel ByteIOSpec ByteIOProofs HashModel HashSpec HashProofs.
Local Open Scope N_scope.
Ltac Zify.zify_post_hook ::= Z.div_mod_to_equations.

(** The registers a line names, in the order it names them. *)
Definition regs_of (r : list N) (ix : list nat) : list N := map (at_ r) ix.

Lemma words_regs r ix : words r -> words (regs_of r ix).
Proof. intros H. apply Forall_forall. intros x I. apply in_map_iff in I as (i & <- & _). now apply words_at. Qed.

(** ** MD5 *)
Definition md5_ix (i : nat) : list nat := [(3 * i) mod 4; (3 * i + 1) mod 4; (3 * i + 2) mod 4; (3 * i + 3) mod 4]%nat.
Definition md5_line_at (i : nat) : md5_line :=
  MD5P ((3 * i) mod 4) ((3 * i + 1) mod 4) ((3 * i + 2) mod 4) ((3 * i + 3) mod 4) (md5_g i) (md5_s i) (nth i md5_T 0).

Lemma md5_lines_ok :
  md5_lines1 = map md5_line_at (seq 0 16) /\ md5_lines2 = map md5_line_at (seq 16 16) /\
  md5_lines3 = map md5_line_at (seq 32 16) /\ md5_lines4 = map md5_line_at (seq 48 16).
Proof. repeat split; vm_compute; reflexivity. Qed.

Lemma md5_s_range i : 0 < md5_s i < 32.
Proof.
  unfold md5_s. assert (i mod 4 < 4)%nat by lia.
  destruct (i mod 4)%nat as [|[|[|[|]]]]; [..|lia];
    destruct (i / 16)%nat as [|[|[|]]]; cbn; lia.
Qed.

Lemma md5_line_step F X i r :
  (forall x y z, word x -> word y -> word z -> F x y z = md5_f i x y z) ->
  words r -> length r = 4%nat ->
  let r' := md5_P F X r (md5_line_at i) in
  regs_of r' (md5_ix (S i)) = md5_step X (regs_of r (md5_ix i)) i /\ words r' /\ length r' = 4%nat.
Proof.
  intros HF W L. cbn zeta. unfold md5_line_at, md5_P.
  split; [|split; [apply words_set; [assumption | apply word_add32] | now rewrite length_set]].
  pose proof (fun i => words_at r i W) as WA.
  unfold regs_of, md5_ix, md5_step; cbn [map].
  replace ((3 * S i) mod 4)%nat with ((3 * i + 3) mod 4)%nat by lia.
  replace ((3 * S i + 1) mod 4)%nat with ((3 * i) mod 4)%nat by lia.
  replace ((3 * S i + 2) mod 4)%nat with ((3 * i + 1) mod 4)%nat by lia.
  replace ((3 * S i + 3) mod 4)%nat with ((3 * i + 2) mod 4)%nat by lia.
  rewrite at_set_same by lia. rewrite !at_set_other by lia.
  rewrite HF by auto. rewrite hash_S_rotl by (auto using word_add32, md5_s_range).
  do 3 f_equal. rewrite (add32_sum (rotl _ _ _)). unfold sum32 at 1 2; cbn [fold_right]. rewrite !N.add_0_r, N.add_comm. 
  do 3 f_equal. unfold at_. sums.
Qed.

Lemma md5_lines_fold F X n : forall i r,
  (forall j x y z, (i <= j < i + n)%nat -> word x -> word y -> word z -> F x y z = md5_f j x y z) ->
  words r -> length r = 4%nat ->
  let r' := fold_left (md5_P F X) (map md5_line_at (seq i n)) r in
  regs_of r' (md5_ix (i + n)) = fold_left (md5_step X) (seq i n) (regs_of r (md5_ix i)) /\ words r' /\ length r' = 4%nat.
Proof.
  induction n as [|n IH]; intros i r HF W L; cbn zeta.
  - cbn [seq map fold_left]. rewrite Nat.add_0_r. auto.
  - cbn [seq map fold_left].
    destruct (md5_line_step F X i r) as (E & W' & L'); [intros; apply HF; auto; lia | assumption .. |].
    destruct (IH (S i) (md5_P F X r (md5_line_at i))) as (E' & W'' & L''); [intros; apply HF; auto; lia | assumption .. |].
    rewrite <- E. replace (i + S n)%nat with (S i + n)%nat by lia. auto.
Qed.

Lemma sums32_regs4 h r : length h = 4%nat -> length r = 4%nat ->
  [add32 (at_ h 0) (at_ r 0); add32 (at_ h 1) (at_ r 1); add32 (at_ h 2) (at_ r 2); add32 (at_ h 3) (at_ r 3)] = sums32 h r.
Proof.
  intros H R. destruct h as [|? [|? [|? [|? [|]]]]]; try discriminate. destruct r as [|? [|? [|? [|? [|]]]]]; try discriminate.
  cbn. now rewrite !add32_sum.
Qed.

Lemma md5_f_round i : forall x y z, word x -> word y -> word z ->
  ((i < 16)%nat -> md5_F1 x y z = md5_f i x y z) /\
  ((16 <= i < 32)%nat -> md5_F2 x y z = md5_f i x y z) /\
  ((32 <= i < 48)%nat -> md5_F3 x y z = md5_f i x y z) /\
  ((48 <= i)%nat -> md5_F4 x y z = md5_f i x y z).
Proof.
  intros x y z X Y Z. unfold md5_f. repeat split; intros H.
  - replace (i / 16)%nat with 0%nat by lia. now apply choice_ok.
  - replace (i / 16)%nat with 1%nat by lia. now apply md5_F2_ok.
  - replace (i / 16)%nat with 2%nat by lia. reflexivity.
  - destruct (i / 16)%nat as [|[|[|k]]] eqn:E; try lia. now apply md5_F4_ok.
Qed.

Lemma regs_all4 r : length r = 4%nat -> regs_of r (md5_ix 64) = r /\ regs_of r (md5_ix 0) = r.
Proof. intros L. destruct r as [|? [|? [|? [|? [|]]]]]; try discriminate. now split. Qed.

Lemma words_sums32 h r : words (sums32 h r).
Proof. revert r; induction h as [|x h IH]; intros [|y r]; cbn; constructor; auto using word_sum32. Qed.
Lemma length_sums32 h r : length r = length h -> length (sums32 h r) = length h.
Proof. revert r; induction h as [|x h IH]; intros [|y r]; cbn; intros; try discriminate; auto. Qed.

Lemma md5_process_spec host_be h block : words h -> length h = 4%nat -> size block = 64 ->
  md5_process host_be h block = Ret (md5_compress h (block_words false block)) /\
  words (md5_compress h (block_words false block)) /\ length (md5_compress h (block_words false block)) = 4%nat.
Proof.
  intros W L B. unfold md5_process. rewrite read_block by assumption. cbn [bind].
  set (X := block_words false block). destruct md5_lines_ok as (-> & -> & -> & ->).
  assert ([at_ h 0; at_ h 1; at_ h 2; at_ h 3] = h) as ->.
  { destruct h as [|? [|? [|? [|? [|]]]]]; try discriminate. reflexivity. }
  destruct (md5_lines_fold md5_F1 X 16 0 h) as (E1 & W1 & L1); [intros; apply md5_f_round; auto; lia | assumption .. |].
  set (r1 := fold_left _ (map _ (seq 0 16)) h) in *.
  destruct (md5_lines_fold md5_F2 X 16 16 r1) as (E2 & W2 & L2); [intros; apply md5_f_round; auto; lia | assumption .. |].
  set (r2 := fold_left _ (map _ (seq 16 16)) r1) in *.
  destruct (md5_lines_fold md5_F3 X 16 32 r2) as (E3 & W3 & L3); [intros; apply md5_f_round; auto; lia | assumption .. |].
  set (r3 := fold_left _ (map _ (seq 32 16)) r2) in *.
  destruct (md5_lines_fold md5_F4 X 16 48 r3) as (E4 & W4 & L4); [intros; apply md5_f_round; auto; lia | assumption .. |].
  set (r4 := fold_left _ (map _ (seq 48 16)) r3) in *.
  rewrite sums32_regs4 by assumption.
  assert (r4 = fold_left (md5_step X) (seq 0 64) h) as E.
  { change (seq 0 64) with (seq 0 16 ++ seq 16 16 ++ seq 32 16 ++ seq 48 16). rewrite !fold_left_app.
    rewrite (proj2 (regs_all4 h L)) in E1. rewrite <- E1. cbn [Nat.add] in *. rewrite <- E2, <- E3, <- E4.
    symmetry. now apply regs_all4. }
  unfold md5_compress. rewrite <- E. split; [reflexivity|]. split; [apply words_sums32|].
  rewrite length_sums32; congruence.
Qed.

(** ** Message schedules *)
Lemma length_schedule f n W : length (schedule f n W) = (length W + n)%nat.
Proof. revert W; induction n as [|n IH]; intros W; cbn; [lia|]. rewrite IH, app_length; cbn; lia. Qed.

Lemma schedule_prefix f n W : firstn (length W) (schedule f n W) = W.
Proof.
  revert W; induction n as [|n IH]; intros W; cbn; [apply firstn_all|].
  specialize (IH (W ++ [f W])). rewrite app_length in IH; cbn in IH.
  apply (f_equal (firstn (length W))) in IH. rewrite firstn_firstn in IH.
  replace (Nat.min (length W) (length W + 1)) with (length W) in IH by lia.
  rewrite IH, firstn_app, firstn_all, Nat.sub_diag. cbn. apply app_nil_r.
Qed.

Lemma schedule_nth_low f n W i : (i < length W)%nat -> nth i (schedule f n W) 0 = nth i W 0.
Proof.
  intros H. rewrite <- (schedule_prefix f n W) at 2. rewrite <- (firstn_skipn (length W) (schedule f n W)) at 1.
  rewrite app_nth1; [reflexivity|]. rewrite firstn_length, length_schedule. lia.
Qed.

Lemma schedule_nth f n : forall W t, (length W <= t < length W + n)%nat ->
  nth t (schedule f n W) 0 = f (firstn t (schedule f n W)).
Proof.
  induction n as [|n IH]; intros W t H; [lia|]. cbn [schedule].
  destruct (Nat.eq_dec t (length W)) as [->|Z].
  - rewrite schedule_nth_low by (rewrite app_length; cbn; lia).
    rewrite app_nth2, Nat.sub_diag by lia. cbn [nth]. f_equal.
    pose proof (schedule_prefix f n (W ++ [f W])) as P. rewrite app_length in P; cbn in P.
    apply (f_equal (firstn (length W))) in P. rewrite firstn_firstn in P.
    replace (Nat.min (length W) (length W + 1)) with (length W) in P by lia.
    rewrite P, firstn_app, firstn_all, Nat.sub_diag. cbn. now rewrite app_nil_r.
  - apply IH. rewrite app_length; cbn; lia.
Qed.

Lemma nth_firstn_low (l : list N) t i : (i < t)%nat -> nth i (firstn t l) 0 = nth i l 0.
Proof.
  revert t i; induction l as [|x l IH]; intros [|t] [|i] H; cbn; try lia; auto.
  - apply IH. lia.
Qed.

Lemma back_firstn W t k : (t <= length W)%nat -> (0 < k <= t)%nat -> back k (firstn t W) = nth (t - k) W 0.
Proof.
  intros L H. unfold back. rewrite firstn_length. replace (Nat.min t (length W)) with t by lia.
  apply nth_firstn_low. lia.
Qed.

(** ** SHA-1 *)
Lemma length_sha1_schedule M : length M = 16%nat -> length (sha1_schedule M) = 80%nat.
Proof. intros L. unfold sha1_schedule. now rewrite length_schedule, L. Qed.
Lemma sha1_schedule_low M t : length M = 16%nat -> (t < 16)%nat -> nth t (sha1_schedule M) 0 = nth t M 0.
Proof. intros L H. apply schedule_nth_low. lia. Qed.
Lemma sha1_schedule_high M t : length M = 16%nat -> (16 <= t < 80)%nat ->
  let W := sha1_schedule M in
  nth t W 0 = rotl 32 1 (nth (t - 3) W 0 XOR nth (t - 8) W 0 XOR nth (t - 14) W 0 XOR nth (t - 16) W 0).
Proof.
  intros L H. cbn zeta.
  assert (nth t (sha1_schedule M) 0 = sha1_word (firstn t (sha1_schedule M))) as ->
    by (apply (schedule_nth sha1_word 64 M t); lia).
  unfold sha1_word. rewrite !back_firstn by (rewrite ?length_sha1_schedule by assumption; lia). reflexivity.
Qed.

Lemma words_schedule_gen W : (forall t, (t < length W)%nat -> word (nth t W 0)) -> words W.
Proof.
  intros H. apply Forall_forall. intros x I. destruct (In_nth W x 0 I) as (t & T & <-). auto.
Qed.
Lemma words_sha1_schedule M : length M = 16%nat -> words M -> words (sha1_schedule M).
Proof.
  intros L W. apply words_schedule_gen. rewrite length_sha1_schedule by assumption.
  intros t. induction t as [t IH] using (well_founded_induction lt_wf). intros H.
  destruct (Nat.lt_ge_cases t 16).
  - rewrite sha1_schedule_low by assumption. now apply words_nth.
  - rewrite sha1_schedule_high by (assumption || lia). apply word_rotl; [lia|].
    repeat apply word_lxor; apply IH; lia.
Qed.

Definition sha1_ix (t : nat) : list nat :=
  [(4 * t) mod 5; (4 * t + 1) mod 5; (4 * t + 2) mod 5; (4 * t + 3) mod 5; (4 * t + 4) mod 5]%nat.
Definition sha1_line_at (t : nat) : sha1_line :=
  SHA1P ((4 * t) mod 5) ((4 * t + 1) mod 5) ((4 * t + 2) mod 5) ((4 * t + 3) mod 5) ((4 * t + 4) mod 5)
        (if (t <? 16)%nat then AtW t else AtR (N.of_nat t)).
Lemma sha1_lines_ok :
  sha1_lines1 = map sha1_line_at (seq 0 20) /\ sha1_lines2 = map sha1_line_at (seq 20 20) /\
  sha1_lines3 = map sha1_line_at (seq 40 20) /\ sha1_lines4 = map sha1_line_at (seq 60 20).
Proof. repeat split; vm_compute; reflexivity. Qed.

(** The ring of sixteen words before step t. *)
Definition ring (Ws : list N) (t : nat) (W : list N) : Prop :=
  length W = 16%nat /\ words W /\
  forall j, (t <= j + 16)%nat -> (j < Nat.max t 16)%nat -> at_ W (j mod 16) = nth j Ws 0.

Lemma land15 n : N.to_nat (N.land n 0x0F) = (N.to_nat n mod 16)%nat.
Proof. change 0x0F with (N.ones 4). rewrite N.land_ones. change (2 ^ 4) with 16. lia. Qed.

Lemma sha1_source M W t : length M = 16%nat -> words M -> (t < 80)%nat ->
  ring (sha1_schedule M) t W ->
  let '(v, W') := match (if (t <? 16)%nat then AtW t else AtR (N.of_nat t)) with
                  | AtW i => (at_ W i, W) | AtR t => sha1_R W t end in
  v = nth t (sha1_schedule M) 0 /\ ring (sha1_schedule M) (S t) W'.
Proof.
  intros L WM T (LW & WW & R). destruct (Nat.ltb_spec t 16) as [H|H].
  - split.
    + rewrite <- R by lia. f_equal. lia.
    + split; [assumption|]. split; [assumption|]. intros j J1 J2. apply R; lia.
  - unfold sha1_R. rewrite !land15.
    replace (N.to_nat (N.of_nat t - 3) mod 16)%nat with ((t - 3) mod 16)%nat by lia.
    replace (N.to_nat (N.of_nat t - 8) mod 16)%nat with ((t - 8) mod 16)%nat by lia.
    replace (N.to_nat (N.of_nat t - 14) mod 16)%nat with ((t - 14) mod 16)%nat by lia.
    replace (N.to_nat (N.of_nat t) mod 16)%nat with ((t - 16) mod 16)%nat by lia.
    rewrite !R by lia.
    assert (hash_S (nth (t - 3) (sha1_schedule M) 0 XOR nth (t - 8) (sha1_schedule M) 0 XOR nth (t - 14) (sha1_schedule M) 0
                    XOR nth (t - 16) (sha1_schedule M) 0) 1 = nth t (sha1_schedule M) 0) as E.
    { rewrite (sha1_schedule_high M t) by (assumption || lia). apply hash_S_rotl; [|lia].
      repeat apply word_lxor; apply words_nth, words_sha1_schedule; assumption. }
    rewrite E. split; [reflexivity|]. split; [now rewrite length_set|]. split.
    + apply words_set; [assumption|]. now apply words_nth, words_sha1_schedule.
    + intros j J1 J2. destruct (Nat.eq_dec j t) as [->|Z].
      * replace (t mod 16)%nat with ((t - 16) mod 16)%nat by lia. apply at_set_same. lia.
      * rewrite at_set_other by lia. apply R; lia.
Qed.

Lemma sha1_line_step F K M t W r :
  (forall x y z, word x -> word y -> word z -> F x y z = sha1_f t x y z) -> K = sha1_k t ->
  length M = 16%nat -> words M -> (t < 80)%nat -> ring (sha1_schedule M) t W ->
  words r -> length r = 5%nat ->
  let '(W', r') := sha1_P F K (W, r) (sha1_line_at t) in
  regs_of r' (sha1_ix (S t)) = sha1_step (sha1_schedule M) (regs_of r (sha1_ix t)) t /\
  ring (sha1_schedule M) (S t) W' /\ words r' /\ length r' = 5%nat.
Proof.
  intros HF HK LM WM T R WR L. unfold sha1_line_at, sha1_P.
  pose proof (sha1_source M W t LM WM T R) as S1.
  destruct (match (if (t <? 16)%nat then AtW t else AtR (N.of_nat t)) with
            | AtW i => (at_ W i, W) | AtR t => sha1_R W t end) as (v & W').
  destruct S1 as (-> & R').
  pose proof (fun i => words_at r i WR) as WA.
  split; [|split; [assumption | split; [| now rewrite !length_set]]].
  - unfold regs_of, sha1_ix, sha1_step; cbn [map].
    replace ((4 * S t) mod 5)%nat with ((4 * t + 4) mod 5)%nat by lia.
    replace ((4 * S t + 1) mod 5)%nat with ((4 * t) mod 5)%nat by lia.
    replace ((4 * S t + 2) mod 5)%nat with ((4 * t + 1) mod 5)%nat by lia.
    replace ((4 * S t + 3) mod 5)%nat with ((4 * t + 2) mod 5)%nat by lia.
    replace ((4 * S t + 4) mod 5)%nat with ((4 * t + 3) mod 5)%nat by lia.
    rewrite (at_set_same (set_ _ _ _)) by (rewrite length_set; lia).
    rewrite !(at_set_other _ ((4 * t + 1) mod 5)) by lia.
    rewrite at_set_same by lia. rewrite !at_set_other by lia.
    rewrite !hash_S_rotl by (auto; lia). rewrite HF, HK by auto. f_equal. sums.
  - apply words_set.
    + apply words_set; [assumption|apply word_add32].
    + rewrite at_set_other by lia. rewrite hash_S_rotl by (auto; lia). apply word_rotl; [lia|auto].
Qed.

Lemma sha1_lines_fold F K M n : forall t W r,
  (forall j x y z, (t <= j < t + n)%nat -> word x -> word y -> word z -> F x y z = sha1_f j x y z) ->
  (forall j, (t <= j < t + n)%nat -> K = sha1_k j) ->
  length M = 16%nat -> words M -> (t + n <= 80)%nat -> ring (sha1_schedule M) t W ->
  words r -> length r = 5%nat ->
  let '(W', r') := fold_left (sha1_P F K) (map sha1_line_at (seq t n)) (W, r) in
  regs_of r' (sha1_ix (t + n)) = fold_left (sha1_step (sha1_schedule M)) (seq t n) (regs_of r (sha1_ix t)) /\
  ring (sha1_schedule M) (t + n) W' /\ words r' /\ length r' = 5%nat.
Proof.
  induction n as [|n IH]; intros t W r HF HK LM WM T R WR L.
  - cbn [seq map fold_left]. rewrite Nat.add_0_r. auto.
  - cbn [seq map fold_left].
    pose proof (sha1_line_step F K M t W r ltac:(intros; apply HF; auto; lia) ltac:(apply HK; lia) LM WM ltac:(lia) R WR L) as S1.
    destruct (sha1_P F K (W, r) (sha1_line_at t)) as (W' & r'). destruct S1 as (E & R' & WR' & L').
    pose proof (IH (S t) W' r' ltac:(intros; apply HF; auto; lia) ltac:(intros; apply HK; lia) LM WM ltac:(lia) R' WR' L') as S2.
    destruct (fold_left _ _ (W', r')) as (W'' & r''). rewrite <- E.
    replace (t + S n)%nat with (S t + n)%nat by lia. exact S2.
Qed.

Lemma sums32_regs5 h r : length h = 5%nat -> length r = 5%nat ->
  [add32 (at_ h 0) (at_ r 0); add32 (at_ h 1) (at_ r 1); add32 (at_ h 2) (at_ r 2); add32 (at_ h 3) (at_ r 3);
   add32 (at_ h 4) (at_ r 4)] = sums32 h r.
Proof.
  intros H R. destruct h as [|? [|? [|? [|? [|? [|]]]]]]; try discriminate.
  destruct r as [|? [|? [|? [|? [|? [|]]]]]]; try discriminate.
  cbn. now rewrite !add32_sum.
Qed.
Lemma regs_all5 r : length r = 5%nat -> regs_of r (sha1_ix 80) = r /\ regs_of r (sha1_ix 0) = r.
Proof. intros L. destruct r as [|? [|? [|? [|? [|? [|]]]]]]; try discriminate. now split. Qed.

Lemma sha1_f_round j x y z : word x -> word y -> word z ->
  ((j < 20)%nat -> sha1_F1 x y z = sha1_f j x y z /\ sha1_K1 = sha1_k j) /\
  ((20 <= j < 40)%nat -> sha1_F2 x y z = sha1_f j x y z /\ sha1_K2 = sha1_k j) /\
  ((40 <= j < 60)%nat -> sha1_F3 x y z = sha1_f j x y z /\ sha1_K3 = sha1_k j) /\
  ((60 <= j < 80)%nat -> sha1_F4 x y z = sha1_f j x y z /\ sha1_K4 = sha1_k j).
Proof.
  intros X Y Z. unfold sha1_f, sha1_k. refine (conj _ (conj _ (conj _ _))); intros H.
  - replace (j / 20)%nat with 0%nat by lia. split; [now apply Ch_ok | reflexivity].
  - replace (j / 20)%nat with 1%nat by lia. split; reflexivity.
  - replace (j / 20)%nat with 2%nat by lia. split; [now apply Maj_ok | reflexivity].
  - replace (j / 20)%nat with 3%nat by lia. split; reflexivity.
Qed.

Lemma sha1_process_spec host_be h block : words h -> length h = 5%nat -> size block = 64 -> bytes_ok block ->
  sha1_process host_be h block = Ret (sha1_compress h (block_words true block)) /\
  words (sha1_compress h (block_words true block)) /\ length (sha1_compress h (block_words true block)) = 5%nat.
Proof.
  intros W L B BO. unfold sha1_process. rewrite read_block by assumption. cbn [bind].
  destruct (block_words_ok true block B BO) as (WM & LM).
  set (M := block_words true block) in *. destruct sha1_lines_ok as (-> & -> & -> & ->).
  assert ([at_ h 0; at_ h 1; at_ h 2; at_ h 3; at_ h 4] = h) as ->.
  { destruct h as [|? [|? [|? [|? [|? [|]]]]]]; try discriminate. reflexivity. }
  assert (ring (sha1_schedule M) 0 M) as R0.
  { split; [assumption|]. split; [assumption|]. intros j J1 J2.
    rewrite sha1_schedule_low by (assumption || lia). unfold at_. f_equal. lia. }
  assert (word 0) as W0 by (unfold word; lia).
  pose proof (sha1_lines_fold sha1_F1 sha1_K1 M 20 0 M h
    ltac:(intros j x y z J X Y Z; apply (proj1 (sha1_f_round j x y z X Y Z)); lia)
    ltac:(intros j J; apply (proj1 (sha1_f_round j 0 0 0 W0 W0 W0)); lia) LM WM ltac:(lia) R0 W L) as S1.
  destruct (fold_left _ _ (M, h)) as (Wa & ra). destruct S1 as (E1 & R1 & W1 & L1).
  pose proof (sha1_lines_fold sha1_F2 sha1_K2 M 20 20 Wa ra
    ltac:(intros j x y z J X Y Z; apply (proj1 (proj2 (sha1_f_round j x y z X Y Z))); lia)
    ltac:(intros j J; apply (proj1 (proj2 (sha1_f_round j 0 0 0 W0 W0 W0))); lia) LM WM ltac:(lia) R1 W1 L1) as S2.
  destruct (fold_left _ _ (Wa, ra)) as (Wb & rb). destruct S2 as (E2 & R2 & W2 & L2).
  pose proof (sha1_lines_fold sha1_F3 sha1_K3 M 20 40 Wb rb
    ltac:(intros j x y z J X Y Z; apply (proj1 (proj2 (proj2 (sha1_f_round j x y z X Y Z)))); lia)
    ltac:(intros j J; apply (proj1 (proj2 (proj2 (sha1_f_round j 0 0 0 W0 W0 W0)))); lia) LM WM ltac:(lia) R2 W2 L2) as S3.
  destruct (fold_left _ _ (Wb, rb)) as (Wc & rc). destruct S3 as (E3 & R3 & W3 & L3).
  pose proof (sha1_lines_fold sha1_F4 sha1_K4 M 20 60 Wc rc
    ltac:(intros j x y z J X Y Z; apply (proj2 (proj2 (proj2 (sha1_f_round j x y z X Y Z)))); lia)
    ltac:(intros j J; apply (proj2 (proj2 (proj2 (sha1_f_round j 0 0 0 W0 W0 W0)))); lia) LM WM ltac:(lia) R3 W3 L3) as S4.
  destruct (fold_left _ _ (Wc, rc)) as (Wd & rd). destruct S4 as (E4 & R4 & W4 & L4).
  cbn [snd]. rewrite sums32_regs5 by assumption.
  assert (rd = fold_left (sha1_step (sha1_schedule M)) (seq 0 80) h) as E.
  { change (seq 0 80) with (seq 0 20 ++ seq 20 20 ++ seq 40 20 ++ seq 60 20). rewrite !fold_left_app.
    rewrite (proj2 (regs_all5 h L)) in E1. rewrite <- E1. cbn [Nat.add] in *. rewrite <- E2, <- E3, <- E4.
    symmetry. now apply regs_all5. }
  unfold sha1_compress. rewrite <- E. split; [reflexivity|]. split; [apply words_sums32|].
  rewrite length_sums32; congruence.
Qed.
