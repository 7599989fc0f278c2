(** The SHA-256 block function equals the published round loop. *)
From Coq Require Import Lia.
From Verif Require Import Base BaseLemmas ByteIOModel ByteIOSpec ByteIOProofs HashModel HashSpec HashProofs HashBlockProofs.
Local Open Scope N_scope.
Ltac Zify.zify_post_hook ::= Z.div_mod_to_equations.

Lemma add32_snoc l x : add32 (sum32 l) x = sum32 (l ++ [x]).
Proof.
  unfold add32, u32, sum32. rewrite N.add_mod_idemp_l by discriminate.
  f_equal. rewrite fold_right_app. cbn [fold_right]. induction l as [|y l IH]; cbn; lia.
Qed.
Lemma sum32_five a b c d e : add32 (add32 (add32 (add32 a b) c) d) e = sum32 [a; b; c; d; e].
Proof. now rewrite (add32_sum a b), !add32_snoc. Qed.
Lemma sum32_four a b c d : add32 (add32 (add32 a b) c) d = sum32 [a; b; c; d].
Proof. now rewrite (add32_sum a b), !add32_snoc. Qed.

Lemma length_sha256_schedule M : length M = 16%nat -> length (sha256_schedule M) = 64%nat.
Proof. intros L. unfold sha256_schedule. now rewrite length_schedule, L. Qed.
Lemma sha256_schedule_low M t : length M = 16%nat -> (t < 16)%nat -> nth t (sha256_schedule M) 0 = nth t M 0.
Proof. intros L H. apply schedule_nth_low. lia. Qed.
Lemma sha256_schedule_high M t : length M = 16%nat -> (16 <= t < 64)%nat ->
  let W := sha256_schedule M in
  nth t W 0 = sum32 [sigma1 (nth (t - 2) W 0); nth (t - 7) W 0; sigma0 (nth (t - 15) W 0); nth (t - 16) W 0].
Proof.
  intros L H. cbn zeta.
  assert (nth t (sha256_schedule M) 0 = sha256_word (firstn t (sha256_schedule M))) as ->
    by (apply (schedule_nth sha256_word 48 M t); lia).
  unfold sha256_word. rewrite !back_firstn by (rewrite ?length_sha256_schedule by assumption; lia). reflexivity.
Qed.
Lemma words_sha256_schedule M : length M = 16%nat -> words M -> words (sha256_schedule M).
Proof.
  intros L W. apply words_schedule_gen. rewrite length_sha256_schedule by assumption. intros t H.
  destruct (Nat.lt_ge_cases t 16).
  - rewrite sha256_schedule_low by assumption. now apply words_nth.
  - rewrite sha256_schedule_high by (assumption || lia). apply word_sum32.
Qed.

Lemma S0_ok x : word x -> sha256_S0 x = sigma0 x.
Proof. intros H. unfold sha256_S0, sigma0. now rewrite !ROTR_rotr, SHR_div by (assumption || lia). Qed.
Lemma S1_ok x : word x -> sha256_S1 x = sigma1 x.
Proof. intros H. unfold sha256_S1, sigma1. now rewrite !ROTR_rotr, SHR_div by (assumption || lia). Qed.
Lemma S2_ok x : word x -> sha256_S2 x = Sigma0 x.
Proof. intros H. unfold sha256_S2, Sigma0. now rewrite !ROTR_rotr by (assumption || lia). Qed.
Lemma S3_ok x : word x -> sha256_S3 x = Sigma1 x.
Proof. intros H. unfold sha256_S3, Sigma1. now rewrite !ROTR_rotr by (assumption || lia). Qed.
Lemma sha256_K_ok : sha256_K = sha256_k.
Proof. vm_compute. reflexivity. Qed.

Definition sha256_ix (t : nat) : list nat :=
  [(7 * t) mod 8; (7 * t + 1) mod 8; (7 * t + 2) mod 8; (7 * t + 3) mod 8;
   (7 * t + 4) mod 8; (7 * t + 5) mod 8; (7 * t + 6) mod 8; (7 * t + 7) mod 8]%nat.
Definition sha256_line_at (j : nat) : sha256_line :=
  SHA2P ((7 * j) mod 8) ((7 * j + 1) mod 8) ((7 * j + 2) mod 8) ((7 * j + 3) mod 8)
        ((7 * j + 4) mod 8) ((7 * j + 5) mod 8) ((7 * j + 6) mod 8) ((7 * j + 7) mod 8) j.
Lemma sha256_lines_ok : sha256_lines = map sha256_line_at (seq 0 8).
Proof. vm_compute. reflexivity. Qed.

(** The first [n] entries of the word array are those of the schedule. *)
Definition filled (Ws : list N) (n : nat) (W : list N) : Prop :=
  length W = 64%nat /\ forall j, (j < n)%nat -> at_ W j = nth j Ws 0.

Lemma sha256_R_spec M W t : length M = 16%nat -> words M -> (16 <= t < 64)%nat ->
  filled (sha256_schedule M) t W -> filled (sha256_schedule M) (S t) (sha256_R W t).
Proof.
  intros LM WM T (L & F). unfold sha256_R. split; [now rewrite length_set|].
  intros j J. destruct (Nat.eq_dec j t) as [->|Z].
  - rewrite at_set_same by lia. rewrite !F by lia. rewrite (sha256_schedule_high M t) by (assumption || lia).
    rewrite S0_ok, S1_ok by (apply words_nth, words_sha256_schedule; assumption). apply sum32_four.
  - rewrite at_set_other by lia. apply F. lia.
Qed.

(** One line, the word of its step being in place. *)
Lemma sha256_line_regs M i j W r : length M = 16%nat -> words M -> (i mod 8 = 0)%nat -> (j < 8)%nat ->
  at_ W (i + j) = nth (i + j) (sha256_schedule M) 0 -> words r -> length r = 8%nat ->
  let r' := snd (sha256_P false i (W, r) (sha256_line_at j)) in
  regs_of r' (sha256_ix (i + S j)) = sha256_step (sha256_schedule M) (regs_of r (sha256_ix (i + j))) (i + j) /\
  words r' /\ length r' = 8%nat.
Proof.
  intros LM WM I J E WR L. cbn zeta. unfold sha256_line_at, sha256_P. cbn [snd].
  pose proof (fun i => words_at r i WR) as WA.
  split; [|split; [repeat apply words_set; auto using word_add32 | now rewrite !length_set]].
  unfold regs_of, sha256_ix, sha256_step; cbn [map].
  replace ((7 * (i + S j)) mod 8)%nat with ((7 * j + 7) mod 8)%nat by lia.
  replace ((7 * (i + S j) + 1) mod 8)%nat with ((7 * j) mod 8)%nat by lia.
  replace ((7 * (i + S j) + 2) mod 8)%nat with ((7 * j + 1) mod 8)%nat by lia.
  replace ((7 * (i + S j) + 3) mod 8)%nat with ((7 * j + 2) mod 8)%nat by lia.
  replace ((7 * (i + S j) + 4) mod 8)%nat with ((7 * j + 3) mod 8)%nat by lia.
  replace ((7 * (i + S j) + 5) mod 8)%nat with ((7 * j + 4) mod 8)%nat by lia.
  replace ((7 * (i + S j) + 6) mod 8)%nat with ((7 * j + 5) mod 8)%nat by lia.
  replace ((7 * (i + S j) + 7) mod 8)%nat with ((7 * j + 6) mod 8)%nat by lia.
  replace ((7 * (i + j)) mod 8)%nat with ((7 * j) mod 8)%nat by lia.
  replace ((7 * (i + j) + 1) mod 8)%nat with ((7 * j + 1) mod 8)%nat by lia.
  replace ((7 * (i + j) + 2) mod 8)%nat with ((7 * j + 2) mod 8)%nat by lia.
  replace ((7 * (i + j) + 3) mod 8)%nat with ((7 * j + 3) mod 8)%nat by lia.
  replace ((7 * (i + j) + 4) mod 8)%nat with ((7 * j + 4) mod 8)%nat by lia.
  replace ((7 * (i + j) + 5) mod 8)%nat with ((7 * j + 5) mod 8)%nat by lia.
  replace ((7 * (i + j) + 6) mod 8)%nat with ((7 * j + 6) mod 8)%nat by lia.
  replace ((7 * (i + j) + 7) mod 8)%nat with ((7 * j + 7) mod 8)%nat by lia.
  rewrite (at_set_same (set_ _ _ _)) by (rewrite length_set; lia).
  rewrite !(at_set_other _ ((7 * j + 7) mod 8)) by lia.
  rewrite at_set_same by lia. rewrite !at_set_other by lia.
  rewrite E, S2_ok, S3_ok by auto. unfold sha256_F0, sha256_F1. rewrite Maj_ok, Ch_ok by auto.
  rewrite sha256_K_ok. change (nth (i + j) sha256_k 0) with (at_ sha256_k (i + j)).
  generalize (at_ sha256_k (i + j)). intros k.
  rewrite (sum32_five (at_ r ((7 * j + 7) mod 8)) (Sigma1 (at_ r ((7 * j + 4) mod 8))) (Ch _ _ _) k (nth (i + j) _ 0)).
  rewrite !add32_sum. reflexivity.
Qed.

Lemma sha256_eight_plain M i W n : forall j r, length M = 16%nat -> words M -> (i mod 8 = 0)%nat -> (j + n <= 8)%nat ->
  filled (sha256_schedule M) (i + 8) W -> words r -> length r = 8%nat ->
  let wr := fold_left (sha256_P false i) (map sha256_line_at (seq j n)) (W, r) in
  fst wr = W /\
  regs_of (snd wr) (sha256_ix (i + (j + n))) = fold_left (sha256_step (sha256_schedule M)) (seq (i + j) n) (regs_of r (sha256_ix (i + j))) /\
  words (snd wr) /\ length (snd wr) = 8%nat.
Proof.
  induction n as [|n IH]; intros j r LM WM I J F WR L; cbn zeta.
  - cbn [seq map fold_left fst snd]. rewrite Nat.add_0_r. auto.
  - cbn [seq map fold_left].
    destruct (sha256_line_regs M i j W r LM WM I ltac:(lia) ltac:(apply F; lia) WR L) as (E & W' & L').
    change (sha256_P false i (W, r) (sha256_line_at j)) with (W, snd (sha256_P false i (W, r) (sha256_line_at j))).
    set (r1 := snd (sha256_P false i (W, r) (sha256_line_at j))) in *.
    destruct (IH (S j) r1 LM WM I ltac:(lia) F W' L') as (A & B & C & D).
    split; [assumption|]. split; [|split; assumption].
    replace (j + S n)%nat with (S j + n)%nat by lia. rewrite B, E. f_equal. f_equal. lia.
Qed.

Lemma sha256_eight_expand M i n : forall j W r, length M = 16%nat -> words M -> (i mod 8 = 0)%nat -> (16 <= i)%nat -> (i + 8 <= 64)%nat ->
  (j + n <= 8)%nat ->
  filled (sha256_schedule M) (i + j) W -> words r -> length r = 8%nat ->
  let wr := fold_left (sha256_P true i) (map sha256_line_at (seq j n)) (W, r) in
  filled (sha256_schedule M) (i + (j + n)) (fst wr) /\
  regs_of (snd wr) (sha256_ix (i + (j + n))) = fold_left (sha256_step (sha256_schedule M)) (seq (i + j) n) (regs_of r (sha256_ix (i + j))) /\
  words (snd wr) /\ length (snd wr) = 8%nat.
Proof.
  induction n as [|n IH]; intros j W r LM WM I I1 I2 J F WR L; cbn zeta.
  - cbn [seq map fold_left fst snd]. rewrite Nat.add_0_r. auto.
  - cbn [seq map fold_left].
    pose proof (sha256_R_spec M W (i + j) LM WM ltac:(lia) F) as F'.
    change (sha256_P true i (W, r) (sha256_line_at j))
      with (sha256_R W (i + j), snd (sha256_P false i (sha256_R W (i + j), r) (sha256_line_at j))).
    destruct (sha256_line_regs M i j (sha256_R W (i + j)) r LM WM I ltac:(lia) ltac:(apply F'; lia) WR L) as (E & W' & L').
    set (r1 := snd (sha256_P false i (sha256_R W (i + j), r) (sha256_line_at j))) in *.
    replace (S (i + j)) with (i + S j)%nat in * by lia.
    destruct (IH (S j) (sha256_R W (i + j)) r1 LM WM I I1 I2 ltac:(lia) F' W' L') as (A & B & C & D).
    replace (j + S n)%nat with (S j + n)%nat by lia.
    split; [assumption|]. split; [|split; assumption].
    rewrite B, E. reflexivity.
Qed.

(** A loop [for (i = from; i < ...; i += 8)]. *)
Lemma by_eight {X} (body : X -> nat -> X) (inv : nat -> X -> Prop) k : forall i x,
  (forall m y, (i <= m < i + 8 * k)%nat -> (m mod 8 = i mod 8)%nat -> inv m y -> inv (m + 8)%nat (body y m)) ->
  inv i x -> inv (i + 8 * k)%nat (fold_left body (map (fun m => i + 8 * m)%nat (seq 0 k)) x).
Proof.
  induction k as [|k IH]; intros i x H I.
  - replace (i + 8 * 0)%nat with i by lia. exact I.
  - cbn [seq map fold_left]. rewrite Nat.mul_0_r, Nat.add_0_r.
    assert (map (fun m => i + 8 * m)%nat (seq 1 k) = map (fun m => i + 8 + 8 * m)%nat (seq 0 k)) as ->.
    { rewrite <- seq_shift, map_map. apply map_ext. intros; lia. }
    replace (i + 8 * S k)%nat with (i + 8 + 8 * k)%nat by lia. apply IH.
    + intros m y M1 M2. apply H; lia.
    + apply H; auto; lia.
Qed.

(** What holds of the word array and the registers before step i. *)
Definition sha256_inv (M h : list N) (i : nat) (wr : list N * list N) : Prop :=
  filled (sha256_schedule M) (Nat.max 16 i) (fst wr) /\
  regs_of (snd wr) (sha256_ix i) = fold_left (sha256_step (sha256_schedule M)) (seq 0 i) h /\
  words (snd wr) /\ length (snd wr) = 8%nat.

Lemma filled_less Ws n m W : (m <= n)%nat -> filled Ws n W -> filled Ws m W.
Proof. intros L (A & B). split; [assumption|]. intros; apply B; lia. Qed.

Lemma sha256_inv_plain M h i wr : length M = 16%nat -> words M -> (i mod 8 = 0)%nat -> (i + 8 <= 16)%nat ->
  sha256_inv M h i wr -> sha256_inv M h (i + 8) (fold_left (sha256_P false i) sha256_lines wr).
Proof.
  intros LM WM I I8 (F & E & W & L). destruct wr as (Wa & r). cbn [fst snd] in *.
  rewrite sha256_lines_ok.
  destruct (sha256_eight_plain M i Wa 8 0 r LM WM I (Nat.le_refl 8) (filled_less _ (Nat.max 16 i) (i + 8) Wa ltac:(lia) F) W L) as (A & B & C & D).
  revert A B C D. generalize (fold_left (sha256_P false i) (map sha256_line_at (seq 0 8)) (Wa, r)). intros wr' A B C D.
  unfold sha256_inv. rewrite A. rewrite Nat.add_0_r in B. split; [|split; [|split; assumption]].
  - apply (filled_less _ (Nat.max 16 i)); [lia | exact F].
  - rewrite seq_app, fold_left_app, <- E. exact B.
Qed.

Lemma sha256_inv_expand M h i wr : length M = 16%nat -> words M -> (i mod 8 = 0)%nat -> (16 <= i)%nat -> (i + 8 <= 64)%nat ->
  sha256_inv M h i wr -> sha256_inv M h (i + 8) (fold_left (sha256_P true i) sha256_lines wr).
Proof.
  intros LM WM I I1 I8 (F & E & W & L). destruct wr as (Wa & r). cbn [fst snd] in *.
  rewrite sha256_lines_ok.
  destruct (sha256_eight_expand M i 8 0 Wa r LM WM I I1 I8 (Nat.le_refl 8) (filled_less _ (Nat.max 16 i) (i + 0) Wa ltac:(lia) F) W L) as (A & B & C & D).
  revert A B C D. generalize (fold_left (sha256_P true i) (map sha256_line_at (seq 0 8)) (Wa, r)). intros wr' A B C D.
  unfold sha256_inv. rewrite Nat.add_0_r in B. split; [|split; [|split; assumption]].
  - apply (filled_less _ (i + (0 + 8))); [lia | exact A].
  - rewrite seq_app, fold_left_app, <- E. exact B.
Qed.

Lemma sums32_regs8 h r : length h = 8%nat -> length r = 8%nat ->
  [add32 (at_ h 0) (at_ r 0); add32 (at_ h 1) (at_ r 1); add32 (at_ h 2) (at_ r 2); add32 (at_ h 3) (at_ r 3);
   add32 (at_ h 4) (at_ r 4); add32 (at_ h 5) (at_ r 5); add32 (at_ h 6) (at_ r 6); add32 (at_ h 7) (at_ r 7)] = sums32 h r.
Proof.
  intros H R. destruct h as [|? [|? [|? [|? [|? [|? [|? [|? [|]]]]]]]]]; try discriminate.
  destruct r as [|? [|? [|? [|? [|? [|? [|? [|? [|]]]]]]]]]; try discriminate.
  cbn. now rewrite !add32_sum.
Qed.
Lemma regs_all8 r : length r = 8%nat -> regs_of r (sha256_ix 64) = r /\ regs_of r (sha256_ix 0) = r.
Proof. intros L. destruct r as [|? [|? [|? [|? [|? [|? [|? [|? [|]]]]]]]]]; try discriminate. now split. Qed.
Lemma all8 h : length h = 8%nat -> [at_ h 0; at_ h 1; at_ h 2; at_ h 3; at_ h 4; at_ h 5; at_ h 6; at_ h 7] = h.
Proof. intros L. destruct h as [|? [|? [|? [|? [|? [|? [|? [|? [|]]]]]]]]]; try discriminate. reflexivity. Qed.

Lemma sha256_process_spec junk host_be h block : length junk = 48%nat -> words h -> length h = 8%nat -> size block = 64 -> bytes_ok block ->
  sha256_process junk host_be h block = Ret (sha256_compress h (block_words true block)) /\
  words (sha256_compress h (block_words true block)) /\ length (sha256_compress h (block_words true block)) = 8%nat.
Proof.
  intros J W L B BO. unfold sha256_process. rewrite read_block by assumption. cbn [bind].
  destruct (block_words_ok true block B BO) as (WM & LM).
  set (M := block_words true block) in *. rewrite all8 by assumption.
  assert (filled (sha256_schedule M) 16 (M ++ junk)) as F.
  { split; [rewrite app_length; lia|]. intros j I. unfold at_. rewrite app_nth1 by lia. symmetry. now apply sha256_schedule_low. }
  assert (sha256_inv M h 0 (M ++ junk, h)) as I0.
  { split; [exact F|]. split; [|split; assumption]. now apply regs_all8. }
  pose proof (by_eight (fun wr i => fold_left (sha256_P false i) sha256_lines wr) (sha256_inv M h) 2 0 (M ++ junk, h)
    (fun m y A B => sha256_inv_plain M h m y LM WM B ltac:(change (0 mod 8)%nat with 0%nat in B; lia)) I0) as I1.
  change (map (fun m => 0 + 8 * m)%nat (seq 0 2)) with [0; 8]%nat in I1. change (0 + 8 * 2)%nat with 16%nat in I1.
  revert I1. match goal with |- sha256_inv M h 16 ?x -> _ => generalize x end. intros wr1 I1.
  pose proof (by_eight (fun wr i => fold_left (sha256_P true i) sha256_lines wr) (sha256_inv M h) 6 16 wr1
    (fun m y A B => sha256_inv_expand M h m y LM WM B ltac:(lia) ltac:(change (16 mod 8)%nat with 0%nat in B; lia)) I1) as I2.
  change (map (fun m => 16 + 8 * m)%nat (seq 0 6)) with [16; 24; 32; 40; 48; 56]%nat in I2. change (16 + 8 * 6)%nat with 64%nat in I2.
  revert I2. match goal with |- sha256_inv M h 64 ?x -> _ => generalize x end. intros wr2 (_ & E & W2 & L2).
  rewrite (proj1 (regs_all8 _ L2)) in E.
  rewrite sums32_regs8 by assumption.
  unfold sha256_compress. rewrite <- E. split; [reflexivity|]. split; [apply words_sums32|].
  rewrite length_sums32; congruence.
Qed.

(** ** The compact variant *)
Lemma nth_map_seq be block i : (i < 16)%nat ->
  nth i (block_words be block) 0 = order_value be (section block (4 * N.of_nat i) 4).
Proof.
  intros H. unfold block_words.
  change (order_value be (section block (4 * N.of_nat i) 4)) with ((fun i => order_value be (section block (4 * N.of_nat i) 4)) i).
  generalize (fun i => order_value be (section block (4 * N.of_nat i) 4)). intros f.
  rewrite (nth_indep _ 0 (f 0%nat)) by (rewrite map_length, seq_length; lia).
  rewrite map_nth, seq_nth by lia. reflexivity.
Qed.

Lemma sha256_small_line M i W r : at_ W i = nth i (sha256_schedule M) 0 -> words r -> length r = 8%nat ->
  let r1 := snd (sha256_P false i (W, r) (SHA2P 0 1 2 3 4 5 6 7 0)) in
  let r' := [at_ r1 7; at_ r1 0; at_ r1 1; at_ r1 2; at_ r1 3; at_ r1 4; at_ r1 5; at_ r1 6] in
  r' = sha256_step (sha256_schedule M) r i /\ words r' /\ length r' = 8%nat.
Proof.
  intros E WR L. cbn zeta.
  assert (words (snd (sha256_P false i (W, r) (SHA2P 0 1 2 3 4 5 6 7 0)))) as W1.
  { unfold sha256_P. cbn [snd]. repeat apply words_set; auto using word_add32. }
  split; [|split; [repeat (constructor; [now apply words_at|]); constructor | reflexivity]].
  clear W1. destruct r as [|a [|b [|c [|d [|e [|f [|g [|h [|]]]]]]]]]; try discriminate L.
  repeat match goal with H : words (_ :: _) |- _ => inversion H; subst; clear H
         | H : Forall word (_ :: _) |- _ => inversion H; subst; clear H end.
  unfold sha256_P. cbn [snd]. rewrite Nat.add_0_r, E.
  cbn [at_ nth set_]. rewrite S2_ok, S3_ok by assumption. unfold sha256_F0, sha256_F1. rewrite Maj_ok, Ch_ok by assumption.
  unfold sha256_step. cbn zeta.
  rewrite sha256_K_ok. unfold at_. generalize (nth i sha256_k 0). intros k.
  rewrite (sum32_five h (Sigma1 e) (Ch e f g) k (nth i (sha256_schedule M) 0)). rewrite !add32_sum. reflexivity.
Qed.

Lemma sha256_small_spec host_be M block n : forall i W r, size block = 64 -> M = block_words true block ->
  words M -> length M = 16%nat -> (i + n = 64)%nat ->
  filled (sha256_schedule M) i W -> words r -> length r = 8%nat ->
  exists r', sha256_small host_be (seq i n) (mkReader (4 * N.of_nat (Nat.min i 16)) 64 block) W r = Ret r' /\
    r' = fold_left (sha256_step (sha256_schedule M)) (seq i n) r /\ length r' = 8%nat.
Proof.
  induction n as [|n IH]; intros i W r B EM WM LM I F WR L.
  - exists r. auto.
  - cbn [seq sha256_small fold_left]. destruct (Nat.ltb_spec i 16) as [H|H].
    + pose proof (read_words_spec host_be true block 1 (4 * N.of_nat i) ltac:(lia) ltac:(lia)) as RW.
      cbn [read_words seq map] in RW. rewrite B in RW. replace (Nat.min i 16) with i by lia.
      assert (length (section block (4 * N.of_nat i) 4) = 4%nat) as L4.
      { assert (size (section block (4 * N.of_nat i) 4) = 4) as Z by (rewrite section_spec, size_ntake, size_ndrop; lia).
        unfold size in Z. lia. }
      unfold r_readInt. rewrite r_read_ok by (unfold rinv; cbn [r_pos r_lim r_buf]; change (N.of_nat (wbytes W32)) with 4; lia).
      cbn [bind r_pos r_lim r_buf fst snd]. change (N.of_nat (wbytes W32)) with 4.
      rewrite (swap_host host_be true W32) by exact L4.
      assert (order_value true (section block (4 * N.of_nat i) 4) = nth i (sha256_schedule M) 0) as E.
      { rewrite sha256_schedule_low by assumption. rewrite EM.
        symmetry. now apply nth_map_seq. }
      rewrite E. set (W' := set_ W i (nth i (sha256_schedule M) 0)).
      assert (filled (sha256_schedule M) (S i) W') as F'.
      { destruct F as (F1 & F2). split; [now unfold W'; rewrite length_set|]. intros j J. unfold W'.
        destruct (Nat.eq_dec i j) as [->|Z]; [apply at_set_same; lia | rewrite at_set_other by assumption; apply F2; lia]. }
      destruct (sha256_small_line M i W' r ltac:(apply F'; lia) WR L) as (E1 & W1 & L1).
      destruct (IH (S i) W' (sha256_step (sha256_schedule M) r i) B EM WM LM ltac:(lia) F' ltac:(now rewrite <- E1) ltac:(now rewrite <- E1)) as (r' & E2 & E3 & L2).
      exists r'. split; [|auto]. rewrite <- E2. replace (4 * N.of_nat i + 4) with (4 * N.of_nat (Nat.min (S i) 16)) by lia.
      cbn zeta in E1. rewrite E1. reflexivity.
    + replace (Nat.min i 16) with 16%nat by lia. cbn [bind].
      pose proof (sha256_R_spec M W i LM WM ltac:(lia) F) as F'.
      destruct (sha256_small_line M i (sha256_R W i) r ltac:(apply F'; lia) WR L) as (E1 & W1 & L1).
      destruct (IH (S i) (sha256_R W i) (sha256_step (sha256_schedule M) r i) B EM WM LM ltac:(lia) F' ltac:(now rewrite <- E1) ltac:(now rewrite <- E1)) as (r' & E2 & E3 & L2).
      replace (Nat.min (S i) 16) with 16%nat in E2 by lia.
      exists r'. split; [|auto]. rewrite <- E2. cbn zeta in E1. rewrite E1. reflexivity.
Qed.

Lemma sha256_small_process_spec junk host_be h block : length junk = 64%nat -> words h -> length h = 8%nat -> size block = 64 -> bytes_ok block ->
  sha256_process_small junk host_be h block = Ret (sha256_compress h (block_words true block)).
Proof.
  intros J W L B BO. unfold sha256_process_small. rewrite all8 by assumption.
  destruct (block_words_ok true block B BO) as (WM & LM).
  destruct (sha256_small_spec host_be (block_words true block) block 64 0 junk h B eq_refl WM LM eq_refl
    ltac:(split; [assumption | intros; lia]) W L) as (r & E & E' & L').
  unfold reader_make. rewrite B. change (4 * N.of_nat (Nat.min 0 16)) with 0 in E. rewrite E. cbn [bind].
  rewrite sums32_regs8 by assumption. unfold sha256_compress. now rewrite <- E'.
Qed.
