(** Proofs about the message digests. *)
From Coq Require Import Lia.
From Verif Require Import Base BaseLemmas MemViewModel MemViewSpec MemViewProofs ByteIOModel ByteIOSpec ByteIOProofs
  Base16Model StringModel HashModel HashSpec.
Local Open Scope N_scope.
Ltac Zify.zify_post_hook ::= Z.div_mod_to_equations.

(** ** Words *)
Notation words := (Forall word).

Lemma mask32 x : N.land x 0xFFFFFFFF = u32 x.
Proof. change 0xFFFFFFFF with (N.ones 32). now rewrite N.land_ones. Qed.
Lemma u32_word x : word (u32 x).
Proof. unfold word, u32. lia. Qed.
Lemma u32_id x : word x -> u32 x = x.
Proof. unfold word, u32. intros. now apply N.mod_small. Qed.
Lemma word_bit x i : word x -> 32 <= i -> N.testbit x i = false.
Proof.
  intros H I. destruct (N.eq_dec x 0) as [->|Z]; [apply N.bits_0|].
  apply N.bits_above_log2. apply N.log2_lt_pow2 in H; lia.
Qed.
Lemma bits_word x : (forall i, 32 <= i -> N.testbit x i = false) -> word x.
Proof.
  intros H. unfold word. destruct (N.lt_ge_cases x (2 ^ 32)) as [L|L]; [exact L|].
  assert (x <> 0) as Z by lia.
  pose proof (N.bit_log2 x Z) as B. rewrite H in B; [discriminate|].
  apply N.log2_le_pow2; lia.
Qed.
Lemma not32_compl x : word x -> not32 x = compl32 x.
Proof.
  intros H. unfold not32, compl32. change 0xFFFFFFFF with (N.ones 32).
  change (N.lxor x (N.ones 32)) with (N.lnot x 32).
  destruct (N.eq_dec x 0) as [->|Z]; [reflexivity|].
  rewrite N.lnot_sub_low by (apply N.log2_lt_pow2; unfold word in H; lia).
  reflexivity.
Qed.
Lemma compl_bit x i : word x -> N.testbit (compl32 x) i = if i <? 32 then negb (N.testbit x i) else false.
Proof.
  intros H. rewrite <- not32_compl by assumption. unfold not32. change 0xFFFFFFFF with (N.ones 32).
  rewrite N.lxor_spec. destruct (N.ltb_spec i 32).
  - rewrite N.ones_spec_low by lia. apply xorb_true_r.
  - rewrite N.ones_spec_high by lia. rewrite word_bit by assumption. reflexivity.
Qed.
Lemma word_compl x : word (compl32 x).
Proof. unfold word, compl32. lia. Qed.
Lemma word_land x y : word x -> word (N.land x y).
Proof. intros H. apply bits_word. intros i I. now rewrite N.land_spec, word_bit. Qed.
Lemma word_lor x y : word x -> word y -> word (N.lor x y).
Proof. intros H G. apply bits_word. intros i I. rewrite N.lor_spec, !word_bit; auto. Qed.
Lemma word_lxor x y : word x -> word y -> word (N.lxor x y).
Proof. intros H G. apply bits_word. intros i I. rewrite N.lxor_spec, !word_bit; auto. Qed.

(** Equality of words by bits. *)
Ltac bitwise i :=
  apply N.bits_inj; intros i;
  rewrite ?N.lor_spec, ?N.lxor_spec, ?N.land_spec, ?compl_bit by (try assumption; try apply word_compl);
  rewrite ?N.lor_spec, ?N.lxor_spec, ?N.land_spec, ?compl_bit by (try assumption; try apply word_compl);
  rewrite ?N.lor_spec, ?N.lxor_spec, ?N.land_spec, ?compl_bit by (try assumption; try apply word_compl).

Lemma disjoint_sum a b : N.land a b = 0 -> N.lor a b = a + b.
Proof. intros H. rewrite N.add_nocarry_lxor by assumption. symmetry. now apply N.lxor_lor. Qed.

Lemma split_bits w n x : 0 < n < w -> x < 2 ^ w ->
  N.land ((x * 2 ^ n) mod 2 ^ w) (x / 2 ^ (w - n)) = 0.
Proof.
  intros H X. apply N.bits_inj. intros i. rewrite N.land_spec, N.bits_0.
  destruct (N.lt_ge_cases i n) as [L|L].
  - rewrite (N.mod_pow2_bits_low) by lia. rewrite N.mul_pow2_bits_low by assumption. reflexivity.
  - rewrite N.div_pow2_bits. destruct (N.eq_dec x 0) as [->|Z].
    + rewrite N.bits_0. apply andb_false_r.
    + rewrite (N.bits_above_log2 x); [apply andb_false_r|]. apply N.log2_lt_pow2 in X; lia.
Qed.

Lemma hash_S_rotl x n : word x -> 0 < n < 32 -> hash_S x n = rotl 32 n x.
Proof.
  intros X H. unfold hash_S, rotl, shl32, u32. rewrite mask32, u32_id by assumption.
  rewrite N.shiftl_mul_pow2, N.shiftr_div_pow2. apply disjoint_sum, split_bits; assumption.
Qed.

Lemma rotl_rotr w n x : 0 < n < w -> x < 2 ^ w -> rotr w n x = rotl w (w - n) x.
Proof.
  intros H X. unfold rotr, rotl. replace (w - (w - n)) with n by lia.
  replace (2 ^ w) with (2 ^ (w - n) * 2 ^ n) by (rewrite <- N.pow_add_r; f_equal; lia).
  rewrite (N.mul_comm x), N.mul_mod_distr_l by (apply N.pow_nonzero; discriminate). lia.
Qed.

Lemma ROTR_rotr x n : word x -> 0 < n < 32 -> ROTR x n = rotr 32 n x.
Proof.
  intros X H. rewrite rotl_rotr by assumption. rewrite <- hash_S_rotl by (assumption || lia).
  unfold ROTR, SHR, hash_S. rewrite N.lor_comm. repeat f_equal. lia.
Qed.
Lemma SHR_div x n : word x -> SHR x n = x / 2 ^ n.
Proof. intros X. unfold SHR. rewrite mask32, u32_id by assumption. apply N.shiftr_div_pow2. Qed.

Lemma word_rotl n x : 0 < n < 32 -> word x -> word (rotl 32 n x).
Proof.
  intros H X. rewrite <- hash_S_rotl by assumption. unfold hash_S. apply word_lor.
  - apply u32_word.
  - rewrite mask32, u32_id, N.shiftr_div_pow2 by assumption. unfold word in *.
    apply N.le_lt_trans with x; [|assumption]. apply N.div_le_upper_bound; [apply N.pow_nonzero; discriminate|].
    rewrite <- (N.mul_1_l x) at 1. apply N.mul_le_mono_r. pose proof (N.pow_nonzero 2 (32 - n) ltac:(discriminate)). lia.
Qed.

(** ** The round functions *)
Lemma choice_ok x y z : word x -> word y -> word z ->
  N.lxor z (N.land x (N.lxor y z)) = (x AND y) OR (compl32 x AND z).
Proof.
  intros X Y Z. bitwise i. destruct (N.ltb_spec i 32).
  - now destruct (N.testbit x i), (N.testbit y i), (N.testbit z i).
  - now rewrite !word_bit by assumption.
Qed.
Lemma Ch_ok x y z : word x -> word y -> word z -> N.lxor z (N.land x (N.lxor y z)) = Ch x y z.
Proof.
  intros X Y Z. unfold Ch. bitwise i. destruct (N.ltb_spec i 32).
  - now destruct (N.testbit x i), (N.testbit y i), (N.testbit z i).
  - now rewrite !word_bit by assumption.
Qed.
Lemma Maj_ok x y z : N.lor (N.land x y) (N.land z (N.lor x y)) = Maj x y z.
Proof. unfold Maj. bitwise i. now destruct (N.testbit x i), (N.testbit y i), (N.testbit z i). Qed.
Lemma md5_F2_ok x y z : word x -> word y -> word z -> md5_F2 x y z = (x AND z) OR (y AND compl32 z).
Proof.
  intros X Y Z. unfold md5_F2. bitwise i. destruct (N.ltb_spec i 32).
  - now destruct (N.testbit x i), (N.testbit y i), (N.testbit z i).
  - now rewrite !word_bit by assumption.
Qed.
Lemma md5_F4_ok x y z : word z -> md5_F4 x y z = y XOR (x OR compl32 z).
Proof. intros Z. unfold md5_F4. now rewrite not32_compl. Qed.

(** ** Sums *)
Lemma add32_sum a b : add32 a b = sum32 [a; b].
Proof. unfold add32, sum32, u32; cbn [fold_right]. now rewrite N.add_0_r. Qed.
Lemma word_sum32 l : word (sum32 l).
Proof. unfold word, sum32. lia. Qed.
Lemma word_add32 a b : word (add32 a b).
Proof. apply u32_word. Qed.
Ltac sums := unfold add32, u32, sum32; cbn [fold_right]; lia.

(** ** Arrays *)
Lemma length_set l i v : length (set_ l i v) = length l.
Proof. revert i; induction l as [|x l IH]; intros [|i]; cbn; auto. Qed.
Lemma at_set l i j v : at_ (set_ l i v) j = if (i =? j)%nat && (i <? length l)%nat then v else at_ l j.
Proof.
  revert i j; induction l as [|x l IH]; intros [|i] [|j]; cbn; try reflexivity.
  - destruct (i =? j)%nat; reflexivity.
  - unfold at_ in *. rewrite IH. reflexivity.
Qed.
Lemma at_set_same l i v : (i < length l)%nat -> at_ (set_ l i v) i = v.
Proof. intros H. rewrite at_set, Nat.eqb_refl. destruct (Nat.ltb_spec i (length l)); [reflexivity | lia]. Qed.
Lemma at_set_other l i j v : i <> j -> at_ (set_ l i v) j = at_ l j.
Proof. intros H. rewrite at_set. destruct (Nat.eqb_spec i j); [contradiction | reflexivity]. Qed.
Lemma words_at l i : words l -> word (at_ l i).
Proof.
  intros H. unfold at_. destruct (nth_in_or_default i l 0) as [I|E].
  - rewrite Forall_forall in H. now apply H.
  - rewrite E. unfold word. lia.
Qed.
Lemma words_set l i v : words l -> word v -> words (set_ l i v).
Proof. intros H V; revert i; induction H as [|x l X H IH]; intros [|i]; cbn; constructor; auto. Qed.
Lemma words_nth l i : words l -> word (nth i l 0).
Proof. apply words_at. Qed.

(** ** Reading the block and writing the digest *)
Lemma order_value_word be l : length l = 4%nat -> bytes_ok l -> word (order_value be l).
Proof.
  intros L B. destruct l as [|a [|b [|c [|d [|]]]]]; try discriminate L.
  repeat match goal with H : bytes_ok (_ :: _) |- _ => inversion H; subst; clear H
         | H : Forall is_byte (_ :: _) |- _ => inversion H; subst; clear H end.
  unfold is_byte, word, order_value in *. destruct be; cbn -[N.mul N.add]; lia.
Qed.

Lemma read_words_spec host_be be block n p :
  size block < 2 ^ 64 -> p + 4 * N.of_nat n <= size block ->
  read_words host_be be n (mkReader p (size block) block) =
  Ret (map (fun i => order_value be (section block (p + 4 * N.of_nat i) 4)) (seq 0 n)).
Proof.
  revert p; induction n as [|n IH]; intros p Sz H; [reflexivity|].
  cbn [read_words]. unfold r_readInt. rewrite r_read_ok by (unfold rinv; cbn; lia).
  cbn [bind r_lim r_buf r_pos fst snd]. change (N.of_nat (wbytes W32)) with 4.
  rewrite (swap_host host_be be W32).
  2:{ assert (size (section block p 4) = 4) as E by (rewrite section_spec, size_ntake, size_ndrop; lia).
      unfold size in E. change (wbytes W32) with 4%nat; lia. }
  rewrite IH by lia. cbn [bind seq map]. rewrite <- seq_shift, map_map. f_equal. f_equal.
  - now replace (p + 4 * N.of_nat 0) with p by lia.
  - apply map_ext. intros i. now replace (p + 4 + 4 * N.of_nat i) with (p + 4 * N.of_nat (S i)) by lia.
Qed.

Lemma read_block host_be be block : size block = 64 ->
  read_words host_be be 16 (reader_make block) = Ret (block_words be block).
Proof. intros E. unfold reader_make. rewrite read_words_spec by lia. reflexivity. Qed.

Lemma block_words_ok be block : size block = 64 -> bytes_ok block ->
  words (block_words be block) /\ length (block_words be block) = 16%nat.
Proof.
  intros E B. split; [|reflexivity]. unfold block_words. apply Forall_forall. intros x H.
  apply in_map_iff in H as (i & <- & I). apply in_seq in I. apply order_value_word.
  - assert (size (section block (4 * N.of_nat i) 4) = 4) as Z by (rewrite section_spec, size_ntake, size_ndrop; lia).
    unfold size in Z. lia.
  - rewrite section_spec. now apply bytes_ok_ntake, bytes_ok_ndrop.
Qed.

Lemma write_words_spec host_be be ws w : winv w -> w_pos w + 4 * size ws <= w_lim w ->
  exists w', write_words host_be be ws w = Ret w' /\ w_pos w' = w_pos w + 4 * size ws /\ winv w' /\
    ntake (w_pos w') (w_buf w') = ntake (w_pos w) (w_buf w) ++ output be ws /\ size (w_buf w') = size (w_buf w).
Proof.
  revert w; induction ws as [|x ws IH]; intros w I H.
  - exists w. cbn. rewrite app_nil_r. repeat split; try apply I. lia.
  - rewrite size_cons in H. pose proof (w_put_field host_be (FInt be W32 x) w I ltac:(cbn; lia)) as E.
    cbn [w_step put_field field_size field_bytes wbytes] in E. change (N.of_nat 4) with 4 in E.
    cbn [write_words]. rewrite E. cbn [bind snd].
    assert (size (order_bytes be 4 x) = 4) as Z by (unfold size; now rewrite order_bytes_length).
    pose proof I as (I1 & I2 & I3).
    edestruct (IH (mkWriter (w_pos w + 4) (w_lim w) (spliced (w_buf w) (w_pos w) (order_bytes be 4 x))))
      as (w' & E' & P & I' & B & S').
    { repeat split; cbn; rewrite ?size_spliced; lia. }
    { cbn [w_pos w_lim]. lia. }
    exists w'. cbn [w_pos w_buf w_lim] in *. rewrite E'. split; [reflexivity|]. split; [|split; [assumption|split]].
    + rewrite P, size_cons. lia.
    + rewrite B. rewrite <- Z, spliced_prefix by lia. rewrite <- app_assoc. reflexivity.
    + rewrite S'. apply size_spliced. lia.
Qed.

Lemma emit_words_spec host_be be junk ws : size junk = 4 * size ws -> size junk < 2 ^ 64 ->
  emit_words host_be be junk ws = Ret (output be ws).
Proof.
  intros E L. unfold emit_words.
  destruct (write_words_spec host_be be ws (writer_make junk)) as (w' & W & P & I & B & S).
  { unfold writer_make, winv. cbn. lia. }
  { unfold writer_make. cbn [w_pos w_lim w_buf]. lia. }
  rewrite W. cbn [bind]. unfold writer_make in *. cbn [w_pos w_buf] in *. rewrite ntake_0 in B. cbn [app] in B.
  unfold w_viewWritten. pose proof I as (I1 & I2 & I3).
  pose proof (storage_slice_read (w_buf w') 0 (w_pos w') ltac:(lia)) as (E1 & E2).
  rewrite N.add_0_l in E1, E2. rewrite E1, E2. f_equal. now rewrite ndrop_0.
Qed.
