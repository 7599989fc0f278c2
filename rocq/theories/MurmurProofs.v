(** The Murmur3 functions of the library compute the published algorithm, on a
    little-endian machine. *)
From Verif Require Import Base BaseLemmas MemViewModel ByteIOModel ByteIOSpec ByteIOProofs HashModel HashSpec HashProofs.
From Verif Require Import MurmurModel MurmurSpec.
Ltac Zify.zify_post_hook ::= Z.div_mod_to_equations.

(** ** Words of any width *)
Lemma high_bit w x i : x < 2 ^ w -> w <= i -> N.testbit x i = false.
Proof.
  intros H I. destruct (N.eq_dec x 0) as [->|Z]; [apply N.bits_0|].
  apply N.bits_above_log2. apply N.log2_lt_pow2 in H; lia.
Qed.
Lemma wbits w x : (forall i, w <= i -> N.testbit x i = false) -> x < 2 ^ w.
Proof.
  intros H. destruct (N.lt_ge_cases x (2 ^ w)) as [L|L]; [exact L|].
  assert (x <> 0) as Z by (pose proof (N.pow_nonzero 2 w); lia).
  pose proof (N.bit_log2 x Z) as B. rewrite H in B; [discriminate|].
  apply N.log2_le_pow2; lia.
Qed.
Lemma wlxor w x y : x < 2 ^ w -> y < 2 ^ w -> N.lxor x y < 2 ^ w.
Proof. intros H G. apply wbits. intros i I. rewrite N.lxor_spec, !(high_bit w); auto. Qed.
Lemma wmod w x : x mod 2 ^ w < 2 ^ w.
Proof. apply N.mod_lt, N.pow_nonzero. discriminate. Qed.

Lemma rotw_rotl w x r : 0 < r < w -> x < 2 ^ w -> rotw w x r = rotl w r x.
Proof.
  intros H X. unfold rotw, rotl, wrap. rewrite N.shiftl_mul_pow2, N.shiftr_div_pow2.
  apply disjoint_sum, split_bits; assumption.
Qed.
Lemma m_mix_scramble w a r b k h : 0 < r < w -> m_mix w a r b k h = h XOR scramble w a r b k.
Proof. intros R. unfold m_mix, scramble, mulw, wrap, times. rewrite rotw_rotl by (assumption || apply wmod). reflexivity. Qed.
Lemma scramble_lt w a r b k : scramble w a r b k < 2 ^ w.
Proof. apply wmod. Qed.
Lemma scramble_0 w a r b : scramble w a r b 0 = 0.
Proof.
  assert (2 ^ w <> 0) as Z by (apply N.pow_nonzero; discriminate).
  assert (2 ^ (w - r) <> 0) as Y by (apply N.pow_nonzero; discriminate).
  unfold scramble, times, rotl.
  repeat first [rewrite N.mul_0_l | rewrite N.mod_0_l by assumption | rewrite N.div_0_l by assumption | rewrite N.add_0_r].
  reflexivity.
Qed.
Lemma lane_lt w r c h n : lane w r c h n < 2 ^ w.
Proof. apply wmod. Qed.
Lemma lane_ok w r c h n : 0 < r < w -> h < 2 ^ w ->
  addw w (mulw w (addw w (rotw w h r) n) 5) c = lane w r c h n.
Proof. intros R H. rewrite rotw_rotl by assumption. reflexivity. Qed.
Lemma lane_ok0 w r c h : 0 < r < w -> h < 2 ^ w ->
  addw w (mulw w (rotw w h r) 5) c = lane w r c h 0.
Proof.
  intros R H. rewrite rotw_rotl by assumption. unfold addw, mulw, wrap, lane, plus, times.
  rewrite N.add_0_r. rewrite N.mul_mod_idemp_l by (apply N.pow_nonzero; discriminate). reflexivity.
Qed.
Lemma fmix32_ok h : m_fmix32 h = avalanche32 h.
Proof. unfold m_fmix32, avalanche32, avalanche, mulw, wrap, times. now rewrite !N.shiftr_div_pow2. Qed.
Lemma fmix64_ok h : m_fmix64 h = avalanche64 h.
Proof. unfold m_fmix64, avalanche64, avalanche, mulw, wrap, times. now rewrite !N.shiftr_div_pow2. Qed.

(** ** Blocks *)
Lemma getblock_ok n data off : 0 < n -> off + n <= size data ->
  getblock false n data off = Ret (order_value false (section data off n)).
Proof.
  intros P L. unfold getblock, load. destruct (N.eqb_spec n 0); [lia|].
  destruct (N.leb_spec (off + n) (size data)); [|lia]. cbn [bind].
  rewrite section_spec. unfold host_load. now rewrite order_value_le.
Qed.
Lemma section_section l a n b k : b + k <= n -> section (section l a n) b k = section l (a + b) k.
Proof. intros H. rewrite !section_spec, ndrop_ntake, ndrop_ndrop, ntake_ntake. f_equal. lia. Qed.

Lemma seq_split_first a n : seq a (S n) = a :: seq (S a) n.
Proof. reflexivity. Qed.

(** Full blocks from number [a] on. *)
Definition blocks_from (n : N) (m : list N) (a k : nat) : list (list N) :=
  map (fun i => section m (n * N.of_nat i) n) (seq a k).
Lemma nblocks_ok n (m : list N) : n <> 0 -> N.to_nat (size m / n) = (length m / N.to_nat n)%nat.
Proof. intros Z. unfold size. rewrite N2Nat.inj_div. now rewrite Nat2N.id. Qed.

Lemma m32_body_ok data nb rem : forall h, N.of_nat rem <= nb -> 4 * nb <= size data -> h < 2 ^ 32 ->
  m32_body false data nb rem h =
  Ret (fold_left (fun h b => lane 32 13 0xe6546b64 (h XOR scramble_32 (word_of 4 b 0)) 0)
                 (blocks_from 4 data (N.to_nat nb - rem) rem) h).
Proof.
  induction rem as [|rem IH]; intros h R L H; [reflexivity|].
  cbn [m32_body]. rewrite getblock_ok by lia. cbn [bind].
  rewrite m_mix_scramble by lia. rewrite lane_ok0 by (try apply wlxor; try apply scramble_lt; lia).
  rewrite IH by (try apply lane_lt; lia). unfold blocks_from. rewrite seq_split_first. cbn [map fold_left].
  replace (S (N.to_nat nb - S rem)) with (N.to_nat nb - rem)%nat by lia.
  do 2 f_equal. unfold word_of. rewrite section_section by lia.
  f_equal. f_equal. unfold scramble_32. f_equal. f_equal. f_equal. lia.
Qed.

Lemma m86_body_ok data nb rem : forall h1 h2 h3 h4, N.of_nat rem <= nb -> 16 * nb <= size data ->
  h1 < 2 ^ 32 -> h2 < 2 ^ 32 -> h3 < 2 ^ 32 -> h4 < 2 ^ 32 ->
  m86_body false data nb rem h1 h2 h3 h4 =
  Ret (fold_left step_x86 (blocks_from 16 data (N.to_nat nb - rem) rem) (h1, h2, h3, h4)).
Proof.
  induction rem as [|rem IH]; intros h1 h2 h3 h4 R L H1 H2 H3 H4; [reflexivity|].
  cbn [m86_body]. rewrite !getblock_ok by lia. cbn [bind].
  rewrite !m_mix_scramble by lia.
  rewrite !lane_ok by (try apply wlxor; try apply scramble_lt; lia).
  rewrite IH by (try apply lane_lt; lia). unfold blocks_from. rewrite seq_split_first. cbn [map fold_left].
  replace (S (N.to_nat nb - S rem)) with (N.to_nat nb - rem)%nat by lia.
  do 2 f_equal. unfold step_x86, word_of. rewrite !section_section by lia.
  unfold s86_1, s86_2, s86_3, s86_4.
  replace (16 * N.of_nat (N.to_nat nb - S rem)) with (16 * (nb - N.of_nat (S rem))) by lia. reflexivity.
Qed.

Lemma m64_body_ok data nb rem : forall h1 h2, N.of_nat rem <= nb -> 16 * nb <= size data ->
  h1 < 2 ^ 64 -> h2 < 2 ^ 64 ->
  m64_body false data nb rem h1 h2 =
  Ret (fold_left step_x64 (blocks_from 16 data (N.to_nat nb - rem) rem) (h1, h2)).
Proof.
  induction rem as [|rem IH]; intros h1 h2 R L H1 H2; [reflexivity|].
  cbn [m64_body]. rewrite !getblock_ok by lia. cbn [bind].
  rewrite !m_mix_scramble by lia.
  rewrite !lane_ok by (try apply wlxor; try apply scramble_lt; lia).
  rewrite IH by (try apply lane_lt; lia). unfold blocks_from. rewrite seq_split_first. cbn [map fold_left].
  replace (S (N.to_nat nb - S rem)) with (N.to_nat nb - rem)%nat by lia.
  do 2 f_equal. unfold step_x64, word_of. rewrite !section_section by lia.
  unfold s64_1, s64_2.
  replace (16 * N.of_nat (N.to_nat nb - S rem)) with (16 * (nb - N.of_nat (S rem))) by lia. reflexivity.
Qed.

Definition lt4 (p : N * N * N * N) := let '(a, b, c, d) := p in a < 2 ^ 32 /\ b < 2 ^ 32 /\ c < 2 ^ 32 /\ d < 2 ^ 32.

(** ** The tail *)
Lemma byte_shift w b s : b < 256 -> s + 8 <= w -> wrap w (N.shiftl b s) = b * 2 ^ s.
Proof.
  intros B S. unfold wrap. rewrite N.shiftl_mul_pow2. apply N.mod_small.
  apply N.lt_le_trans with (256 * 2 ^ s).
  - apply N.mul_lt_mono_pos_r; [|exact B]. pose proof (N.pow_nonzero 2 s). lia.
  - change 256 with (2 ^ 8). rewrite <- N.pow_add_r. apply N.pow_le_mono_r; lia.
Qed.
Lemma low_xor a b : b < 256 -> N.lxor (a * 256) b = a * 256 + b.
Proof.
  intros B. symmetry. apply N.add_nocarry_lxor. apply N.bits_inj. intros i. rewrite N.land_spec, N.bits_0.
  change 256 with (2 ^ 8). destruct (N.lt_ge_cases i 8) as [L|L].
  - now rewrite N.mul_pow2_bits_low.
  - rewrite (high_bit 8 b) by (assumption || lia). apply andb_false_r.
Qed.
Lemma place_byte a b s : b < 256 -> N.lxor (a * 2 ^ (8 + s)) (b * 2 ^ s) = (a * 256 + b) * 2 ^ s.
Proof.
  intros B. rewrite N.pow_add_r, N.mul_assoc. change (2 ^ 8) with 256.
  rewrite <- !N.shiftl_mul_pow2, <- N.shiftl_lxor, low_xor by assumption. reflexivity.
Qed.

(** The bytes from the highest down, each at its place. *)
Fixpoint chain (w acc : N) (bs : list N) : N :=
  match bs with [] => acc | b :: t => chain w (N.lxor acc (wrap w (N.shiftl b (8 * size t)))) t end.
Lemma chain_value w bs : forall a, bytes_ok bs -> 8 * size bs <= w ->
  chain w (a * 2 ^ (8 * size bs)) bs = be_value_acc a bs.
Proof.
  induction bs as [|b t IH]; intros a B W.
  - cbn. rewrite N.mul_1_r. reflexivity.
  - inversion B as [|? ? B0 B1]; subst. rewrite size_cons in W. cbn [chain be_value_acc].
    rewrite byte_shift by (unfold is_byte in B0; lia). rewrite size_cons.
    replace (8 * (size t + 1)) with (8 + 8 * size t) by lia.
    rewrite place_byte by exact B0. apply IH; [exact B1 | lia].
Qed.

Lemma m_cases_ok w rest data off (b : N -> N) lines : forall k,
  (forall j, j < rest -> nnth data (off + j) = Some (b j)) ->
  (forall j, rest <= j -> b j = 0) ->
  m_cases w lines rest data off k =
  Ret (fold_left (fun k p => N.lxor k (wrap w (N.shiftl (b (fst p)) (snd p)))) lines k).
Proof.
  induction lines as [|[j s] t IH]; intros k I Z; [reflexivity|].
  cbn [m_cases fold_left fst snd]. destruct (N.ltb_spec j rest) as [L|L].
  - unfold byte_at. rewrite I by assumption. cbn [bind]. apply IH; assumption.
  - rewrite IH by assumption. rewrite Z by assumption. rewrite N.shiftl_0_l. unfold wrap.
    rewrite N.mod_0_l by (apply N.pow_nonzero; discriminate). now rewrite N.lxor_0_r.
Qed.

Lemma firstn_nths n : forall l : list N, (n <= length l)%nat -> firstn n l = map (fun i => nth i l 0) (seq 0 n).
Proof.
  induction n as [|n IH]; intros [|x l] L; try reflexivity; [cbn in L; lia|].
  cbn [firstn seq map nth]. rewrite <- seq_shift, map_map. rewrite IH by (cbn in L; lia). reflexivity.
Qed.
Lemma skipn_nth a : forall (l : list N) i, nth i (skipn a l) 0 = nth (a + i) l 0.
Proof. induction a as [|a IH]; intros [|x l] i; try reflexivity; [now destruct i | apply IH]. Qed.
Lemma section_nths l a n : a + n <= size l ->
  section l a n = map (fun i => nth (N.to_nat a + i) l 0) (seq 0 (N.to_nat n)).
Proof.
  intros L. unfold size in L. unfold section. rewrite firstn_nths by (rewrite skipn_length; lia).
  apply map_ext. intros i. apply skipn_nth.
Qed.

(** Byte [j] of the last block. *)
Definition tb (n : N) (m : list N) (j : N) : N := nth (N.to_nat j) (last_block n m) 0.

Section Tail.
  Variable n : N.
  Variable m : list N.
  Hypothesis Hn : 0 < n.
  Hypothesis Hm : bytes_ok m.
  Let rest := size m mod n.
  Let off := size m / n * n.

  Lemma skip_off : skipn (N.to_nat n * (length m / N.to_nat n)) m = ndrop off m.
  Proof.
    rewrite ndrop_skipn. unfold off. rewrite N2Nat.inj_mul, nblocks_ok by lia. f_equal. lia.
  Qed.
  Lemma off_rest : off + rest = size m.
  Proof. unfold off, rest. rewrite (N.div_mod (size m) n) at 3 by lia. lia. Qed.
  Lemma last_block_is : last_block n m = ndrop off m ++ repeat 0 (N.to_nat n - N.to_nat rest).
  Proof.
    unfold last_block. rewrite skip_off. f_equal. f_equal. f_equal.
    pose proof (size_ndrop off m) as E. unfold size in E at 1. pose proof off_rest. lia.
  Qed.
  Lemma size_last_block : size (last_block n m) = n.
  Proof.
    rewrite last_block_is, size_app, size_ndrop. unfold size at 2. rewrite repeat_length. pose proof off_rest.
    assert (rest < n) by (apply N.mod_lt; lia). lia.
  Qed.
  Lemma last_block_bytes : bytes_ok (last_block n m).
  Proof.
    rewrite last_block_is. apply bytes_ok_app. split; [now apply bytes_ok_ndrop|].
    apply Forall_forall. intros x I. apply repeat_spec in I. subst. unfold is_byte. lia.
  Qed.
  Lemma tb_in j : j < rest -> nnth m (off + j) = Some (tb n m j).
  Proof.
    intros J. rewrite <- nnth_ndrop. unfold tb. rewrite last_block_is, nnth_nth_error.
    rewrite app_nth1.
    2:{ pose proof (size_ndrop off m) as E. unfold size in E at 1. pose proof off_rest. lia. }
    apply nth_error_nth'. pose proof (size_ndrop off m) as E. unfold size in E at 1. pose proof off_rest. lia.
  Qed.
  Lemma tb_out j : rest <= j -> tb n m j = 0.
  Proof.
    intros J. unfold tb. rewrite last_block_is. rewrite app_nth2.
    - apply nth_repeat.
    - pose proof (size_ndrop off m) as E. unfold size in E at 1. pose proof off_rest. lia.
  Qed.
  Lemma tb_byte j : is_byte (tb n m j).
  Proof.
    unfold tb. destruct (nth_in_or_default (N.to_nat j) (last_block n m) 0) as [I|E]; [|rewrite E; unfold is_byte; lia].
    pose proof last_block_bytes as B. unfold bytes_ok in B. rewrite Forall_forall in B. now apply B.
  Qed.
  (** A word of the last block, byte by byte. *)
  Lemma tail_word k i : k * i + k <= n ->
    word_of k (last_block n m) i = be_value_acc 0 (rev (map (fun j => tb n m (k * i + N.of_nat j)) (seq 0 (N.to_nat k)))).
  Proof.
    intros L. unfold word_of, order_value. rewrite section_nths by (rewrite size_last_block; exact L).
    do 2 f_equal. apply map_ext. intros j. unfold tb. f_equal. lia.
  Qed.
  Lemma tail_lines w lines acc :
    m_cases w lines rest m off acc =
    Ret (fold_left (fun k p => N.lxor k (wrap w (N.shiftl (tb n m (fst p)) (snd p)))) lines acc).
  Proof. apply m_cases_ok; [apply tb_in | apply tb_out]. Qed.
End Tail.

Lemma chain_zero w b t : b = 0 -> chain w 0 (b :: t) = chain w 0 t.
Proof.
  intros ->. cbn [chain]. rewrite N.shiftl_0_l. unfold wrap.
  rewrite N.mod_0_l by (apply N.pow_nonzero; discriminate). reflexivity.
Qed.
Lemma chain_word w bs : bytes_ok bs -> 8 * size bs <= w -> chain w 0 bs = be_value_acc 0 bs.
Proof. intros B W. rewrite <- (chain_value w bs 0 B W). now rewrite N.mul_0_l. Qed.
Lemma acc_zeros bs : Forall (fun b => b = 0) bs -> be_value_acc 0 bs = 0.
Proof. induction 1 as [|b t -> _ IH]; [reflexivity | exact IH]. Qed.

(** The switch computes the words of the last block. *)
Section Switches.
  Variable m : list N.
  Hypothesis Hm : bytes_ok m.

  Ltac word_of_lines n :=
    rewrite tail_lines by (assumption || lia); f_equal;
    rewrite (tail_word n) by (assumption || lia);
    try change (N.to_nat 4) with 4%nat; try change (N.to_nat 8) with 8%nat;
    cbn [Nat.add seq map rev app N.mul Pos.mul N.of_nat N.add Pos.add Pos.succ Pos.of_succ_nat fold_left fst snd];
    match goal with |- _ = be_value_acc 0 (?b :: ?t) =>
      first [ transitivity (chain 32 0 (b :: t)); [reflexivity|]
            | transitivity (chain 32 0 (b :: t)); [symmetry; apply chain_zero, tb_out; lia|]
            | transitivity (chain 64 0 (b :: t)); [reflexivity|]
            | transitivity (chain 64 0 (b :: t)); [symmetry; apply chain_zero, tb_out; lia|] ];
      apply chain_word; [repeat constructor; apply tb_byte; (assumption || lia) | cbn; lia]
    end.

  Lemma m32_k1 : m_cases 32 m32_lines (size m mod 4) m (size m / 4 * 4) 0 = Ret (word_of 4 (last_block 4 m) 0).
  Proof. unfold m32_lines. word_of_lines 4. Qed.
  Lemma m86_k1 : m_cases 32 m86_k1_lines (size m mod 16) m (size m / 16 * 16) 0 = Ret (word_of 4 (last_block 16 m) 0).
  Proof. unfold m86_k1_lines. word_of_lines 16. Qed.
  Lemma m86_k2 : m_cases 32 m86_k2_lines (size m mod 16) m (size m / 16 * 16) 0 = Ret (word_of 4 (last_block 16 m) 1).
  Proof. unfold m86_k2_lines. word_of_lines 16. Qed.
  Lemma m86_k3 : m_cases 32 m86_k3_lines (size m mod 16) m (size m / 16 * 16) 0 = Ret (word_of 4 (last_block 16 m) 2).
  Proof. unfold m86_k3_lines. word_of_lines 16. Qed.
  Lemma m86_k4 : m_cases 32 m86_k4_lines (size m mod 16) m (size m / 16 * 16) 0 = Ret (word_of 4 (last_block 16 m) 3).
  Proof. unfold m86_k4_lines. word_of_lines 16. Qed.
  Lemma m64_k1 : m_cases 64 m64_k1_lines (size m mod 16) m (size m / 16 * 16) 0 = Ret (word_of 8 (last_block 16 m) 0).
  Proof. unfold m64_k1_lines. word_of_lines 16. Qed.
  Lemma m64_k2 : m_cases 64 m64_k2_lines (size m mod 16) m (size m / 16 * 16) 0 = Ret (word_of 8 (last_block 16 m) 1).
  Proof. unfold m64_k2_lines. word_of_lines 16. Qed.

  (** A word of the last block no byte of the message reaches is zero. *)
  Lemma tail_absent n k i : 0 < n -> k * i + k <= n -> size m mod n <= k * i -> word_of k (last_block n m) i = 0.
  Proof.
    intros P L R. rewrite (tail_word n) by assumption. apply acc_zeros. apply Forall_rev, Forall_forall.
    intros x I. apply in_map_iff in I. destruct I as (j & <- & _). apply tb_out; [assumption|lia].
  Qed.
  Lemma tail_mix n k i w a r b c h : 0 < n -> k * i + k <= n -> c = k * i + 1 -> 0 < r < w ->
    (if c <=? size m mod n then m_mix w a r b (word_of k (last_block n m) i) h else h) =
    h XOR scramble w a r b (word_of k (last_block n m) i).
  Proof.
    intros P L -> R. destruct (N.leb_spec (k * i + 1) (size m mod n)) as [X|X].
    - now apply m_mix_scramble.
    - rewrite tail_absent by lia. rewrite scramble_0. now rewrite N.lxor_0_r.
  Qed.
End Switches.

(** ** The three functions *)
Lemma guard_ok (m : list N) n : 0 < n -> size m / n * n < 2 ^ 31 -> (2 ^ 31 <=? size m / n * n) = false.
Proof. intros P L. apply N.leb_gt. exact L. Qed.
Lemma land3 x : N.land x 3 = x mod 4.
Proof. change 3 with (N.ones 2). now rewrite N.land_ones. Qed.
Lemma land15 x : N.land x 15 = x mod 16.
Proof. change 15 with (N.ones 4). now rewrite N.land_ones. Qed.
Lemma blocks_all n m : n <> 0 -> blocks_from n m (N.to_nat (size m / n) - N.to_nat (size m / n)) (N.to_nat (size m / n)) = full_blocks n m.
Proof. intros Z. unfold blocks_from, full_blocks. rewrite Nat.sub_diag, nblocks_ok by assumption. reflexivity. Qed.

Theorem x86_32_ok m seed : bytes_ok m -> seed < 2 ^ 32 -> size m / 4 * 4 < 2 ^ 31 ->
  m_x86_32 false m seed = Ret (murmur3_x86_32 seed m).
Proof.
  intros B S L. unfold m_x86_32, murmur3_x86_32. rewrite guard_ok by (assumption || lia).
  rewrite m32_body_ok by (try assumption; lia). cbn [bind]. rewrite blocks_all by lia.
  rewrite land3, m32_k1 by assumption. cbn [bind].
  rewrite (tail_mix m 4 4 0) by lia. rewrite fmix32_ok. reflexivity.
Qed.
Theorem x86_128_ok m seed : bytes_ok m -> seed < 2 ^ 32 -> size m / 16 * 16 < 2 ^ 31 ->
  m_x86_128 false m seed = Ret (murmur3_x86_128 seed m).
Proof.
  intros B S L. unfold m_x86_128, murmur3_x86_128. rewrite guard_ok by (assumption || lia).
  rewrite m86_body_ok by (try assumption; lia). cbn [bind]. rewrite blocks_all by lia.
  destruct (fold_left step_x86 (full_blocks 16 m) (seed, seed, seed, seed)) as [[[h1 h2] h3] h4].
  rewrite land15, m86_k4, m86_k3, m86_k2, m86_k1 by assumption. cbn [bind].
  rewrite (tail_mix m 16 4 3), (tail_mix m 16 4 2), (tail_mix m 16 4 1), (tail_mix m 16 4 0) by lia.
  fold s86_1 s86_2 s86_3 s86_4. rewrite !fmix32_ok. unfold spread4.
  assert (forall a b c d, addw 32 (addw 32 (addw 32 a b) c) d = (a + b + c + d) mod 2 ^ 32) as E.
  { intros. unfold addw, wrap. change (2 ^ 32) with 4294967296. lia. }
  rewrite !E. reflexivity.
Qed.
Theorem x64_128_ok m seed : bytes_ok m -> seed < 2 ^ 64 -> size m / 16 * 16 < 2 ^ 31 ->
  m_x64_128 false m seed = Ret (murmur3_x64_128 seed m).
Proof.
  intros B S L. unfold m_x64_128, murmur3_x64_128. rewrite guard_ok by (assumption || lia).
  rewrite m64_body_ok by (try assumption; lia). cbn [bind]. rewrite blocks_all by lia.
  destruct (fold_left step_x64 (full_blocks 16 m) (seed, seed)) as [h1 h2].
  rewrite land15, m64_k2, m64_k1 by assumption. cbn [bind].
  rewrite (tail_mix m 16 8 1), (tail_mix m 16 8 0) by lia.
  assert (wrap 64 (size m) = size m) as E.
  { unfold wrap. apply N.mod_small. change (2 ^ 31) with 2147483648 in L. change (2 ^ 64) with 18446744073709551616. lia. }
  rewrite E, !fmix64_ok. unfold s64_1, s64_2.
  set (a := h1 XOR _ XOR _). set (b := h2 XOR _ XOR _). clearbody a b.
  cbv beta iota zeta delta [spread2 addw wrap plus]. reflexivity.
Qed.
