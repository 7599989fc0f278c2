(** Buffering, counting and padding: the update and digest functions. *)
From Coq Require Import Lia.
From Verif Require Import Base BaseLemmas ByteIOModel ByteIOSpec ByteIOProofs HashModel HashSpec HashProofs.
Local Open Scope N_scope.
Ltac Zify.zify_post_hook ::= Z.div_mod_to_equations.

(** ** Cutting in blocks *)
Definition rest (l : list N) : list N := skipn (64 * (length l / 64)) l.

Lemma skipn_skipn' {A} n m (l : list A) : skipn n (skipn m l) = skipn (m + n) l.
Proof. revert l; induction m as [|m IH]; intros [|x l]; cbn; auto using skipn_nil. Qed.

Lemma blocks_short l : (length l < 64)%nat -> blocks l = [] /\ rest l = l.
Proof. intros H. unfold blocks, rest. replace (length l / 64)%nat with 0%nat by lia. now split. Qed.

Lemma blocks_long l : (64 <= length l)%nat -> blocks l = firstn 64 l :: blocks (skipn 64 l) /\ rest l = rest (skipn 64 l).
Proof.
  intros H. unfold blocks, rest. rewrite skipn_length.
  replace (length l / 64)%nat with (S ((length l - 64) / 64)) by lia.
  generalize ((length l - 64) / 64)%nat. intros k. split.
  - cbn [seq map]. rewrite <- seq_shift, map_map. f_equal. apply map_ext. intros i. unfold section.
    rewrite skipn_skipn'. do 2 f_equal. lia.
  - rewrite skipn_skipn'. f_equal. lia.
Qed.

Lemma by_blocks (P : list N -> Prop) :
  (forall l, (length l < 64)%nat -> P l) ->
  (forall b l, length b = 64%nat -> P l -> P (b ++ l)) -> forall l, P l.
Proof.
  intros H0 H1 l. remember (length l) as n eqn:E. revert l E.
  induction n as [n IH] using (well_founded_induction lt_wf). intros l ->.
  destruct (Nat.lt_ge_cases (length l) 64) as [H|H]; [now apply H0|].
  rewrite <- (firstn_skipn 64 l). apply H1.
  - rewrite firstn_length. lia.
  - apply (IH (length (skipn 64 l))); [rewrite skipn_length; lia | reflexivity].
Qed.

Lemma blocks_cons b l : length b = 64%nat -> blocks (b ++ l) = b :: blocks l /\ rest (b ++ l) = rest l.
Proof.
  intros H. destruct (blocks_long (b ++ l)) as (A & B); [rewrite app_length; lia|].
  assert (firstn 64 (b ++ l) = b) as F. { rewrite <- H, firstn_app, firstn_all, Nat.sub_diag. cbn. apply app_nil_r. }
  assert (skipn 64 (b ++ l) = l) as K. { rewrite <- H, skipn_app, skipn_all, Nat.sub_diag. reflexivity. }
  rewrite F, K in A. rewrite K in B. now split.
Qed.

Lemma length_rest l : length (rest l) = (length l mod 64)%nat.
Proof. unfold rest. rewrite skipn_length. lia. Qed.
Lemma size_rest l : size (rest l) = size l mod 64.
Proof. unfold size. rewrite length_rest. lia. Qed.

Section Chaining.
  Variables (be : bool) (compress : list N -> list N -> list N) (process : list N -> list N -> outcome (list N)).
  Variable ok : list N -> Prop.
  Hypothesis process_ok : forall c b, ok c -> size b = 64 -> bytes_ok b ->
    process c b = Ret (compress c (block_words be b)) /\ ok (compress c (block_words be b)).

  Notation absorb := (chain_over be compress).

  Lemma absorb_short c l : (length l < 64)%nat -> absorb c l = c.
  Proof. intros H. unfold chain_over. now rewrite (proj1 (blocks_short l H)). Qed.
  Lemma absorb_cons c b l : length b = 64%nat -> absorb c (b ++ l) = absorb (compress c (block_words be b)) l.
  Proof. intros H. unfold chain_over. now rewrite (proj1 (blocks_cons b l H)). Qed.

  Lemma absorb_more l x : forall c, absorb c (l ++ x) = absorb (absorb c l) (rest l ++ x) /\ rest (l ++ x) = rest (rest l ++ x).
  Proof.
    pattern l. apply by_blocks; clear l.
    - intros l H c. rewrite (absorb_short c l H). now rewrite (proj2 (blocks_short l H)).
    - intros b l H IH c. rewrite <- app_assoc, (absorb_cons c b (l ++ x) H), (absorb_cons c b l H).
      destruct (IH (compress c (block_words be b))) as (-> & E). rewrite (proj2 (blocks_cons b l H)).
      split; [reflexivity|]. now rewrite (proj2 (blocks_cons b (l ++ x) H)).
  Qed.

  Lemma loop_spec input : forall fuel c, (length input <= fuel)%nat -> bytes_ok input -> ok c ->
    md_loop process fuel c input = Ret (absorb c input, rest input) /\ ok (absorb c input).
  Proof.
    pattern input. apply by_blocks; clear input.
    - intros l H fuel c F B O. rewrite absorb_short, (proj2 (blocks_short l H)) by assumption.
      destruct fuel; cbn [md_loop]; unfold size; destruct (N.leb_spec 64 (N.of_nat (length l))); try lia; auto.
    - intros b l H IH fuel c F B O. rewrite app_length in F. destruct fuel as [|fuel]; [lia|].
      apply bytes_ok_app in B as (Bb & Bl). cbn [md_loop].
      assert (size b = 64) as Sb by (unfold size; lia).
      rewrite size_app, Sb. destruct (N.leb_spec 64 (64 + size l)); [|lia].
      replace (ntake 64 (b ++ l)) with b by (rewrite <- Sb; symmetry; apply ntake_app_exact).
      replace (ndrop 64 (b ++ l)) with l by (rewrite <- Sb; symmetry; apply ndrop_app_exact).
      destruct (process_ok c b O Sb Bb) as (E & O'). rewrite E. cbn [bind].
      rewrite absorb_cons, (proj2 (blocks_cons b l H)) by assumption. apply IH; auto. lia.
  Qed.

  (** The state of a hasher that has been fed the message [m]; [hi] is the upper
      half of its byte counter. *)
  Definition fed (iv m : list N) (hi : N) (st : mdstate) : Prop :=
    md_lo st = size m mod 2 ^ 32 /\ md_hi st = hi /\ md_chain st = absorb iv m /\ ok (md_chain st) /\
    size (md_buffer st) = 64 /\ ntake (size m mod 64) (md_buffer st) = rest m /\ bytes_ok m.

  Definition next_hi (n hi len : N) : N := if (n + len) mod 2 ^ 32 <? len then u32 (hi + 1) else hi.

  Lemma bytes_ok_rest l : bytes_ok l -> bytes_ok (rest l).
  Proof. intros H. unfold rest. rewrite <- (Nat2N.id (64 * (length l / 64))), <- ndrop_skipn. now apply bytes_ok_ndrop. Qed.

  Lemma overwrite_prefix (buffer : list N) k x : ntake k buffer ++ x = ntake (k + size x) (overwrite buffer k x) \/ size buffer < k.
  Proof.
    destruct (N.le_gt_cases k (size buffer)) as [H|H]; [left|now right]. unfold overwrite.
    rewrite app_assoc, ntake_app.
    assert (size (ntake k buffer ++ x) = k + size x) as E by (rewrite size_app, size_ntake; lia).
    rewrite (ntake_all _ (ntake k buffer ++ x)) by lia. rewrite E, N.sub_diag, ntake_0. now rewrite app_nil_r.
  Qed.

  Ltac feds := unfold fed; cbn [md_lo md_hi md_chain md_buffer]; rewrite ?size_app;
    refine (conj eq_refl (conj eq_refl (conj (eq_sym _) (conj _ (conj _ (conj _ _)))))); auto.

  Lemma update_spec iv m hi st x : fed iv m hi st -> bytes_ok x ->
    exists st', md_update process st x = Ret st' /\ fed iv (m ++ x) (next_hi (size m) hi (size x)) st'.
  Proof.
    intros (Lo & Hi & Ch & Ok & Bz & Bc & Bm) Bx. unfold md_update.
    destruct (N.eqb_spec (size x) 0) as [Z|Z].
    { apply size_0_nil in Z as ->. exists st. split; [reflexivity|]. rewrite app_nil_r. unfold next_hi.
      rewrite (@size_nil N). destruct (N.ltb_spec ((size m + 0) mod 2 ^ 32) 0); [lia|].
      repeat split; assumption. }
    assert (N.land (md_lo st) 0x3F = size m mod 64) as EL.
    { change 0x3F with (N.ones 6). rewrite N.land_ones, Lo. change (2 ^ 6) with 64. lia. }
    rewrite EL. set (lft := size m mod 64) in *.
    assert (N.land (u32 (md_lo st + size x)) 0xFFFFFFFF = (size m + size x) mod 2 ^ 32) as ELO.
    { rewrite mask32, u32_id by apply u32_word. unfold u32. rewrite Lo. lia. }
    rewrite ELO. change (if _ <? size x then u32 (md_hi st + 1) else md_hi st) with (next_hi (size m) (md_hi st) (size x)).
    rewrite Hi.
    assert (lft < 64) as L64 by (unfold lft; lia).
    assert (size (rest m) = lft) as Rz by apply size_rest.
    destruct (absorb_more m x iv) as (A1 & A2). rewrite <- Ch in A1.
    assert (bytes_ok (rest m)) as Br by now apply bytes_ok_rest.
    assert (bytes_ok (m ++ x)) as Bmx by (apply bytes_ok_app; auto).
    destruct (N.eqb_spec lft 0) as [Z0|Z0]; cbn [negb andb].
    - (* nothing buffered *)
      cbn [bind]. assert (rest m = []) as R0 by (apply size_0_nil; lia). rewrite R0 in *. cbn [app] in *.
      destruct (loop_spec x (length x) (md_chain st) (Nat.le_refl _) Bx Ok) as (E & O'). rewrite E. cbn [bind].
      assert (size (rest x) = size x mod 64) as Rx by apply size_rest.
      destruct (N.ltb_spec 0 (size (rest x))) as [P|P].
      + unfold md_copy. rewrite Z0. destruct (N.ltb_spec 64 (0 + size (rest x))); [lia|]. cbn [bind].
        eexists. split; [reflexivity|]. feds.
        * rewrite size_overwrite by lia. assumption.
        * rewrite A2. destruct (overwrite_prefix (md_buffer st) 0 (rest x)) as [Q|Q]; [|lia].
          rewrite ntake_0 in Q. cbn [app] in Q. rewrite Q at 2. f_equal. rewrite Rx. unfold lft in Z0. lia.
      + cbn [bind]. eexists. split; [reflexivity|]. feds.
        * rewrite A2. assert (rest x = []) as -> by (apply size_0_nil; lia).
          replace ((size m + size x) mod 64) with 0 by (unfold lft in Z0; lia). apply ntake_0.
    - destruct (N.leb_spec (64 - lft) (size x)) as [F|F].
      + (* the buffer fills up *)
        cbn [bind]. unfold md_copy at 1.
        assert (size (ntake (64 - lft) x) = 64 - lft) as S1 by (rewrite size_ntake; lia).
        destruct (N.ltb_spec 64 (lft + size (ntake (64 - lft) x))); [lia|]. cbn [bind].
        assert (overwrite (md_buffer st) lft (ntake (64 - lft) x) = rest m ++ ntake (64 - lft) x) as EB.
        { destruct (overwrite_prefix (md_buffer st) lft (ntake (64 - lft) x)) as [Q|Q]; [|lia].
          rewrite Bc in Q. rewrite Q. symmetry. apply ntake_all. rewrite size_overwrite by lia. lia. }
        rewrite EB. set (full := rest m ++ ntake (64 - lft) x) in *.
        assert (size full = 64) as Fz by (unfold full; rewrite size_app; lia).
        assert (bytes_ok full) as Bf by (apply bytes_ok_app; split; [assumption | now apply bytes_ok_ntake]).
        destruct (process_ok (md_chain st) full Ok Fz Bf) as (E & O'). rewrite E. cbn [bind].
        set (y := ndrop (64 - lft) x).
        assert (rest m ++ x = full ++ y) as SPLIT.
        { unfold full, y. rewrite <- app_assoc. now rewrite ntake_ndrop. }
        rewrite SPLIT in A1, A2.
        assert (length full = 64%nat) as Fl by (unfold size in Fz; lia).
        rewrite (absorb_cons _ full y Fl) in A1. rewrite (proj2 (blocks_cons full y Fl)) in A2.
        assert (bytes_ok y) as By by now apply bytes_ok_ndrop.
        destruct (loop_spec y (length y) _ (Nat.le_refl _) By O') as (E2 & O2). rewrite E2. cbn [bind].
        assert (size (rest y) = size y mod 64) as Ry by apply size_rest.
        assert (size y = size x - (64 - lft)) as Sy by apply size_ndrop.
        destruct (N.ltb_spec 0 (size (rest y))) as [P|P].
        * unfold md_copy. destruct (N.ltb_spec 64 (0 + size (rest y))); [lia|]. cbn [bind].
          eexists. split; [reflexivity|]. feds.
          -- rewrite size_overwrite by lia. assumption.
          -- rewrite A2. destruct (overwrite_prefix full 0 (rest y)) as [Q|Q]; [|lia].
             rewrite ntake_0 in Q. cbn [app] in Q. rewrite Q at 2. f_equal. rewrite Ry. unfold lft in *. lia.
        * cbn [bind]. eexists. split; [reflexivity|]. feds.
          rewrite A2. assert (rest y = []) as -> by (apply size_0_nil; lia).
          replace ((size m + size x) mod 64) with 0 by (unfold lft in *; lia). apply ntake_0.
      + (* it does not *)
        cbn [bind]. destruct (loop_spec x (length x) (md_chain st) (Nat.le_refl _) Bx Ok) as (E & O').
        assert (length x < 64)%nat as Lx by (unfold size in F; lia).
        rewrite E, (absorb_short _ x Lx), (proj2 (blocks_short x Lx)). cbn [bind].
        destruct (N.ltb_spec 0 (size x)); [|lia]. unfold md_copy.
        destruct (N.ltb_spec 64 (lft + size x)); [lia|]. cbn [bind].
        assert (length (rest m ++ x) < 64)%nat as Lrx by (assert (size (rest m ++ x) < 64) as Q by (rewrite size_app; lia); unfold size in Q; lia).
        rewrite (absorb_short _ _ Lrx) in A1. rewrite (proj2 (blocks_short _ Lrx)) in A2.
        eexists. split; [reflexivity|]. feds.
        * rewrite size_overwrite by lia. assumption.
        * rewrite A2. destruct (overwrite_prefix (md_buffer st) lft x) as [Q|Q]; [|lia].
          rewrite Bc in Q. rewrite Q. f_equal. unfold lft in *. lia.
  Qed.

  (** The counter is right as long as no update is too long for it. *)
  Lemma next_hi_exact n len : n mod 2 ^ 32 + len < 2 ^ 33 ->
    next_hi n ((n / 2 ^ 32) mod 2 ^ 32) len = ((n + len) / 2 ^ 32) mod 2 ^ 32.
  Proof.
    intros H. unfold next_hi, u32. change (2 ^ 33) with (2 * 2 ^ 32) in H.
    pose proof (N.div_mod n (2 ^ 32) ltac:(discriminate)) as E.
    pose proof (N.mod_lt n (2 ^ 32) ltac:(discriminate)) as R.
    set (q := n / 2 ^ 32) in *. set (r := n mod 2 ^ 32) in *. clearbody q r. subst n.
    rewrite N.add_mod_idemp_l by discriminate.
    change (2 ^ 32) with 4294967296 in *.
    destruct (N.ltb_spec ((4294967296 * q + r + len) mod 4294967296) len).
    - replace ((4294967296 * q + r + len) / 4294967296) with (q + 1) by lia. reflexivity.
    - replace ((4294967296 * q + r + len) / 4294967296) with q by lia. reflexivity.
  Qed.

  Lemma next_hi_two (m p q : list N) : size p <= 64 -> size q <= 64 ->
    next_hi (size (m ++ p)) (next_hi (size m) ((size m / 2 ^ 32) mod 2 ^ 32) (size p)) (size q) =
    (size (m ++ p ++ q) / 2 ^ 32) mod 2 ^ 32.
  Proof.
    intros P Q. rewrite next_hi_exact by lia. rewrite !size_app, N.add_assoc. apply next_hi_exact. lia.
  Qed.

  (** ** The digest *)
  Lemma high_low st : md_lo st < 2 ^ 32 -> md_hi st < 2 ^ 32 ->
    let v := 8 * (md_hi st * 2 ^ 32 + md_lo st) mod 2 ^ 64 in
    md_high st = v / 2 ^ 32 /\ md_low st = v mod 2 ^ 32.
  Proof.
    intros H1 H2. cbn zeta. unfold md_high, md_low, shl32, u32.
    rewrite !N.shiftl_mul_pow2, N.shiftr_div_pow2. split; [|change (2 ^ 3) with 8; lia].
    rewrite N.lor_comm, disjoint_sum.
    - change (2 ^ 3) with 8. change (2 ^ 29) with 536870912. lia.
    - apply N.bits_inj. intros i. rewrite N.land_spec, N.bits_0.
      destruct (N.lt_ge_cases i 3) as [L|L].
      + rewrite N.mod_pow2_bits_low by lia. now rewrite N.mul_pow2_bits_low.
      + rewrite N.div_pow2_bits. rewrite (word_bit (md_lo st)) by (unfold word; lia). apply andb_false_r.
  Qed.

  Lemma le_bytes_app v : le_bytes 8 v = le_bytes 4 (v mod 2 ^ 32) ++ le_bytes 4 (v / 2 ^ 32).
  Proof.
    unfold le_bytes; cbn [seq map app N.of_nat Pos.of_succ_nat Pos.succ].
    repeat match goal with |- context [256 ^ ?k] => let r := eval vm_compute in (256 ^ k) in change (256 ^ k) with r end.
    change (2 ^ 32) with 4294967296. repeat (refine (f_equal2 cons _ _); [lia|]). reflexivity.
  Qed.

  Lemma output_length be' v :
    output be' (if be' then [v / 2 ^ 32; v mod 2 ^ 32] else [v mod 2 ^ 32; v / 2 ^ 32]) = order_bytes be' 8 v.
  Proof.
    destruct be'; unfold output, order_bytes, be_bytes; cbn [map concat]; rewrite app_nil_r, le_bytes_app, ?rev_app_distr; reflexivity.
  Qed.

  (** What digest() appends, and the counter after it. *)
  Definition length_field (m : list N) (hi : N) : N := 8 * (hi * 2 ^ 32 + size m mod 2 ^ 32) mod 2 ^ 64.

  Lemma digest_spec host_be junk8 junk iv m hi st :
    size junk8 = 8 -> size junk < 2 ^ 64 -> (forall c, ok c -> size junk = 4 * size c) -> hi < 2 ^ 32 ->
    fed iv m hi st ->
    exists st' hi', md_digest process host_be be junk8 junk st =
      Ret (output be (absorb iv (pad_with be (length_field m hi) m)), st') /\
      fed iv (pad_with be (length_field m hi) m) hi' st' /\
      (hi = (size m / 2 ^ 32) mod 2 ^ 32 -> hi' = (size (pad_with be (length_field m hi) m) / 2 ^ 32) mod 2 ^ 32).
  Proof.
    intros J8 J1 J2 Hh F. pose proof F as (Lo & Hi & Ch & Ok & Bz & Bc & Bm).
    unfold md_digest.
    destruct (high_low st) as (E1 & E2); [rewrite Lo; lia | now rewrite Hi |].
    rewrite E1, E2, Hi, Lo. fold (length_field m hi). set (v := length_field m hi).
    rewrite emit_words_spec by (rewrite J8; destruct be; cbn; lia). cbn [bind].
    rewrite output_length.
    assert (N.land (size m mod 2 ^ 32) 0x3F = size m mod 64) as EL.
    { change 0x3F with (N.ones 6). rewrite N.land_ones. change (2 ^ 6) with 64. lia. }
    rewrite EL. set (padn := if size m mod 64 <? 56 then 56 - size m mod 64 else 120 - size m mod 64).
    set (k := ((119 - length m mod 64) mod 64)%nat).
    assert (padn = N.of_nat (S k)) as EP.
    { unfold padn, k, size. destruct (N.ltb_spec (N.of_nat (length m) mod 64) 56); lia. }
    assert (k < 64)%nat as K by (unfold k; lia).
    assert (ntake padn md_padding = [128] ++ repeat 0 k) as PAD.
    { rewrite EP, ntake_firstn, Nat2N.id. unfold md_padding. cbn [firstn app]. f_equal.
      replace 63%nat with (k + (63 - k))%nat by lia. rewrite repeat_app.
      rewrite firstn_app, repeat_length, Nat.sub_diag. cbn. rewrite app_nil_r.
      rewrite firstn_all2; [reflexivity | rewrite repeat_length; lia]. }
    destruct (N.ltb_spec 64 padn); [lia|]. rewrite PAD.
    assert (bytes_ok ([128] ++ repeat 0 k)) as BP.
    { apply bytes_ok_app. split; [constructor; [reflexivity | constructor]|]. apply Forall_forall. intros b I.
      apply repeat_spec in I as ->. reflexivity. }
    destruct (update_spec iv m hi st _ F BP) as (st1 & U1 & F1). rewrite U1. cbn [bind].
    destruct (update_spec iv _ _ st1 (order_bytes be 8 v) F1 (order_bytes_ok _ _ _)) as (st2 & U2 & F2). rewrite U2. cbn [bind].
    pose proof F2 as (_ & _ & C2 & O2 & _).
    rewrite emit_words_spec by auto. cbn [bind].
    assert (pad_with be v m = (m ++ [128] ++ repeat 0 k) ++ order_bytes be 8 v) as EQ.
    { unfold pad_with. fold k. now rewrite <- !app_assoc. }
    exists st2. eexists. rewrite C2, EQ. split; [reflexivity|]. split; [exact F2|]. intros ->.
    rewrite <- app_assoc. apply next_hi_two.
    - rewrite size_app. change (size [128]) with 1.
      assert (size (repeat 0 k) = N.of_nat k) as -> by (unfold size; now rewrite repeat_length).
      clear - K. clearbody k. lia.
    - unfold size. rewrite order_bytes_length. cbn. lia.
  Qed.

  (** ** A history of updates *)
  Fixpoint hi_after (n hi : N) (chunks : list (list N)) : N :=
    match chunks with [] => hi | c :: t => hi_after (n + size c) (next_hi n hi (size c)) t end.

  Lemma updates_spec iv chunks : forall m hi st, fed iv m hi st -> Forall bytes_ok chunks ->
    exists st', md_updates (md_update process) st chunks = Ret st' /\
      fed iv (m ++ concat chunks) (hi_after (size m) hi chunks) st'.
  Proof.
    induction chunks as [|c t IH]; intros m hi st F B.
    - exists st. cbn. rewrite app_nil_r. now split.
    - inversion B as [|? ? Bc Bt]; subst. cbn [md_updates concat hi_after].
      destruct (update_spec iv m hi st c F Bc) as (st1 & E & F1). rewrite E. cbn [bind].
      destruct (IH _ _ _ F1 Bt) as (st2 & E2 & F2). exists st2. rewrite <- size_app, app_assoc. now split.
  Qed.

  Lemma next_hi_word n hi len : hi < 2 ^ 32 -> next_hi n hi len < 2 ^ 32.
  Proof. intros H. unfold next_hi. destruct (_ <? _); [apply u32_word | assumption]. Qed.
  Lemma hi_after_word chunks : forall n hi, hi < 2 ^ 32 -> hi_after n hi chunks < 2 ^ 32.
  Proof. induction chunks; intros n hi H; cbn; auto using next_hi_word. Qed.

  Lemma hi_after_exact chunks : forall n, (forall a c b, chunks = a ++ c :: b -> (n + size (concat a)) mod 2 ^ 32 + size c < 2 ^ 33) ->
    hi_after n ((n / 2 ^ 32) mod 2 ^ 32) chunks = ((n + size (concat chunks)) / 2 ^ 32) mod 2 ^ 32.
  Proof.
    induction chunks as [|c t IH]; intros n H; cbn [hi_after concat].
    - rewrite (@size_nil N), N.add_0_r. reflexivity.
    - rewrite next_hi_exact. 
      + rewrite IH, size_app, N.add_assoc; [reflexivity|]. intros a c' b ->. specialize (H (c :: a) c' b eq_refl).
        cbn [concat] in H. rewrite size_app, N.add_assoc in H. exact H.
      + specialize (H [] c t eq_refl). cbn [concat] in H. rewrite (@size_nil N), N.add_0_r in H. exact H.
  Qed.
End Chaining.

Section Histories.
  Variables (be host_be : bool) (compress : list N -> list N -> list N) (process : list N -> list N -> outcome (list N)).
  Variables (len : N) (iv : list N).
  Notation ok := (fun c => Forall word c /\ size c = len).
  Hypothesis process_ok : forall c b, ok c -> size b = 64 -> bytes_ok b ->
    process c b = Ret (compress c (block_words be b)) /\ ok (compress c (block_words be b)).
  Hypothesis iv_ok : ok iv.
  Hypothesis len_ok : len <= 2 ^ 32.

  Lemma fed_new buffer : size buffer = 64 -> fed be compress ok iv [] 0 (mkMd 0 0 iv buffer).
  Proof.
    intros H. unfold fed. cbn [md_lo md_hi md_chain md_buffer]. rewrite (@size_nil N).
    refine (conj eq_refl (conj eq_refl (conj eq_refl (conj iv_ok (conj H (conj _ _)))))); [apply ntake_0 | constructor].
  Qed.

  Lemma length_field_exact m : length_field m ((size m / 2 ^ 32) mod 2 ^ 32) = 8 * size m mod 2 ^ 64.
  Proof.
    unfold length_field. generalize (size m). intros n.
    change (2 ^ 64) with 18446744073709551616. change (2 ^ 32) with 4294967296. lia.
  Qed.

  Definition call_ok (c : hash_call) : Prop :=
    match c with
    | Feed x => bytes_ok x /\ size x < 2 ^ 32
    | Ask junk8 junk => size junk8 = 8 /\ size junk = 4 * len
    end.

  Lemma run_spec calls : forall m st, Forall call_ok calls ->
    fed be compress ok iv m ((size m / 2 ^ 32) mod 2 ^ 32) st ->
    md_run (md_update process) (md_digest process host_be be) st calls = Ret (digests_of be (hash_of be compress iv) m calls).
  Proof.
    induction calls as [|[x|j8 j] t IH]; intros m st C F; cbn [md_run digests_of]; [reflexivity | |];
      inversion C as [|? ? C1 C2]; subst; destruct C1 as (B1 & B2).
    - destruct (update_spec be compress process ok process_ok iv m _ st x F B1) as (st' & -> & F'). cbn [bind].
      apply IH; [assumption|].
      assert (next_hi (size m) ((size m / 2 ^ 32) mod 2 ^ 32) (size x) = (size (m ++ x) / 2 ^ 32) mod 2 ^ 32) as E.
      { rewrite next_hi_exact, size_app; [reflexivity|]. clear - B2. generalize dependent (size m). generalize dependent (size x). intros.
        change (2 ^ 33) with (2 * 2 ^ 32). change (2 ^ 32) with 4294967296 in *. lia. }
      rewrite E in F'. exact F'.
    - destruct (digest_spec be compress process ok process_ok host_be j8 j iv m ((size m / 2 ^ 32) mod 2 ^ 32) st) as (st' & hi' & E & F' & H');
        [assumption | rewrite B2; clear - len_ok; change (2 ^ 32) with 4294967296 in len_ok; change (2 ^ 64) with 18446744073709551616; lia
        | intros c (_ & ->); assumption | apply N.mod_lt; discriminate | assumption |].
      rewrite E. cbn [bind fst snd]. rewrite length_field_exact in *. fold (pad be m) in *.
      rewrite (H' eq_refl) in F'. rewrite (IH _ _ C2 F'). cbn [bind]. reflexivity.
  Qed.

  Lemma updates_run chunks : forall st junk8 junk out,
    md_run (md_update process) (md_digest process host_be be) st (map Feed chunks ++ [Ask junk8 junk]) = Ret [out] ->
    exists st1 st2, md_updates (md_update process) st chunks = Ret st1 /\ md_digest process host_be be junk8 junk st1 = Ret (out, st2).
  Proof.
    induction chunks as [|c t IH]; intros st j8 j out; cbn [map app md_run md_updates].
    - intros E. exists st. destruct (md_digest process host_be be j8 j st) as [[o s]| | | |]; try discriminate E.
      cbn in E. exists s. split; [reflexivity|]. congruence.
    - intros E. destruct (md_update process st c) as [s| | | |]; try discriminate E. cbn [bind] in *. now apply IH.
  Qed.

  Lemma digests_feed chunks junk8 junk : forall m,
    digests_of be (hash_of be compress iv) m (map Feed chunks ++ [Ask junk8 junk]) = [hash_of be compress iv (m ++ concat chunks)].
  Proof.
    induction chunks as [|c t IH]; intros m; cbn [map app digests_of concat].
    - now rewrite app_nil_r.
    - now rewrite IH, app_assoc.
  Qed.

  Lemma hash_spec buffer junk8 junk chunks :
    size buffer = 64 -> size junk8 = 8 -> size junk = 4 * len -> Forall bytes_ok chunks -> Forall (fun c => size c < 2 ^ 32) chunks ->
    exists st st', md_updates (md_update process) (mkMd 0 0 iv buffer) chunks = Ret st /\
      md_digest process host_be be junk8 junk st = Ret (hash_of be compress iv (concat chunks), st').
  Proof.
    intros B J8 J Bs Ls. apply updates_run.
    rewrite (run_spec _ [] _); [now rewrite digests_feed | | exact (fed_new _ B)].
    apply Forall_app. split; [|now repeat constructor].
    apply Forall_map, Forall_forall. intros c I. rewrite Forall_forall in Bs, Ls. cbn. auto.
  Qed.

  (** One update of any length. *)
  Lemma long_spec buffer junk8 junk m : size buffer = 64 -> size junk8 = 8 -> size junk = 4 * len -> bytes_ok m ->
    exists st st', md_update process (mkMd 0 0 iv buffer) m = Ret st /\
      md_digest process host_be be junk8 junk st =
        Ret (output be (chain_over be compress iv (pad_with be (8 * ((if size m <? 2 ^ 32 then 0 else 2 ^ 32) + size m mod 2 ^ 32)) m)), st').
  Proof.
    intros B J8 J Bm.
    destruct (update_spec be compress process ok process_ok iv [] 0 _ m (fed_new _ B) Bm) as (st & E & F).
    exists st. cbn [app] in F.
    assert (next_hi (@size N []) 0 (size m) = if size m <? 2 ^ 32 then 0 else 1) as NH.
    { unfold next_hi. rewrite (@size_nil N), N.add_0_l. generalize (size m). intros n. change (2 ^ 32) with 4294967296.
      destruct (N.ltb_spec (n mod 4294967296) n), (N.ltb_spec n 4294967296); try reflexivity; exfalso; lia. }
    rewrite NH in F.
    destruct (digest_spec be compress process ok process_ok host_be junk8 junk iv m (if size m <? 2 ^ 32 then 0 else 1) st) as (st' & hi' & ED & _);
      [assumption | rewrite J; clear - len_ok; change (2 ^ 32) with 4294967296 in len_ok; change (2 ^ 64) with 18446744073709551616; lia
        | intros c (_ & ->); assumption | destruct (_ <? _); reflexivity | assumption |].
    exists st'. split; [exact E|]. rewrite ED. do 5 f_equal. unfold length_field. generalize (size m). intros n.
    change (2 ^ 64) with 18446744073709551616. change (2 ^ 32) with 4294967296.
    destruct (N.ltb_spec n 4294967296); lia.
  Qed.
End Histories.

Lemma pad_with_neq be a b m : a < 2 ^ 64 -> b < 2 ^ 64 -> a <> b -> pad_with be a m <> pad_with be b m.
Proof.
  intros A B D E. unfold pad_with in E. rewrite !app_assoc in E. apply app_inv_head in E. apply D.
  rewrite <- (order_value_bytes be 8 a), <- (order_value_bytes be 8 b) by assumption. now rewrite E.
Qed.
