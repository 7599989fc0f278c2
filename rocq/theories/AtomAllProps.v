(** C136: atoms of texts of any bytes. *)
From Verif Require Import Base BaseLemmas MemViewModel ByteIOModel ByteIOSpec ByteIOProofs.
From Verif Require Import LexSpec LexProofs AtomModel AtomSpec AtomProofs.

(** What is left of a text in its atom: every character before the last one above 127 turns
    into 255. *)
Fixpoint masked (s : list N) : list N :=
  match s with
  | [] => []
  | c :: r => (if existsb (fun x => 128 <=? x) r then 255 else c) :: masked r
  end.

Definition high (p : list N) : bool := existsb (fun x => 128 <=? x) p.
Lemma masked_length s : length (masked s) = length s.
Proof. induction s as [|c s IH]; cbn; auto. Qed.
Lemma high_app p q : high (p ++ q) = (high p || high q)%bool.
Proof. apply existsb_app. Qed.
Lemma masked_snoc p c : masked (p ++ [c]) = (if 128 <=? c then repeat 255 (length p) else masked p) ++ [c].
Proof.
  induction p as [|x p IH]; cbn [masked app]; [destruct (128 <=? c); reflexivity|]. fold (high (p ++ [c])). rewrite IH, high_app. unfold high at 2. cbn [existsb].
  destruct (128 <=? c); cbn [orb]; rewrite ?orb_true_r, ?orb_false_r; reflexivity.
Qed.
Lemma masked_ok s : Forall (fun c => 0 < c < 256) s -> Forall (fun c => 0 < c < 256) (masked s).
Proof. induction s as [|c s IH]; intros F; cbn [masked]; [constructor|]. inversion F; subst. constructor; [|auto]. destruct existsb; [lia|assumption]. Qed.
Lemma be_acc l acc : be_value_acc acc l = acc * 256 ^ size l + be_value_acc 0 l.
Proof.
  revert acc. induction l as [|b l IH]; intros acc; cbn [be_value_acc]; [rewrite (@size_nil N); cbn; lia|].
  rewrite (IH (acc * 256 + b)), (IH (0 * 256 + b)). rewrite size_cons, N.add_1_r, N.pow_succ_r'. lia.
Qed.
Lemma be_snoc l c : be_value_acc 0 (l ++ [c]) = 256 * be_value_acc 0 l + c.
Proof. rewrite be_value_acc_app. cbn [be_value_acc]. lia. Qed.
(** The eight bytes held after the characters [p]. *)
Definition window (p : list N) : list N := repeat (if high p then 255 else 0) (8 - length p) ++ masked p.
Lemma bytes_repeat b k : b < 256 -> bytes_ok (repeat b k).
Proof. intros H. apply Forall_forall. intros x X. apply repeat_spec in X as ->. exact H. Qed.
Lemma nonzero_ok p : Forall (fun c => 0 < c < 256) p -> bytes_ok p.
Proof. apply Forall_impl. unfold is_byte. lia. Qed.
Lemma window_step p c : (length p < 8)%nat -> Forall (fun c => 0 < c < 256) p -> 0 < c < 256 ->
  N.lor (u64 (N.shiftl (be_value_acc 0 (window p)) 8)) (char_to_u64 c) = be_value_acc 0 (window (p ++ [c])).
Proof.
  intros L F C. unfold window at 2. rewrite app_length, masked_snoc, high_app. cbn [length high existsb]. unfold char_to_u64.
  destruct (N.ltb_spec c 128) as [Lc|Lc], (N.leb_spec 128 c); try lia.
  - cbn [orb]. rewrite orb_false_r. unfold window. set (f := if high p then 255 else 0). assert (f < 256) by (unfold f; destruct (high p); lia).
    replace (8 - length p)%nat with (S (8 - (length p + 1))) by lia. cbn [repeat app be_value_acc]. rewrite be_acc.
    set (l := repeat f (8 - (length p + 1)) ++ masked p). assert (bytes_ok l) as B by (apply Forall_app; split; [now apply bytes_repeat|apply nonzero_ok, masked_ok, F]).
    assert (size l = 7) as S7 by (unfold size, l; rewrite app_length, repeat_length, masked_length; lia). rewrite S7. pose proof (be_value_lt l B) as V. rewrite S7 in V.
    rewrite app_assoc. fold l. rewrite be_snoc. assert (u64 (N.shiftl ((0 * 256 + f) * 256 ^ 7 + be_value_acc 0 l) 8) = N.shiftl (be_value_acc 0 l) 8) as ->.
    { rewrite !N.shiftl_mul_pow2. unfold u64. symmetry. apply N.mod_unique with f; [change (256 ^ 7) with (2 ^ 56) in V; lia|]. change (256 ^ 7) with (2 ^ 56). lia. }
    apply lor_shift. lia.
  - rewrite lor_high by lia. cbn [orb]. rewrite orb_true_r, app_assoc, <- repeat_app. replace (8 - (length p + 1) + length p)%nat with 7%nat by lia. rewrite be_snoc.
    change (be_value_acc 0 (repeat 255 7)) with (2 ^ 56 - 1). lia.
Qed.
Lemma loop_all k : forall p mem i len, (length p + k = 8)%nat -> i = size p -> Forall (fun c => 0 < c < 256) p -> bytes_ok mem ->
  (len <= i + size mem \/ In 0 mem) ->
  let q := p ++ c_string (firstn (Nat.min k (N.to_nat (len - i))) mem) in
  wrap_loop k mem i len (be_value_acc 0 (window p)) = Ret (be_value_acc 0 (window q), size q).
Proof.
  induction k as [|k IH]; intros p mem i len L E F B H; cbv zeta.
  - rewrite Nat.min_0_l. cbn [firstn c_string wrap_loop]. rewrite app_nil_r. now rewrite E.
  - cbn [wrap_loop]. destruct (N.ltb_spec i len) as [Q|Q].
    + replace (N.to_nat (len - i)) with (S (N.to_nat (len - (i + 1)))) by lia. rewrite <- Nat.succ_min_distr. destruct mem as [|c mem].
      { destruct H as [H|[]]. rewrite (@size_nil N) in H. lia. }
      inversion B as [|? ? Bc Bm]; subst. unfold is_byte in Bc. cbn [firstn c_string]. destruct (N.eqb_spec c 0) as [->|Nz]; [now rewrite app_nil_r|].
      rewrite window_step by (try assumption; lia). rewrite IH.
      * rewrite <- app_assoc. reflexivity.
      * rewrite app_length. cbn. lia.
      * rewrite size_app. reflexivity.
      * apply Forall_app. split; [exact F|]. constructor; [lia|constructor].
      * exact Bm.
      * destruct H as [H|[H|H]]; [left; rewrite size_cons in H; lia|congruence|now right].
    + replace (N.to_nat (len - i)) with O by lia. rewrite Nat.min_0_r. cbn [firstn c_string]. rewrite app_nil_r. now rewrite E.
Qed.
Lemma c_string_nonzero s : bytes_ok s -> Forall (fun c => 0 < c < 256) (c_string s).
Proof. induction s as [|c s IH]; intros B; cbn [c_string]; [constructor|]. inversion B as [|? ? Bc Bs]; subst. unfold is_byte in Bc. destruct (N.eqb_spec c 0); constructor; [lia|auto]. Qed.
Lemma c_string_short s : (length (c_string s) <= length s)%nat.
Proof. induction s as [|c s IH]; cbn; [lia|]. destruct (c =? 0); cbn; lia. Qed.
Lemma wrap_all mem len : bytes_ok mem -> (len <= size mem \/ In 0 mem) ->
  atom_wrap mem len = Ret (be_value_acc 0 (pad8 (masked (c_string (firstn (Nat.min 8 (N.to_nat len)) mem))))).
Proof.
  intros B H. unfold atom_wrap. change 0 with (be_value_acc 0 (window [])) at 2. rewrite (loop_all 8 [] mem 0 len) by (auto; constructor). cbn [bind app]. rewrite N.sub_0_r.
  set (q := c_string (firstn (Nat.min 8 (N.to_nat len)) mem)). f_equal.
  assert (Lq : (length q <= 8)%nat) by (unfold q; etransitivity; [apply c_string_short|rewrite firstn_length; lia]).
  assert (Fq : Forall (fun c => 0 < c < 256) q) by (apply c_string_nonzero; unfold bytes_ok in *; rewrite Forall_forall in *; intros x X; apply B; rewrite <- (firstn_skipn (Nat.min 8 (N.to_nat len)) mem); apply in_or_app; now left).
  destruct (N.eqb_spec (size q) 0) as [Z|Z]; [apply size_0_nil in Z; rewrite Z; reflexivity|].
  unfold pad8, window. rewrite masked_length, !be_value_acc_app, (be_acc (masked q)), be_value_zeros.
  set (f := be_value_acc 0 (repeat _ _)). assert (size (masked q) = size q) as -> by (unfold size; now rewrite masked_length).
  pose proof (be_value_lt (masked q) (nonzero_ok _ (masked_ok _ Fq))) as V. assert (size (masked q) = size q) as S1 by (unfold size; now rewrite masked_length). rewrite S1 in V.
  rewrite N.shiftl_mul_pow2. unfold u64. replace (2 ^ ((8 - size q) * 8)) with (256 ^ N.of_nat (8 - length q)).
  2:{ replace (N.of_nat (8 - length q)) with (8 - size q) by (unfold size; lia). change 256 with (2 ^ 8). rewrite <- N.pow_mul_r. f_equal. lia. }
  assert (2 ^ 64 = 256 ^ size q * 256 ^ N.of_nat (8 - length q)) as P.
  { rewrite <- N.pow_add_r. replace (size q + N.of_nat (8 - length q)) with 8 by (unfold size; lia). reflexivity. }
  rewrite P. symmetry. apply N.mod_unique with f; [|lia]. apply N.mul_lt_mono_pos_r; [|exact V]. apply N.neq_0_lt_0, N.pow_nonzero. lia.
Qed.
(** C136: the atom of a text of at most eight bytes is the big-endian number of what is left
    of the text before its first NUL, padded with zeros; longer texts are refused. *)
Theorem C136_value : forall s, bytes_ok s ->
  tryParseAtom s = if (length s <=? 8)%nat then Ret (Ok (be_value_acc 0 (masked (c_string s) ++ repeat 0 (8 - length (c_string s))))) else Ret (Err 0).
Proof.
  intros s B. unfold tryParseAtom. destruct (Nat.leb_spec (length s) 8) as [L|L], (N.ltb_spec 8 (size s)) as [M|M]; try reflexivity; try (unfold size in M; lia).
  rewrite wrap_all by (auto; left; lia). cbn [bind]. replace (Nat.min 8 (N.to_nat (size s))) with (length s) by (unfold size; lia). rewrite firstn_all.
  unfold pad8. now rewrite masked_length.
Qed.
Print Assumptions C136_value.
(** The same for literals. *)
Theorem C136_literal : forall s, bytes_ok s -> (length s <= 7)%nat -> exists v, atom_literal s = Ret v /\ tryParseAtom s = Ret (Ok v).
Proof.
  intros s B L. eexists. split.
  - unfold atom_literal. apply wrap_all; [apply Forall_app; split; [exact B|repeat constructor]|]. right. apply in_or_app. right. now left.
  - rewrite C136_value by exact B. destruct (Nat.leb_spec (length s) 8); [|lia]. do 3 f_equal. unfold pad8. rewrite masked_length.
    replace (c_string (firstn (Nat.min 8 (N.to_nat 8)) (s ++ [0]))) with (c_string s); [reflexivity|].
    change (Nat.min 8 (N.to_nat 8)) with 8%nat. rewrite firstn_all2 by (rewrite app_length; cbn [length]; lia). clear. induction s as [|c s IH]; cbn; [reflexivity|]. destruct (c =? 0); [reflexivity|now f_equal].
Qed.
Print Assumptions C136_literal.
(** The text of the atom is what is left of the text; and two texts have the same atom
    exactly if the same is left of them. *)
Lemma padded s : Forall (fun c => 0 < c < 256) s -> (length s <= 8)%nat -> bytes_ok (pad8 s) /\ length (pad8 s) = 8%nat.
Proof.
  intros F L. unfold pad8. split; [|rewrite app_length, repeat_length; lia]. apply Forall_app. split; [now apply nonzero_ok|now apply bytes_repeat].
Qed.
Lemma c_string_pad s k : Forall (fun c => 0 < c < 256) s -> (0 < k)%nat -> c_string (s ++ repeat 0 k) = s.
Proof.
  intros F K. induction F as [|c s Hc _ IH]; [destruct k; [lia|reflexivity]|]. cbn [app c_string]. destruct (N.eqb_spec c 0); [lia|]. now f_equal.
Qed.
Theorem C136_text : forall s v, bytes_ok s -> tryParseAtom s = Ret (Ok v) -> c_string (atomToString v) = masked (c_string s).
Proof.
  intros s v B E. rewrite C136_value in E by exact B. destruct (Nat.leb_spec (length s) 8) as [L|L]; [|discriminate].
  assert (v = be_value_acc 0 (pad8 (masked (c_string s)))) as -> by (unfold pad8; rewrite masked_length; congruence).
  pose proof (c_string_short s) as L2. pose proof (masked_ok _ (c_string_nonzero s B)) as F.
  unfold atomToString. rewrite atom_unwrap_be.
  destruct (padded (masked (c_string s)) F ltac:(rewrite masked_length; lia)) as (P1 & P2). pose proof (be_bytes_value _ P1) as V. rewrite P2 in V. rewrite V. unfold pad8.
  rewrite <- app_assoc. change [0] with (repeat 0 1). rewrite <- repeat_app. apply c_string_pad; [exact F|lia].
Qed.
Print Assumptions C136_text.
Theorem C136_same : forall s t, bytes_ok s -> bytes_ok t -> (length s <= 8)%nat -> (length t <= 8)%nat ->
  (tryParseAtom s = tryParseAtom t <-> masked (c_string s) = masked (c_string t)).
Proof.
  intros s t Bs Bt Ls Lt. assert (forall s, bytes_ok s -> (length s <= 8)%nat -> exists v, tryParseAtom s = Ret (Ok v)) as G.
  { intros x Bx Lx. rewrite C136_value by exact Bx. destruct (Nat.leb_spec (length x) 8); [eauto|lia]. }
  split; intros H.
  - destruct (G s Bs Ls) as (v & E). pose proof E as E2. rewrite H in E2. now rewrite <- (C136_text s v Bs E), <- (C136_text t v Bt E2).
  - rewrite !C136_value by assumption. destruct (Nat.leb_spec (length s) 8); [|lia]. destruct (Nat.leb_spec (length t) 8); [|lia].
    rewrite <- (masked_length (c_string s)), <- (masked_length (c_string t)), H. reflexivity.
Qed.
Print Assumptions C136_same.
Example C136_ok : tryParseAtom [97; 195; 164; 98] = Ret (Ok 0xffffa46200000000) /\ masked [97; 195; 164; 98] = [255; 255; 164; 98] /\
  tryParseAtom [97; 0; 98] = tryParseAtom [97] /\ tryParseAtom [97; 195; 164] = tryParseAtom [122; 33; 164].
Proof. repeat split; vm_compute; reflexivity. Qed.
