From Verif Require Import Base BaseLemmas MemViewModel MemViewSpec MemViewProofs ByteIOModel ByteIOSpec ByteIOProofs.
From Verif Require Import Base16Proofs Base64Model Base64Spec.

Lemma sweep_n (k : nat) (f : N -> bool) :
  forallb (fun n => f (N.of_nat n)) (seq 0 k) = true -> forall b, b < N.of_nat k -> f b = true.
Proof.
  rewrite forallb_forall. intros H b Hb.
  specialize (H (N.to_nat b)). rewrite N2Nat.id in H. apply H. apply in_seq. lia.
Qed.

Lemma sweep_n2 (k m : nat) (f : N -> N -> bool) :
  forallb (fun i => forallb (fun j => f (N.of_nat i) (N.of_nat j)) (seq 0 m)) (seq 0 k) = true ->
  forall a b, a < N.of_nat k -> b < N.of_nat m -> f a b = true.
Proof.
  intros H a b Ha Hb. apply (sweep_n m (f a)); [|assumption].
  apply (sweep_n k (fun a => forallb (fun n => f a (N.of_nat n)) (seq 0 m))); assumption.
Qed.

Definition tb (v i : N) : bool := N.testbit v i.
Lemma bits8 a : bits 8 a = [tb a 7; tb a 6; tb a 5; tb a 4; tb a 3; tb a 2; tb a 1; tb a 0].
Proof. reflexivity. Qed.
Lemma bits6 a : bits 6 a = [tb a 5; tb a 4; tb a 3; tb a 2; tb a 1; tb a 0].
Proof. reflexivity. Qed.

(** ** Encoder arithmetic *)

Lemma enc0 a : a < 256 -> N.land (N.shiftr a 2) 0x3F = bits_value [tb a 7; tb a 6; tb a 5; tb a 4; tb a 3; tb a 2].
Proof.
  intros H. apply N.eqb_eq. revert a H.
  apply (sweep_n 256 (fun a => N.land (N.shiftr a 2) 0x3F =? bits_value [tb a 7; tb a 6; tb a 5; tb a 4; tb a 3; tb a 2])).
  vm_compute. reflexivity.
Qed.

Lemma enc1 a b : a < 256 -> b < 256 ->
  N.lor (N.shiftl (N.land a 0x3) 4) (N.shiftr (N.land b 0xF0) 4) = bits_value [tb a 1; tb a 0; tb b 7; tb b 6; tb b 5; tb b 4].
Proof.
  intros Ha Hb.
  assert (N.shiftl (N.land a 0x3) 4 = N.shiftl (bits_value [tb a 1; tb a 0]) 4) as ->.
  { apply N.eqb_eq. revert a Ha. apply (sweep_n 256 (fun a => N.shiftl (N.land a 0x3) 4 =? N.shiftl (bits_value [tb a 1; tb a 0]) 4)).
    vm_compute. reflexivity. }
  assert (N.shiftr (N.land b 0xF0) 4 = bits_value [tb b 7; tb b 6; tb b 5; tb b 4]) as ->.
  { apply N.eqb_eq. revert b Hb. apply (sweep_n 256 (fun b => N.shiftr (N.land b 0xF0) 4 =? bits_value [tb b 7; tb b 6; tb b 5; tb b 4])).
    vm_compute. reflexivity. }
  generalize (tb a 1), (tb a 0), (tb b 7), (tb b 6), (tb b 5), (tb b 4). intros. repeat match goal with x : bool |- _ => destruct x end; reflexivity.
Qed.

Lemma enc2 a b : a < 256 -> b < 256 ->
  N.lor (N.shiftl (N.land a 0xF) 2) (N.shiftr (N.land b 0xC0) 6) = bits_value [tb a 3; tb a 2; tb a 1; tb a 0; tb b 7; tb b 6].
Proof.
  intros Ha Hb.
  assert (N.shiftl (N.land a 0xF) 2 = N.shiftl (bits_value [tb a 3; tb a 2; tb a 1; tb a 0]) 2) as ->.
  { apply N.eqb_eq. revert a Ha. apply (sweep_n 256 (fun a => N.shiftl (N.land a 0xF) 2 =? N.shiftl (bits_value [tb a 3; tb a 2; tb a 1; tb a 0]) 2)).
    vm_compute. reflexivity. }
  assert (N.shiftr (N.land b 0xC0) 6 = bits_value [tb b 7; tb b 6]) as ->.
  { apply N.eqb_eq. revert b Hb. apply (sweep_n 256 (fun b => N.shiftr (N.land b 0xC0) 6 =? bits_value [tb b 7; tb b 6])).
    vm_compute. reflexivity. }
  generalize (tb a 3), (tb a 2), (tb a 1), (tb a 0), (tb b 7), (tb b 6). intros. repeat match goal with x : bool |- _ => destruct x end; reflexivity.
Qed.

Lemma enc3 a : a < 256 -> N.land a 0x3F = bits_value [tb a 5; tb a 4; tb a 3; tb a 2; tb a 1; tb a 0].
Proof.
  intros H. apply N.eqb_eq. revert a H.
  apply (sweep_n 256 (fun a => N.land a 0x3F =? bits_value [tb a 5; tb a 4; tb a 3; tb a 2; tb a 1; tb a 0])).
  vm_compute. reflexivity.
Qed.

Lemma bits_value_acc_lt l : forall acc n, acc < 2 ^ n -> bits_value_acc acc l < 2 ^ (n + size l).
Proof.
  induction l as [|b t IH]; intros acc n H; cbn [bits_value_acc].
  - rewrite (@size_nil bool), N.add_0_r. exact H.
  - rewrite size_cons. replace (n + (size t + 1)) with (N.succ n + size t) by lia. apply IH.
    rewrite N.pow_succ_r'. destruct b; lia.
Qed.

Lemma bits_value6_lt a b c d e f : bits_value [a; b; c; d; e; f] < 64.
Proof. apply (bits_value_acc_lt [a; b; c; d; e; f] 0 0). reflexivity. Qed.

Lemma at_alphabet url v : v < 64 -> at_ (alphabet_of url) v = Ret (b64_char url v).
Proof.
  intros H.
  set (f := fun v => match at_ (alphabet_of url) v with Ret x => x =? b64_char url v | _ => false end).
  assert (f v = true) as E by (revert v H; apply (sweep_n 64); destruct url; vm_compute; reflexivity).
  unfold f in E. destruct (at_ (alphabet_of url) v); try discriminate. apply N.eqb_eq in E. congruence.
Qed.

Lemma triple_ind {A} (P : list A -> Prop) :
  P [] -> (forall a, P [a]) -> (forall a b, P [a; b]) -> (forall a b c l, P l -> P (a :: b :: c :: l)) -> forall l, P l.
Proof.
  intros H0 H1 H2 H3. assert (forall l, P l /\ (forall a, P (a :: l)) /\ (forall a b, P (a :: b :: l))) as H.
  { induction l as [|x l (IH1 & IH2 & IH3)]; auto. }
  intros l. apply H.
Qed.

Definition sx (bs : list N) : list N := sextets (flat_map (bits 8) bs).

Lemma sx3 a b c l : sx (a :: b :: c :: l) =
  bits_value [tb a 7; tb a 6; tb a 5; tb a 4; tb a 3; tb a 2] ::
  bits_value [tb a 1; tb a 0; tb b 7; tb b 6; tb b 5; tb b 4] ::
  bits_value [tb b 3; tb b 2; tb b 1; tb b 0; tb c 7; tb c 6] ::
  bits_value [tb c 5; tb c 4; tb c 3; tb c 2; tb c 1; tb c 0] :: sx l.
Proof. unfold sx. cbn [flat_map]. rewrite !bits8. reflexivity. Qed.

Lemma sx1 a : sx [a] =
  [bits_value [tb a 7; tb a 6; tb a 5; tb a 4; tb a 3; tb a 2];
   bits_value [tb a 1; tb a 0; tb 0 7; tb 0 6; tb 0 5; tb 0 4]].
Proof. unfold sx. cbn [flat_map]. rewrite !bits8. reflexivity. Qed.

Lemma sx2 a b : sx [a; b] =
  [bits_value [tb a 7; tb a 6; tb a 5; tb a 4; tb a 3; tb a 2];
   bits_value [tb a 1; tb a 0; tb b 7; tb b 6; tb b 5; tb b 4];
   bits_value [tb b 3; tb b 2; tb b 1; tb b 0; tb 0 7; tb 0 6]].
Proof. unfold sx. cbn [flat_map]. rewrite !bits8. reflexivity. Qed.

Definition pad4 (chars : list N) : list N := repeat 61 (N.to_nat ((4 - N.of_nat (length chars) mod 4) mod 4)).

Lemma b64_text_eq url bs : b64_text url bs = map (b64_char url) (sx bs) ++ pad4 (map (b64_char url) (sx bs)).
Proof. reflexivity. Qed.

Lemma pad4_4 a b c d l : pad4 (a :: b :: c :: d :: l) = pad4 l.
Proof.
  unfold pad4. f_equal. f_equal. cbn [length]. f_equal. f_equal. lia.
Qed.

Lemma b64_text3 url a b c l : b64_text url (a :: b :: c :: l) =
  map (b64_char url) [bits_value [tb a 7; tb a 6; tb a 5; tb a 4; tb a 3; tb a 2];
  bits_value [tb a 1; tb a 0; tb b 7; tb b 6; tb b 5; tb b 4];
  bits_value [tb b 3; tb b 2; tb b 1; tb b 0; tb c 7; tb c 6];
  bits_value [tb c 5; tb c 4; tb c 3; tb c 2; tb c 1; tb c 0]] ++ b64_text url l.
Proof. rewrite !b64_text_eq, sx3. cbn [map]. rewrite pad4_4. reflexivity. Qed.

Lemma size_b64_text url bs : size (b64_text url bs) = 4 * ((size bs + 2) / 3).
Proof.
  induction bs as [|a|a b|a b c l IH] using triple_ind.
  - reflexivity.
  - rewrite b64_text_eq, sx1. reflexivity.
  - rewrite b64_text_eq, sx2. reflexivity.
  - rewrite b64_text3, size_app, IH, !size_cons. cbn [map].
    rewrite !size_cons, (@size_nil N). lia.
Qed.

Lemma b64_encode_ok url src : forall w, winv w -> bytes_ok src ->
  w_pos w + size (b64_text url src) <= w_lim w ->
  b64_encode url w src = Ret (Ok tt, append w (b64_text url src)).
Proof.
  unfold b64_encode.
  induction src as [|a|a b|a b c l IH] using triple_ind; intros w I F L; pose proof I as (H1 & H2 & H3).
  - cbn. rewrite append_nil by lia. reflexivity.
  - inversion F as [|? ? Fa _]; subst. unfold is_byte in Fa.
    assert (0 < 256) as F0 by lia. pose proof (enc1 a 0 Fa F0) as E1.
    change (N.shiftr (N.land 0 0xF0) 4) with 0 in E1. rewrite N.lor_0_r in E1.
    cbn [base64encode]. rewrite (enc0 a) by assumption. rewrite E1.
    rewrite !at_alphabet by apply bits_value6_lt. cbn [bind].
    rewrite b64_text_eq, sx1 in *. cbn [map] in *.
    rewrite w_write_append; [reflexivity|assumption|exact L].
  - inversion F as [|? ? Fa F']; subst. inversion F' as [|? ? Fb _]; subst. unfold is_byte in Fa, Fb.
    assert (0 < 256) as F0 by lia. pose proof (enc2 b 0 Fb F0) as E2.
    change (N.shiftr (N.land 0 0xC0) 6) with 0 in E2. rewrite N.lor_0_r in E2.
    cbn [base64encode]. rewrite (enc0 a), (enc1 a b) by assumption. rewrite E2.
    rewrite !at_alphabet by apply bits_value6_lt. cbn [bind].
    rewrite b64_text_eq, sx2 in *. cbn [map] in *.
    rewrite w_write_append; [reflexivity|assumption|exact L].
  - inversion F as [|? ? Fa F']; subst. inversion F' as [|? ? Fb F'']; subst.
    inversion F'' as [|? ? Fc Fl]; subst. unfold is_byte in Fa, Fb, Fc.
    cbn [base64encode]. rewrite (enc0 a), (enc1 a b), (enc2 b c), (enc3 c) by assumption.
    rewrite !at_alphabet by apply bits_value6_lt. cbn [bind].
    rewrite b64_text3 in *. cbn [map] in *.
    match goal with |- context [w_write w ?d] => set (q := d) in * end.
    assert (size q = 4) as Sq by reflexivity. rewrite size_app in L.
    rewrite w_write_append by (assumption || lia). cbn [bind].
    rewrite IH; [|apply append_inv; [assumption|lia]|assumption|cbn [append w_pos w_lim]; lia].
    rewrite append_app by lia. reflexivity.
Qed.

(** Not enough room: an error. *)
Lemma b64_encode_full url src : forall w, winv w -> bytes_ok src ->
  w_lim w < w_pos w + size (b64_text url src) ->
  exists w', b64_encode url w src = Ret (Err E_Overflow, w').
Proof.
  assert (forall w q, winv w -> size q < 2 ^ 64 -> w_lim w < w_pos w + size q -> exists w', w_write w q = Ret (Err E_Overflow, w')) as W.
  { intros w q I Hq L. rewrite w_write_spec by assumption. rcase; eexists; reflexivity. }
  unfold b64_encode.
  induction src as [|a|a b|a b c l IH] using triple_ind; intros w I F L; pose proof I as (H1 & H2 & H3).
  - rewrite size_b64_text in L. cbn in L. lia.
  - inversion F as [|? ? Fa _]; subst. unfold is_byte in Fa.
    assert (0 < 256) as F0 by lia. pose proof (enc1 a 0 Fa F0) as E1.
    change (N.shiftr (N.land 0 0xF0) 4) with 0 in E1. rewrite N.lor_0_r in E1.
    cbn [base64encode]. rewrite (enc0 a) by assumption. rewrite E1.
    rewrite !at_alphabet by apply bits_value6_lt. cbn [bind].
    rewrite b64_text_eq, sx1 in *. cbn [map] in *.
    match goal with |- context [w_write w ?d] => destruct (W w d I) as (w' & E) end; [reflexivity|exact L|].
    rewrite E. eexists; reflexivity.
  - inversion F as [|? ? Fa F']; subst. inversion F' as [|? ? Fb _]; subst. unfold is_byte in Fa, Fb.
    assert (0 < 256) as F0 by lia. pose proof (enc2 b 0 Fb F0) as E2.
    change (N.shiftr (N.land 0 0xC0) 6) with 0 in E2. rewrite N.lor_0_r in E2.
    cbn [base64encode]. rewrite (enc0 a), (enc1 a b) by assumption. rewrite E2.
    rewrite !at_alphabet by apply bits_value6_lt. cbn [bind].
    rewrite b64_text_eq, sx2 in *. cbn [map] in *.
    match goal with |- context [w_write w ?d] => destruct (W w d I) as (w' & E) end; [reflexivity|exact L|].
    rewrite E. eexists; reflexivity.
  - inversion F as [|? ? Fa F']; subst. inversion F' as [|? ? Fb F'']; subst.
    inversion F'' as [|? ? Fc Fl]; subst. unfold is_byte in Fa, Fb, Fc.
    cbn [base64encode]. rewrite (enc0 a), (enc1 a b), (enc2 b c), (enc3 c) by assumption.
    rewrite !at_alphabet by apply bits_value6_lt. cbn [bind].
    rewrite b64_text3 in *. cbn [map] in *.
    match goal with |- context [w_write w ?d] => set (q := d) in * end.
    assert (size q = 4) as Sq by reflexivity. rewrite size_app in L.
    destruct (N.le_gt_cases (w_pos w + 4) (w_lim w)) as [R|R].
    + rewrite w_write_append by (assumption || lia). cbn [bind].
      apply IH; [apply append_inv; [assumption|lia]|assumption|cbn [append w_pos w_lim]; lia].
    + destruct (W w q I) as (w' & E); [rewrite Sq; reflexivity|lia|]. rewrite E. eexists; reflexivity.
Qed.

Lemma b64_encodedSize_spec len : 4 * len + 12 < 2 ^ 64 -> b64_encodedSize len = 4 * ((len + 2) / 3).
Proof.
  intros H. unfold b64_encodedSize, u64. rewrite !(N.mod_small (4 * len)) by lia.
  rewrite N.mod_small by lia.
  assert (forall x, x < 2 ^ 64 -> N.land x (2 ^ 64 - 4) = 4 * (x / 4)) as M.
  { intros x Hx. replace (4 * (x / 4)) with (N.shiftl (N.shiftr x 2) 2).
    2:{ rewrite N.shiftl_mul_pow2, N.shiftr_div_pow2. change (2 ^ 2) with 4. lia. }
    apply N.bits_inj. intros i. rewrite N.land_spec.
    destruct (N.lt_ge_cases i 2) as [Hi|Hi].
    - rewrite N.shiftl_spec_low by assumption.
      assert (i = 0 \/ i = 1) as [-> | ->] by lia; cbn; apply andb_false_r.
    - rewrite N.shiftl_spec_high', N.shiftr_spec' by assumption. replace (i - 2 + 2) with i by lia.
      destruct (N.lt_ge_cases i 64) as [H6|H6].
      + assert (N.testbit (2 ^ 64 - 4) i = true) as ->; [|apply andb_true_r].
        change (2 ^ 64 - 4) with (N.shiftl (N.ones 62) 2). rewrite N.shiftl_spec_high' by assumption.
        apply N.ones_spec_low. lia.
      + assert (N.testbit x i = false) as ->; [|reflexivity].
        destruct (N.eq_dec x 0) as [->|Z]; [apply N.bits_0|].
        apply N.bits_above_log2. apply N.log2_lt_pow2; [lia|].
        eapply N.lt_le_trans; [exact Hx|]. apply N.pow_le_mono_r; lia. }
  rewrite M by lia. lia.
Qed.

(** ** Decoder *)

Lemma at_table url c : c < 256 ->
  at_ (table_of url) c = Ret (match b64_value url c with Some v => v | None => 64 end).
Proof.
  intros H.
  set (f := fun c => match at_ (table_of url) c with
                     | Ret x => x =? match b64_value url c with Some v => v | None => 64 end | _ => false end).
  assert (f c = true) as E by (revert c H; apply (sweep_n 256); destruct url; vm_compute; reflexivity).
  unfold f in E. destruct (at_ (table_of url) c); try discriminate. apply N.eqb_eq in E. congruence.
Qed.

Lemma b64_value_lt url c v : b64_value url c = Some v -> v < 64.
Proof.
  unfold b64_value.
  destruct ((65 <=? c) && (c <=? 90)) eqn:A; [intros E; injection E as <-; lia|].
  destruct ((97 <=? c) && (c <=? 122)) eqn:B; [intros E; injection E as <-; lia|].
  destruct ((48 <=? c) && (c <=? 57)) eqn:C; [intros E; injection E as <-; lia|].
  destruct (c =? _); [intros E; injection E as <-; lia|].
  destruct (c =? _); [intros E; injection E as <-; lia|discriminate].
Qed.

Lemma b64_scan_spec url mem : bytes_ok mem ->
  b64_scan mem (table_of url) =
  match b64_leading url mem with Some vs => Ret (size vs) | None => UB end.
Proof.
  induction 1 as [|c t Hc _ IH]; [reflexivity|].
  cbn [b64_scan b64_leading]. rewrite at_table by exact Hc. cbn [bind].
  destruct (b64_value url c) as [v|] eqn:E.
  - pose proof (b64_value_lt _ _ _ E). destruct (N.leb_spec v 63); [|lia].
    rewrite IH. destruct (b64_leading url t) as [vs|]; [|reflexivity].
    cbn [bind option_map]. f_equal. rewrite size_cons. lia.
  - reflexivity.
Qed.

Lemma dec0 a b : a < 64 -> b < 64 ->
  u8 (N.lor (N.shiftl a 2) (N.shiftr b 4)) = bits_value [tb a 5; tb a 4; tb a 3; tb a 2; tb a 1; tb a 0; tb b 5; tb b 4].
Proof.
  intros Ha Hb.
  assert (N.shiftl a 2 = N.shiftl (bits_value [tb a 5; tb a 4; tb a 3; tb a 2; tb a 1; tb a 0]) 2) as ->.
  { apply N.eqb_eq. revert a Ha. apply (sweep_n 64 (fun a => N.shiftl a 2 =? N.shiftl (bits_value [tb a 5; tb a 4; tb a 3; tb a 2; tb a 1; tb a 0]) 2)).
    vm_compute. reflexivity. }
  assert (N.shiftr b 4 = bits_value [tb b 5; tb b 4]) as ->.
  { apply N.eqb_eq. revert b Hb. apply (sweep_n 64 (fun b => N.shiftr b 4 =? bits_value [tb b 5; tb b 4])).
    vm_compute. reflexivity. }
  generalize (tb a 5), (tb a 4), (tb a 3), (tb a 2), (tb a 1), (tb a 0), (tb b 5), (tb b 4). intros. repeat match goal with x : bool |- _ => destruct x end; reflexivity.
Qed.
Lemma dec1 a b : a < 64 -> b < 64 ->
  u8 (N.lor (N.shiftl a 4) (N.shiftr b 2)) = bits_value [tb a 3; tb a 2; tb a 1; tb a 0; tb b 5; tb b 4; tb b 3; tb b 2].
Proof.
  intros Ha Hb.
  assert (N.shiftl a 4 = N.shiftl (bits_value [tb a 5; tb a 4; tb a 3; tb a 2; tb a 1; tb a 0]) 4) as ->.
  { apply N.eqb_eq. revert a Ha. apply (sweep_n 64 (fun a => N.shiftl a 4 =? N.shiftl (bits_value [tb a 5; tb a 4; tb a 3; tb a 2; tb a 1; tb a 0]) 4)).
    vm_compute. reflexivity. }
  assert (N.shiftr b 2 = bits_value [tb b 5; tb b 4; tb b 3; tb b 2]) as ->.
  { apply N.eqb_eq. revert b Hb. apply (sweep_n 64 (fun b => N.shiftr b 2 =? bits_value [tb b 5; tb b 4; tb b 3; tb b 2])).
    vm_compute. reflexivity. }
  generalize (tb a 5), (tb a 4), (tb a 3), (tb a 2), (tb a 1), (tb a 0), (tb b 5), (tb b 4), (tb b 3), (tb b 2). intros. repeat match goal with x : bool |- _ => destruct x end; reflexivity.
Qed.
Lemma dec2 a b : a < 64 -> b < 64 ->
  u8 (N.lor (N.shiftl a 6) b) = bits_value [tb a 1; tb a 0; tb b 5; tb b 4; tb b 3; tb b 2; tb b 1; tb b 0].
Proof.
  intros Ha Hb.
  assert (N.shiftl a 6 = N.shiftl (bits_value [tb a 5; tb a 4; tb a 3; tb a 2; tb a 1; tb a 0]) 6) as ->.
  { apply N.eqb_eq. revert a Ha. apply (sweep_n 64 (fun a => N.shiftl a 6 =? N.shiftl (bits_value [tb a 5; tb a 4; tb a 3; tb a 2; tb a 1; tb a 0]) 6)).
    vm_compute. reflexivity. }
  assert (b = bits_value [tb b 5; tb b 4; tb b 3; tb b 2; tb b 1; tb b 0]) as Eb.
  { apply N.eqb_eq. revert b Hb. apply (sweep_n 64 (fun b => b =? bits_value [tb b 5; tb b 4; tb b 3; tb b 2; tb b 1; tb b 0])).
    vm_compute. reflexivity. }
  rewrite Eb at 1. clear Eb. generalize (tb a 5), (tb a 4), (tb a 3), (tb a 2), (tb a 1), (tb a 0), (tb b 5), (tb b 4), (tb b 3), (tb b 2), (tb b 1), (tb b 0). intros. repeat match goal with x : bool |- _ => destruct x end; reflexivity.
Qed.

Lemma sextet_bytes4 a b c d l : sextet_bytes (a :: b :: c :: d :: l) =
  bits_value [tb a 5; tb a 4; tb a 3; tb a 2; tb a 1; tb a 0; tb b 5; tb b 4] ::
  bits_value [tb b 3; tb b 2; tb b 1; tb b 0; tb c 5; tb c 4; tb c 3; tb c 2] ::
  bits_value [tb c 1; tb c 0; tb d 5; tb d 4; tb d 3; tb d 2; tb d 1; tb d 0] :: sextet_bytes l.
Proof. unfold sextet_bytes. cbn [flat_map]. rewrite !bits6. reflexivity. Qed.

(** A list starting with alphabet characters of values [vs]. *)
Inductive starts (url : bool) : list N -> list N -> Prop :=
| starts_nil buf : starts url [] buf
| starts_cons v vs c buf : c < 256 -> b64_value url c = Some v -> starts url vs buf -> starts url (v :: vs) (c :: buf).

Lemma leading_starts url mem vs : bytes_ok mem -> b64_leading url mem = Some vs -> starts url vs mem.
Proof.
  intros F. revert vs. induction F as [|c t Hc _ IH]; intros vs E; cbn [b64_leading] in E; [discriminate|].
  destruct (b64_value url c) as [v|] eqn:V.
  - destruct (b64_leading url t) as [ws|]; [|discriminate]. cbn in E. injection E as <-.
    constructor; auto.
  - injection E as <-. constructor.
Qed.

Lemma starts_at url vs buf i v : starts url vs buf -> nnth vs i = Some v ->
  (let! c := at_ buf i in at_ (table_of url) c) = Ret v.
Proof.
  intros S. revert i v. induction S as [buf|v0 vs c buf Hc V S IH]; intros i v E; [discriminate|].
  cbn [nnth] in E. unfold at_ at 1. cbn [nnth].
  destruct (N.eqb_spec i 0).
  - injection E as <-. cbn [bind]. rewrite at_table, V by assumption. reflexivity.
  - apply IH in E. exact E.
Qed.

Lemma starts_lt url vs buf : starts url vs buf -> Forall (fun v => v < 64) vs.
Proof. induction 1; constructor; auto. eapply b64_value_lt; eassumption. Qed.

Lemma tail0 url w buf : b64_tail w buf 0 (table_of url) = Ret (Ok tt, w).
Proof. reflexivity. Qed.

Lemma b64_tail_ok url vs buf w : starts url vs buf -> size vs <= 4 -> winv w ->
  w_pos w + size (sextet_bytes vs) <= w_lim w ->
  b64_tail w buf (size vs) (table_of url) = Ret (Ok tt, append w (sextet_bytes vs)).
Proof.
  intros S L I R. pose proof I as (H1 & H2 & H3). pose proof (starts_lt _ _ _ S) as F.
  pose proof (fun v => starts_at url vs buf 0 v S) as A0.
  pose proof (fun v => starts_at url vs buf 1 v S) as A1.
  pose proof (fun v => starts_at url vs buf 2 v S) as A2.
  pose proof (fun v => starts_at url vs buf 3 v S) as A3.
  destruct vs as [|a [|b [|c [|d [|e vs]]]]].
  - cbn [sextet_bytes]. change (sextet_bytes []) with (@nil N). rewrite append_nil by lia. reflexivity.
  - change (sextet_bytes [a]) with (@nil N). rewrite append_nil by lia. reflexivity.
  - assert (sextet_bytes [a; b] = [bits_value [tb a 5; tb a 4; tb a 3; tb a 2; tb a 1; tb a 0; tb b 5; tb b 4]]) as E by reflexivity.
    rewrite E in *.
    inversion F as [|? ? Fa F1]; subst. inversion F1 as [|? ? Fb F2]; subst.
    unfold b64_tail. change (1 <? size [a; b]) with true. change (2 <? size [a; b]) with false.
    change (3 <? size [a; b]) with false. cbn iota.
    rewrite (A0 a), (A1 b) by reflexivity. cbn [bind]. rewrite dec0 by assumption.
    rewrite w_write_append by assumption. reflexivity.
  - assert (sextet_bytes [a; b; c] = [bits_value [tb a 5; tb a 4; tb a 3; tb a 2; tb a 1; tb a 0; tb b 5; tb b 4]]
        ++ [bits_value [tb b 3; tb b 2; tb b 1; tb b 0; tb c 5; tb c 4; tb c 3; tb c 2]]) as E by reflexivity.
    rewrite E in *. rewrite size_app in R.
    inversion F as [|? ? Fa F1]; subst. inversion F1 as [|? ? Fb F2]; subst. inversion F2 as [|? ? Fc F3]; subst.
    unfold b64_tail. change (1 <? size [a; b; c]) with true. change (2 <? size [a; b; c]) with true.
    change (3 <? size [a; b; c]) with false. cbn iota.
    rewrite (A0 a), (A1 b), (A2 c) by reflexivity. cbn [bind]. rewrite dec0, dec1 by assumption.
    match type of R with _ + (size ?x + size ?y) <= _ => set (p := x) in *; set (q := y) in * end.
    assert (size p = 1) as Sp by reflexivity. assert (size q = 1) as Sq by reflexivity.
    rewrite w_write_append by (assumption || lia). cbn [bind].
    rewrite w_write_append; [|apply append_inv; [assumption|lia]|cbn [append w_pos w_lim]; lia].
    cbn [bind]. rewrite append_app by lia. reflexivity.
  - assert (sextet_bytes [a; b; c; d] = ([bits_value [tb a 5; tb a 4; tb a 3; tb a 2; tb a 1; tb a 0; tb b 5; tb b 4]]
        ++ [bits_value [tb b 3; tb b 2; tb b 1; tb b 0; tb c 5; tb c 4; tb c 3; tb c 2]])
        ++ [bits_value [tb c 1; tb c 0; tb d 5; tb d 4; tb d 3; tb d 2; tb d 1; tb d 0]]) as E by reflexivity.
    rewrite E in *. rewrite !size_app in R.
    inversion F as [|? ? Fa F1]; subst. inversion F1 as [|? ? Fb F2]; subst. inversion F2 as [|? ? Fc F3]; subst.
    inversion F3 as [|? ? Fd F4]; subst.
    unfold b64_tail. change (1 <? size [a; b; c; d]) with true. change (2 <? size [a; b; c; d]) with true.
    change (3 <? size [a; b; c; d]) with true. cbn iota.
    rewrite (A0 a), (A1 b), (A2 c), (A3 d) by reflexivity. cbn [bind]. rewrite dec0, dec1, dec2 by assumption.
    match type of R with _ + (size ?x + size ?y + size ?z) <= _ => set (p := x) in *; set (q := y) in *; set (r := z) in * end.
    assert (size p = 1) as Sp by reflexivity. assert (size q = 1) as Sq by reflexivity. assert (size r = 1) as Sr by reflexivity.
    rewrite w_write_append by (assumption || lia). cbn [bind].
    assert (winv (append w p)) as I1 by (apply append_inv; [assumption|lia]).
    rewrite w_write_append; [|assumption|cbn [append w_pos w_lim]; lia].
    cbn [bind]. rewrite append_app by lia.
    rewrite w_write_append; [|apply append_inv; [assumption|rewrite size_app; lia]|cbn [append w_pos w_lim]; rewrite size_app; lia].
    cbn [bind]. rewrite append_app by (rewrite size_app; lia). reflexivity.
  - rewrite !size_cons in L. lia.
Qed.

Lemma b64_loop_ok url : forall (k : nat) vs buf w, (length vs <= k)%nat -> starts url vs buf -> winv w ->
  w_pos w + size (sextet_bytes vs) <= w_lim w ->
  b64_loop w buf (size vs) (table_of url) = Ret (Ok tt, append w (sextet_bytes vs)).
Proof.
  induction k as [|k IH]; intros vs buf w K S I R.
  - destruct vs; [|cbn in K; lia]. change (sextet_bytes []) with (@nil N).
    pose proof I as (H1 & H2 & H3). rewrite append_nil by lia. destruct buf as [|? [|? [|? [|? ?]]]]; reflexivity.
  - destruct (N.lt_ge_cases 4 (size vs)) as [G|G].
    2:{ assert (b64_loop w buf (size vs) (table_of url) = b64_tail w buf (size vs) (table_of url)) as ->.
        { destruct buf; cbn [b64_loop]; destruct (N.ltb_spec 4 (size vs)); try lia; reflexivity. }
        now apply b64_tail_ok. }
    pose proof I as (H1 & H2 & H3).
    destruct S as [|a vs c0 buf C0 V0 S]; [cbn in G; lia|].
    destruct S as [|b vs c1 buf C1 V1 S]; [cbn in G; lia|].
    destruct S as [|c vs c2 buf C2 V2 S]; [cbn in G; lia|].
    destruct S as [|d vs c3 buf C3 V3 S]; [cbn in G; lia|].
    rewrite sextet_bytes4 in *.
    pose proof (b64_value_lt _ _ _ V0). pose proof (b64_value_lt _ _ _ V1).
    pose proof (b64_value_lt _ _ _ V2). pose proof (b64_value_lt _ _ _ V3).
    cbn [b64_loop]. destruct (N.ltb_spec 4 (size (a :: b :: c :: d :: vs))); [|lia].
    rewrite !at_table, V0, V1, V2, V3 by assumption. cbn [bind].
    rewrite dec0, dec1, dec2 by assumption.
    match goal with |- context [w_write w ?x] => set (q := x) in * end.
    assert (size q = 3) as Sq by reflexivity.
    rewrite !size_cons in R.
    rewrite w_write_append by (assumption || lia). cbn [bind].
    replace (size (a :: b :: c :: d :: vs) - 4) with (size vs) by (rewrite !size_cons; lia).
    rewrite IH; [|cbn in K; lia|assumption|apply append_inv; [assumption|lia]|cbn [append w_pos w_lim]; lia].
    rewrite append_app by lia. reflexivity.
Qed.

Lemma b64_decode_ok url w mem a n vs : bytes_ok mem -> winv w -> n <> 0 ->
  b64_leading url (ndrop a mem) = Some vs -> w_pos w + size (sextet_bytes vs) <= w_lim w ->
  b64_decode url w mem (mkView (Some a) n) = Ret (Ok tt, append w (sextet_bytes vs)).
Proof.
  intros F I Hn E R. unfold b64_decode, base64decode; cbn [v_size v_addr].
  destruct (N.eqb_spec n 0); [contradiction|].
  rewrite b64_scan_spec, E by (apply bytes_ok_ndrop; assumption). cbn [bind].
  apply (b64_loop_ok url (length vs)); auto. apply leading_starts; [apply bytes_ok_ndrop; assumption|assumption].
Qed.

Lemma b64_decode_ub url w mem a n : bytes_ok mem -> n <> 0 ->
  b64_leading url (ndrop a mem) = None ->
  b64_decode url w mem (mkView (Some a) n) = UB.
Proof.
  intros F Hn E. unfold b64_decode, base64decode; cbn [v_size v_addr].
  destruct (N.eqb_spec n 0); [contradiction|].
  rewrite b64_scan_spec, E by (apply bytes_ok_ndrop; assumption). reflexivity.
Qed.

(** Leading characters of an encoded text. *)
Lemma b64_value_char url v : v < 64 -> b64_value url (b64_char url v) = Some v.
Proof.
  intros H.
  set (f := fun v => match b64_value url (b64_char url v) with Some x => x =? v | None => false end).
  assert (f v = true) as E by (revert v H; apply (sweep_n 64); destruct url; vm_compute; reflexivity).
  unfold f in E. destruct (b64_value url _); try discriminate. apply N.eqb_eq in E. congruence.
Qed.

Lemma b64_char_byte url v : v < 64 -> b64_char url v < 128.
Proof.
  intros H. apply N.ltb_lt. revert v H.
  apply (sweep_n 64 (fun v => b64_char url v <? 128)). destruct url; vm_compute; reflexivity.
Qed.

Lemma sx_lt bs : Forall (fun v => v < 64) (sx bs).
Proof.
  induction bs as [|a|a b|a b c l IH] using triple_ind.
  - constructor.
  - rewrite sx1. repeat constructor; apply bits_value6_lt.
  - rewrite sx2. repeat constructor; apply bits_value6_lt.
  - rewrite sx3. repeat constructor; try apply bits_value6_lt. exact IH.
Qed.

Lemma leading_chars url vs after : Forall (fun v => v < 64) vs ->
  b64_leading url (map (b64_char url) vs ++ after) = option_map (app vs) (b64_leading url after).
Proof.
  induction 1 as [|v vs Hv _ IH]; cbn [map app].
  - destruct (b64_leading url after); reflexivity.
  - cbn [b64_leading]. rewrite b64_value_char by assumption. rewrite IH.
    destruct (b64_leading url after); reflexivity.
Qed.

Lemma tb8 a : a < 256 -> bits_value [tb a 7; tb a 6; tb a 5; tb a 4; tb a 3; tb a 2; tb a 1; tb a 0] = a.
Proof.
  intros H. apply N.eqb_eq. revert a H.
  apply (sweep_n 256 (fun a => bits_value [tb a 7; tb a 6; tb a 5; tb a 4; tb a 3; tb a 2; tb a 1; tb a 0] =? a)).
  vm_compute. reflexivity.
Qed.

Lemma bits_of_value6 a b c d e f : let v := bits_value [a; b; c; d; e; f] in
  tb v 5 = a /\ tb v 4 = b /\ tb v 3 = c /\ tb v 2 = d /\ tb v 1 = e /\ tb v 0 = f.
Proof. destruct a, b, c, d, e, f; vm_compute; repeat split. Qed.

Lemma flat_bits_sx a b c d e f l : flat_map (bits 6) (bits_value [a; b; c; d; e; f] :: l) = [a; b; c; d; e; f] ++ flat_map (bits 6) l.
Proof.
  cbn [flat_map]. rewrite bits6. destruct (bits_of_value6 a b c d e f) as (-> & -> & -> & -> & -> & ->). reflexivity.
Qed.

Lemma sextet_bytes_sx bs : bytes_ok bs -> sextet_bytes (sx bs) = bs.
Proof.
  unfold sextet_bytes.
  induction bs as [|a|a b|a b c l IH] using triple_ind; intros F.
  - reflexivity.
  - inversion F as [|? ? Fa _]; subst. rewrite sx1. rewrite !flat_bits_sx. cbn [app flat_map octets].
    now rewrite tb8.
  - inversion F as [|? ? Fa F']; subst. inversion F' as [|? ? Fb _]; subst.
    rewrite sx2. rewrite !flat_bits_sx. cbn [app flat_map octets].
    now rewrite !tb8.
  - inversion F as [|? ? Fa F']; subst. inversion F' as [|? ? Fb F'']; subst.
    inversion F'' as [|? ? Fc Fl]; subst.
    rewrite sx3. rewrite !flat_bits_sx. cbn [app octets]. rewrite !tb8 by assumption. now rewrite IH.
Qed.

Lemma b64_text_ok url bs : bytes_ok (b64_text url bs).
Proof.
  rewrite b64_text_eq. apply Forall_app. split.
  - pose proof (sx_lt bs) as F. induction F as [|v vs Hv _ IH]; [constructor|].
    cbn [map]. constructor; [|assumption]. pose proof (b64_char_byte url v Hv). unfold is_byte. lia.
  - unfold pad4. apply Forall_forall. intros x Hx. apply repeat_spec in Hx as ->. reflexivity.
Qed.

(** The text followed by [after]: the decodable characters are those of the text
    when it is padded, or when [after] starts with another character. *)
Lemma leading_text url bs after :
  (size bs mod 3 <> 0 \/ exists c t, after = c :: t /\ b64_value url c = None) ->
  b64_leading url (b64_text url bs ++ after) = Some (sx bs).
Proof.
  intros H. rewrite b64_text_eq, <- app_assoc, leading_chars by apply sx_lt.
  assert (b64_leading url (pad4 (map (b64_char url) (sx bs)) ++ after) = Some []) as ->;
    [|cbn; now rewrite app_nil_r].
  assert (pad4 (map (b64_char url) (sx bs)) = [] \/ exists t, pad4 (map (b64_char url) (sx bs)) = 61 :: t) as [E|(t & E)].
  { destruct (pad4 (map (b64_char url) (sx bs))) as [|x t] eqn:P; [auto|right].
    assert (x = 61) as ->; [|eauto]. unfold pad4 in P. eapply repeat_spec. rewrite P. left; reflexivity. }
  - rewrite E. cbn [app]. destruct H as [H|(c & t & -> & V)]; [|cbn [b64_leading]; now rewrite V].
    exfalso. apply H. clear H after.
    induction bs as [|a|a b|a b c l IH] using triple_ind; [reflexivity|discriminate E|discriminate E|].
    rewrite sx3 in E. cbn [map] in E. rewrite pad4_4 in E. apply IH in E. rewrite !size_cons. lia.
  - rewrite E. cbn [app b64_leading]. destruct url; reflexivity.
Qed.

(** ** decodedSize *)

Lemma size_sx bs : size (sx bs) = (4 * size bs + 2) / 3.
Proof.
  induction bs as [|a|a b|a b c l IH] using triple_ind; [reflexivity|reflexivity|reflexivity|].
  rewrite sx3, !size_cons, IH. lia.
Qed.

Lemma b64_count_leading mem : bytes_ok mem ->
  b64_count mem = match b64_leading false mem with Some vs => Ret (size vs) | None => Ret (size mem) end.
Proof.
  induction 1 as [|c t Hc _ IH]; [reflexivity|].
  cbn [b64_count b64_leading]. change pr2six with (table_of false). rewrite at_table by exact Hc. cbn [bind].
  destruct (b64_value false c) as [v|] eqn:E; [|reflexivity].
  pose proof (b64_value_lt _ _ _ E). destruct (N.leb_spec v 63); [|lia].
  rewrite IH. destruct (b64_leading false t) as [vs|]; cbn [bind option_map]; f_equal; rewrite size_cons; lia.
Qed.

Lemma b64_count_chars vs after : Forall (fun v => v < 64) vs -> bytes_ok after ->
  b64_count (map (b64_char false) vs ++ after) = let! n := b64_count after in Ret (size vs + n).
Proof.
  induction 1 as [|v vs Hv _ IH]; intros Fa; cbn [map app].
  - destruct (b64_count after); reflexivity.
  - cbn [b64_count]. change pr2six with (table_of false).
    rewrite at_table by (pose proof (b64_char_byte false v Hv); lia).
    rewrite b64_value_char by assumption. cbn [bind]. destruct (N.leb_spec v 63); [|lia].
    rewrite IH by assumption. destruct (b64_count after); cbn [bind]; try reflexivity. f_equal. rewrite size_cons. lia.
Qed.

Lemma b64_decodedSize_text bs : 4 * size bs + 12 < 2 ^ 62 ->
  b64_decodedSize (b64_text false bs) = Ret (size bs).
Proof.
  intros H. unfold b64_decodedSize. rewrite size_b64_text.
  destruct (N.eqb_spec (4 * ((size bs + 2) / 3)) 0) as [Z|Z].
  - f_equal. lia.
  - replace ((4 * ((size bs + 2) / 3)) mod 4) with 0 by lia. cbn [N.eqb negb].
    assert (b64_count (b64_text false bs) = Ret (size (sx bs))) as ->.
    { rewrite b64_text_eq, b64_count_chars.
      - assert (b64_count (pad4 (map (b64_char false) (sx bs))) = Ret 0) as ->; [|cbn; f_equal; lia].
        unfold pad4. destruct (N.to_nat _); reflexivity.
      - apply sx_lt.
      - unfold pad4. apply Forall_forall. intros x Hx. apply repeat_spec in Hx as ->. reflexivity. }
    cbn [bind]. f_equal. rewrite size_sx. unfold u64. rewrite N.mod_small by lia. lia.
Qed.
