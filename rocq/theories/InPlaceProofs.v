From Verif Require Import Base BaseLemmas MemViewModel MemViewSpec MemViewProofs ByteIOModel ByteIOSpec ByteIOProofs.
From Verif Require Import Base16Model Base16Spec Base16Proofs Base64Model Base64Spec Base64Proofs InPlaceModel.

(** A write that succeeds changes only the bytes it is given room for. *)
Lemma write_keeps w bs w' : winv w -> w_write w bs = Ret (Ok tt, w') -> size bs < 2 ^ 64 ->
  winv w' /\ w_pos w' = w_pos w + size bs /\
  forall j, j < w_pos w \/ w_pos w + size bs <= j -> nnth (w_buf w') j = nnth (w_buf w) j.
Proof.
  intros I E B. pose proof I as (H1 & H2 & H3). rewrite w_write_spec in E by assumption.
  destruct (N.leb_spec (w_pos w + size bs) (w_lim w)) as [L|L].
  2:{ destruct (size (w_buf w) <? w_pos w + size bs); discriminate. }
  injection E as <-. cbn. split; [|split; [reflexivity|]].
  - unfold winv; cbn. rewrite size_spliced by lia. lia.
  - intros j Hj. rewrite <- overwrite_spliced, nnth_overwrite by lia.
    destruct (N.leb_spec (w_pos w) j); destruct (N.ltb_spec j (w_pos w + size bs)); cbn; auto; lia.
Qed.

(** The address the writer writes to next. *)
Definition at_pos (m : around) (w : writer) : N := size (before m) + w_pos w.

(** The same for the block around the storage. *)
Lemma block_keeps m w bs w' : winv w -> w_write w bs = Ret (Ok tt, w') -> size bs < 2 ^ 64 ->
  winv w' /\ at_pos m w' = at_pos m w + size bs /\
  forall j, j < at_pos m w \/ at_pos m w + size bs <= j -> nnth (block m w') j = nnth (block m w) j.
Proof.
  intros I E B. destruct (write_keeps _ _ _ I E B) as (I' & P & K). unfold at_pos. split; [assumption|]. split; [lia|].
  assert (size (w_buf w') = size (w_buf w)) as SZ.
  { destruct (w_write_safe w bs) as (o & w2 & E2 & SZ). rewrite E in E2. injection E2 as _ <-. exact SZ. }
  intros j Hj. unfold block. rewrite !nnth_app, SZ. destruct (j <? size (before m)) eqn:C; [reflexivity|].
  apply N.ltb_ge in C. destruct (j - size (before m) <? size (w_buf w)); [|reflexivity]. apply K. lia.
Qed.

(** [src] is what the block holds from [s] on. *)
Definition holds (m : around) (w : writer) (s : N) (src : list N) : Prop :=
  forall i, i < size src -> nnth (block m w) (s + i) = nnth src i.

Lemma holds_at m w s src i x : holds m w s src -> nnth src i = Some x -> byte_in m w (s + i) = Ret x.
Proof.
  intros H E. unfold byte_in, at_. rewrite H, E; [reflexivity|]. now apply nnth_Some_lt in E.
Qed.

Lemma holds_0 m w s src x : holds m w s (x :: src) -> byte_in m w s = Ret x.
Proof. intros H. pose proof (holds_at m w s _ 0 x H eq_refl) as E. now rewrite N.add_0_r in E. Qed.

Lemma holds_tl m w s x src : holds m w s (x :: src) -> holds m w (s + 1) src.
Proof.
  intros H i Hi. rewrite <- N.add_assoc, H by (rewrite size_cons; lia).
  rewrite !nnth_nth_error. replace (N.to_nat (1 + i)) with (Datatypes.S (N.to_nat i)) by lia. reflexivity.
Qed.

Lemma holds_keep m w w' s src : (forall j, s <= j < s + size src -> nnth (block m w') j = nnth (block m w) j) ->
  holds m w s src -> holds m w' s src.
Proof. intros K H i Hi. rewrite K by lia. now apply H. Qed.

(** ** Base16 *)

Lemma b16_encode_in_eq m src : forall w s, winv w -> holds m w s src ->
  (at_pos m w + size src <= s + 1 \/ s + size src <= at_pos m w) ->
  b16_encode_in m w s (length src) = b16_encode w src.
Proof.
  induction src as [|x src IH]; intros w s I H D; cbn [b16_encode_in b16_encode length]; [reflexivity|].
  rewrite (holds_0 m _ _ _ _ H). cbn [bind]. destruct (b16_pair x) as [two| | | |] eqn:P; cbn [bind]; try reflexivity.
  assert (size two = 2) as T.
  { unfold b16_pair in P. destruct (nnth kBase16Alphabet_l x) as [[a b]|]; [|discriminate]. now injection P as <-. }
  destruct (w_write w two) as [[[[]|e] w']| | | |] eqn:W; cbn [bind]; try reflexivity.
  destruct (block_keeps m _ _ _ I W ltac:(rewrite T; reflexivity)) as (I' & P' & K).
  rewrite size_cons in D. apply IH; [assumption| |lia].
  apply (holds_keep m w); [intros j Hj; apply K; lia|]. now apply holds_tl in H.
Qed.

Lemma b16_decode_loop_in_eq m src : forall w s, winv w -> holds m w s src ->
  (at_pos m w <= s + 1 \/ s + size src <= at_pos m w) ->
  b16_decode_loop_in m w s (length src) = b16_decode_loop w src.
Proof.
  induction src as [|x|x y src IH] using pair_ind; intros w s I H D; cbn [b16_decode_loop_in b16_decode_loop length]; try reflexivity.
  rewrite (holds_0 m _ _ _ _ H). cbn [bind]. pose proof (holds_tl m _ _ _ _ H) as H1. rewrite (holds_0 m _ _ _ _ H1).
  cbn [bind].
  destruct (charToBin x) as [h| | | |]; cbn [bind]; try reflexivity.
  destruct (charToBin y) as [l| | | |]; cbn [bind]; try reflexivity.
  destruct h as [h|e]; [|reflexivity]. destruct l as [l|e]; [|reflexivity].
  destruct (w_write w _) as [[[[]|e] w']| | | |] eqn:W; cbn [bind]; try reflexivity.
  destruct (block_keeps m _ _ _ I W ltac:(reflexivity)) as (I' & P' & K).
  rewrite !size_cons in D. rewrite (size_cons _ []), size_nil in P', K.
  apply IH; [assumption| |lia]. apply holds_tl in H1. replace (s + 1 + 1) with (s + 2) in H1 by lia.
  apply (holds_keep m w); [intros j Hj; apply K; lia|assumption].
Qed.

Lemma b16_decode_in_eq m src w s : winv w -> holds m w s src ->
  (at_pos m w <= s + 1 \/ s + size src <= at_pos m w) ->
  b16_decode_in m w s (length src) = b16_decode w src.
Proof.
  intros. unfold b16_decode_in, b16_decode. change (N.of_nat (length src)) with (size src).
  destruct (negb (size src mod 2 =? 0)); [reflexivity|]. now apply b16_decode_loop_in_eq.
Qed.

(** ** Base64 *)

Lemma base64encode_in_eq m alphabet src : forall w s, winv w -> holds m w s src ->
  (3 * at_pos m w + size src <= 3 * s + 3 \/ s + size src <= at_pos m w \/ size src <= 3) ->
  base64encode_in m w s (length src) alphabet = base64encode w src alphabet.
Proof.
  induction src as [|a|a b|a b c src IH] using triple_ind; intros w s I H D; cbn [base64encode_in base64encode length].
  - reflexivity.
  - rewrite (holds_0 m _ _ _ _ H). reflexivity.
  - rewrite (holds_0 m _ _ _ _ H). apply holds_tl in H. cbn [bind]. rewrite (holds_0 m _ _ _ _ H). reflexivity.
  - rewrite (holds_0 m _ _ _ _ H). apply holds_tl in H. cbn [bind]. rewrite (holds_0 m _ _ _ _ H). apply holds_tl in H. cbn [bind].
    replace (s + 1 + 1) with (s + 2) in H by lia. rewrite (holds_0 m _ _ _ _ H). apply holds_tl in H. cbn [bind].
    destruct (at_ alphabet _) as [e0| | | |]; cbn [bind]; try reflexivity.
    destruct (at_ alphabet _) as [e1| | | |]; cbn [bind]; try reflexivity.
    destruct (at_ alphabet _) as [e2| | | |]; cbn [bind]; try reflexivity.
    destruct (at_ alphabet _) as [e3| | | |]; cbn [bind]; try reflexivity.
    destruct (w_write w _) as [[[[]|e] w']| | | |] eqn:W; cbn [bind]; try reflexivity.
    destruct (block_keeps m _ _ _ I W ltac:(reflexivity)) as (I' & P' & K).
    change (size [e0; e1; e2; e3]) with 4 in *. rewrite !size_cons in D.
    replace (s + 2 + 1) with (s + 3) in H by lia.
    apply IH; [assumption| |lia].
    apply (holds_keep m w); [intros j Hj; apply K; lia|assumption].
Qed.

Lemma dec_in_eq m table w s src i : holds m w s src -> i < size src ->
  dec_in m table w (s + i) = (let! c := at_ src i in at_ table c).
Proof.
  intros H Hi. unfold dec_in, byte_in, at_ at 1 3. now rewrite H.
Qed.

Lemma holds_short m w s src n : holds m w s src -> holds m w s (ntake n src).
Proof.
  intros H i Hi. rewrite size_ntake in Hi. rewrite nnth_ntake by lia. apply H. lia.
Qed.

Ltac keeps m W := let I' := fresh "I" in let P' := fresh "P" in let K := fresh "K" in
  destruct (block_keeps m _ _ _ ltac:(eassumption) W ltac:(reflexivity)) as (I' & P' & K);
  rewrite ?(size_cons _ []), ?size_nil in P', K.

(** The characters that matter: a single one after the last group of four is not looked at. *)
Definition used (n : N) : N := if n mod 4 =? 1 then n - 1 else n.
Lemma used_4 n : 4 <= n -> used n = 4 + used (n - 4).
Proof.
  intros H. unfold used. replace (n mod 4) with ((n - 4) mod 4) by (replace n with (n - 4 + 1 * 4) at 2 by lia; now rewrite N.mod_add by lia).
  destruct (N.eqb_spec ((n - 4) mod 4) 1) as [E|E]; [|lia]. destruct (N.eq_dec n 4) as [-> |]; [discriminate|lia].
Qed.
Lemma used_le n : used n <= n.
Proof. unfold used. destruct (_ =? _); lia. Qed.
Lemma used_all n : 1 < n <= 4 -> used n = n.
Proof. intros H. assert (n = 2 \/ n = 3 \/ n = 4) as [-> |[-> | ->]] by lia; reflexivity. Qed.

Lemma b64_tail_in_eq m table src w s n : winv w -> (n <= 4)%nat -> holds m w s (ntake (used (N.of_nat n)) src) -> N.of_nat n <= size src ->
  (at_pos m w <= s \/ s + used (N.of_nat n) <= at_pos m w \/ N.of_nat n <= 2) ->
  b64_tail_in m w s n table = b64_tail w src (N.of_nat n) table.
Proof.
  intros I L H Hn D. unfold b64_tail_in, b64_tail.
  assert (U : 1 < N.of_nat n -> used (N.of_nat n) = N.of_nat n) by (intros; apply used_all; lia).
  assert (forall w i, 1 < N.of_nat n -> holds m w s (ntake (used (N.of_nat n)) src) -> i < N.of_nat n ->
    dec_in m table w (s + i) = (let! c := at_ src i in at_ table c)) as DE.
  { intros w0 i H1 H0 Hi. rewrite U in H0 by assumption. rewrite (dec_in_eq m _ _ _ _ _ H0) by (rewrite size_ntake; lia).
    unfold at_ at 1 3. now rewrite nnth_ntake. }
  assert (forall k, (k <? n)%nat = (N.of_nat k <? N.of_nat n)) as CMP.
  { intros k. destruct (Nat.ltb_spec k n); destruct (N.ltb_spec (N.of_nat k) (N.of_nat n)); lia. }
  rewrite !CMP. change (N.of_nat 1) with 1. change (N.of_nat 2) with 2. change (N.of_nat 3) with 3.
  destruct (N.ltb_spec 1 (N.of_nat n)) as [L1|L1].
  2:{ destruct (N.ltb_spec 2 (N.of_nat n)); [lia|]. destruct (N.ltb_spec 3 (N.of_nat n)); [lia|]. reflexivity. }
  rewrite U in D by assumption. rewrite <- (N.add_0_r s) at 1. rewrite !DE by (assumption || lia).
  destruct (let! c := at_ src 0 in at_ table c) as [d0| | | |]; cbn [bind]; try reflexivity.
  destruct (let! c := at_ src 1 in at_ table c) as [d1| | | |] eqn:D1; cbn [bind]; try reflexivity.
  destruct (w_write w _) as [[[[]|e] w1]| | | |] eqn:W1; cbn [bind]; try reflexivity. keeps m W1.
  destruct (N.ltb_spec 2 (N.of_nat n)) as [L2|L2].
  2:{ destruct (N.ltb_spec 3 (N.of_nat n)); [lia|]. reflexivity. }
  assert (forall i, 1 <= i < N.of_nat n -> dec_in m table w1 (s + i) = (let! c := at_ src i in at_ table c)) as DE1.
  { intros i Hi. rewrite <- (DE w) by (assumption || lia). unfold dec_in, byte_in, at_ at 1 3. rewrite K by lia. reflexivity. }
  rewrite !DE1 by lia. rewrite D1. cbn [bind].
  destruct (let! c := at_ src 2 in at_ table c) as [d2| | | |] eqn:D2; cbn [bind]; try reflexivity.
  destruct (w_write w1 _) as [[[[]|e] w2]| | | |] eqn:W2; cbn [bind]; try reflexivity. keeps m W2.
  destruct (N.ltb_spec 3 (N.of_nat n)) as [L3|L3]; [|reflexivity].
  assert (forall i, 2 <= i < N.of_nat n -> dec_in m table w2 (s + i) = (let! c := at_ src i in at_ table c)) as DE2.
  { intros i Hi. rewrite <- DE1 by lia. unfold dec_in, byte_in, at_ at 1 3. rewrite K0 by lia. reflexivity. }
  rewrite !DE2 by lia. rewrite D2. cbn [bind]. reflexivity.
Qed.

Lemma b64_loop_in_5 m w s n table : b64_loop_in m w s (5 + n) table =
  let! d0 := dec_in m table w s in
  let! d1 := dec_in m table w (s + 1) in
  let! d2 := dec_in m table w (s + 2) in
  let! d3 := dec_in m table w (s + 3) in
  let! res := w_write w [u8 (N.lor (N.shiftl d0 2) (N.shiftr d1 4));
                         u8 (N.lor (N.shiftl d1 4) (N.shiftr d2 2));
                         u8 (N.lor (N.shiftl d2 6) d3)] in
  match res with
  | (Ok _, w') => b64_loop_in m w' (s + 4) (1 + n) table
  | (Err e, w') => Ret (Err e, w')
  end.
Proof. reflexivity. Qed.

Lemma b64_loop_in_eq m table : forall k n src w s, (n <= k)%nat -> winv w -> holds m w s (ntake (used (N.of_nat n)) src) -> N.of_nat n <= size src ->
  (at_pos m w <= s \/ s + used (N.of_nat n) <= at_pos m w \/ N.of_nat n <= 2 \/ N.of_nat n = 5 \/ (at_pos m w = s + 1 /\ 5 <= N.of_nat n)) ->
  b64_loop_in m w s n table = b64_loop w src (N.of_nat n) table.
Proof.
  induction k as [|k IH]; intros n src w s Hk I H Hn D.
  { assert (n = 0%nat) as -> by lia. assert (D' : at_pos m w <= s \/ s + used (N.of_nat 0) <= at_pos m w \/ N.of_nat 0 <= 2) by lia.
    destruct src; exact (b64_tail_in_eq m table _ w s 0 I ltac:(lia) H Hn D'). }
  destruct (Nat.le_gt_cases n 4) as [L|L].
  { transitivity (b64_tail_in m w s n table).
    { do 5 (destruct n as [|n]; [reflexivity|]). lia. }
    transitivity (b64_tail w src (N.of_nat n) table); [apply b64_tail_in_eq; try assumption; lia|].
    destruct src; cbn [b64_loop]; destruct (N.ltb_spec 4 (N.of_nat n)); try lia; reflexivity. }
  replace n with (5 + (n - 5))%nat by lia. set (l := (n - 5)%nat). assert (n = 5 + l)%nat as N5 by lia. clearbody l. subst n.
  destruct src as [|b0 [|b1 [|b2 [|b3 src]]]]; try (rewrite ?size_cons, ?size_nil in Hn; lia).
  rewrite b64_loop_in_5. cbn [b64_loop]. destruct (N.ltb_spec 4 (N.of_nat (5 + l))); [|lia].
  rewrite !size_cons in Hn. set (q := N.of_nat (5 + l)) in *. pose proof (used_4 q ltac:(lia)) as U. pose proof (used_le (q - 4)) as UL.
  assert (U5 : q = 5 -> used (q - 4) = 0) by (intros ->; reflexivity).
  assert (forall i c, i < 4 -> nnth (b0 :: b1 :: b2 :: b3 :: src) i = Some c -> dec_in m table w (s + i) = at_ table c) as DE.
  { intros i c Hi E. rewrite (dec_in_eq m _ _ _ _ _ H) by (rewrite size_ntake, !size_cons; lia).
    unfold at_ at 1. rewrite nnth_ntake by lia. now rewrite E. }
  rewrite <- (N.add_0_r s) at 1.
  rewrite (DE 0 b0), (DE 1 b1), (DE 2 b2), (DE 3 b3) by (lia || reflexivity).
  destruct (at_ table b0) as [d0| | | |]; cbn [bind]; try reflexivity.
  destruct (at_ table b1) as [d1| | | |]; cbn [bind]; try reflexivity.
  destruct (at_ table b2) as [d2| | | |]; cbn [bind]; try reflexivity.
  destruct (at_ table b3) as [d3| | | |]; cbn [bind]; try reflexivity.
  destruct (w_write w _) as [[[[]|e] w']| | | |] eqn:W; cbn [bind]; try reflexivity.
  destruct (block_keeps m _ _ _ I W ltac:(reflexivity)) as (I' & P' & K).
  match type of P' with context [size ?l] => change (size l) with 3 in P', K end.
  assert (Q4 : N.of_nat (1 + l) = q - 4) by lia. rewrite <- Q4.
  apply IH; try assumption; try lia.
  { rewrite Q4. intros i Hi. rewrite size_ntake in Hi. rewrite nnth_ntake by lia. rewrite K by lia.
  specialize (H (4 + i)). rewrite size_ntake, !size_cons in H. rewrite nnth_ntake in H by lia.
  replace (s + 4 + i) with (s + (4 + i)) by lia. rewrite H by lia.
  rewrite !nnth_nth_error. replace (N.to_nat (4 + i)) with (4 + N.to_nat i)%nat by lia. reflexivity. }
  all: rewrite ?Q4; lia.
Qed.
