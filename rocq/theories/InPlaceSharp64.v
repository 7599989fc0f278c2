(** Outside the conditions of C160, Base64: buffers for which the outcome is another one. *)
From Verif Require Import Base BaseLemmas MemViewModel MemViewSpec MemViewProofs ByteIOModel ByteIOSpec ByteIOProofs.
From Verif Require Import Base16Model Base16Spec Base16Proofs Base64Model Base64Spec Base64Proofs InPlaceModel InPlaceProofs InPlaceSharp.

Lemma append_inj w a b : winv w -> w_pos w + size a <= w_lim w -> size a = size b -> append w a = append w b -> a = b.
Proof.
  intros (H1 & H2 & H3) L S E. assert (EB : w_buf (append w a) = w_buf (append w b)) by now rewrite E.
  cbn in EB. rewrite <- !overwrite_spliced in EB. apply nnth_ext; [assumption|]. intros i Hi.
  assert (nnth (overwrite (w_buf w) (w_pos w) a) (w_pos w + i) = nnth (overwrite (w_buf w) (w_pos w) b) (w_pos w + i)) as Q by now rewrite EB.
  rewrite !nnth_overwrite in Q by lia. rewrite <- S in Q.
  destruct (N.leb_spec (w_pos w) (w_pos w + i)); [|lia]. destruct (N.ltb_spec (w_pos w + i) (w_pos w + size a)); [|lia].
  cbn [andb] in Q. now replace (w_pos w + i - w_pos w) with i in Q by lia.
Qed.

Lemma text_inj url a b : bytes_ok a -> bytes_ok b -> b64_text url a = b64_text url b -> a = b.
Proof.
  intros Fa Fb E. assert (b64_value url 61 = None) as V by (destruct url; reflexivity).
  assert (Some (sx a) = Some (sx b)) as Q.
  { rewrite <- (leading_text url a [61]), <- (leading_text url b [61]), E; [reflexivity| |]; right; eauto. }
  injection Q as Q. rewrite <- (sextet_bytes_sx a Fa), <- (sextet_bytes_sx b Fb). now rewrite Q.
Qed.

Lemma char_pos url v : v < 64 -> 0 < b64_char url v.
Proof.
  intros H. unfold b64_char. destruct (v <? 26); [lia|]. destruct (v <? 52); [lia|]. destruct (v <? 62); [lia|].
  destruct (v =? 62); destruct url; lia.
Qed.

Definition room4 (w : writer) (n : N) : Prop := w_pos w + 4 * ((n + 2) / 3) <= w_lim w.

(** Encoding within a buffer: the bytes encoded are those found when their turn comes. *)
Lemma enc_reads url : forall (k n : nat) w s, (n <= k)%nat -> winv w -> room4 w (N.of_nat n) ->
  (forall i, i < N.of_nat n -> exists x, nnth (w_buf w) (s + i) = Some x /\ x < 256) ->
  exists bs, size bs = N.of_nat n /\ bytes_ok bs /\ b64_encode_in url alone w s n = Ret (Ok tt, append w (b64_text url bs)) /\
  forall i, i < N.of_nat n ->
    nnth (w_buf w) (s + i) <> Some 0 \/ (w_pos w <= s + i /\ s + i < w_pos w + 4 * (i / 3)) -> nnth bs i <> Some 0.
Proof.
  unfold b64_encode_in, room4.
  induction k as [|k IH]; intros n w s Hk I R A.
  { assert (n = 0%nat) as -> by lia. exists []. split; [reflexivity|]. split; [constructor|]. split; [|intros; cbn in *; lia].
    cbn [base64encode_in]. change (b64_text url []) with (@nil N). rewrite append_nil by (destruct I as (? & ? & ?); lia). reflexivity. }
  destruct n as [|[|[|n]]].
  - exists []. split; [reflexivity|]. split; [constructor|]. split; [|intros; cbn in *; lia]. cbn [base64encode_in].
    change (b64_text url []) with (@nil N). rewrite append_nil by (destruct I as (? & ? & ?); lia). reflexivity.
  - destruct (A 0 ltac:(lia)) as (a & Ea & Fa). rewrite N.add_0_r in Ea. exists [a].
    assert (bytes_ok [a]) as F by (constructor; [exact Fa|constructor]).
    split; [reflexivity|]. split; [assumption|]. split.
    + pose proof (b64_encode_ok url [a] w I F) as T. rewrite size_b64_text in T. specialize (T R). unfold b64_encode in T. cbn [base64encode] in T.
      cbn [base64encode_in]. rewrite (byte_in_some _ _ _ Ea). cbn [bind]. exact T.
    + intros i Hi [C|C]; [|assert (i = 0) as -> by lia; cbn in C; lia]. assert (i = 0) as -> by lia. rewrite N.add_0_r, Ea in C. exact C.
  - destruct (A 0 ltac:(lia)) as (a & Ea & Fa). destruct (A 1 ltac:(lia)) as (b & Eb & Fb). rewrite N.add_0_r in Ea. exists [a; b].
    assert (bytes_ok [a; b]) as F by (constructor; [exact Fa|constructor; [exact Fb|constructor]]).
    split; [reflexivity|]. split; [assumption|]. split.
    + pose proof (b64_encode_ok url [a; b] w I F) as T. rewrite size_b64_text in T. specialize (T R). unfold b64_encode in T. cbn [base64encode] in T.
      cbn [base64encode_in]. rewrite (byte_in_some _ _ _ Ea), (byte_in_some _ _ _ Eb). cbn [bind]. exact T.
    + intros i Hi C. assert (i = 0 \/ i = 1) as [-> | ->] by lia; (destruct C as [C|C]; [|cbn in C; lia]).
      * rewrite N.add_0_r, Ea in C. exact C.
      * rewrite Eb in C. exact C.
  - destruct (A 0 ltac:(lia)) as (a & Ea & Fa). destruct (A 1 ltac:(lia)) as (b & Eb & Fb). destruct (A 2 ltac:(lia)) as (c & Ec & Fc).
    rewrite N.add_0_r in Ea.
    assert ((N.of_nat (3 + n) + 2) / 3 = 1 + (N.of_nat n + 2) / 3) as D3.
    { replace (N.of_nat (3 + n) + 2) with (N.of_nat n + 2 + 1 * 3) by lia. rewrite N.div_add by lia. lia. }
    change (S (S (S n))) with (3 + n)%nat in R. rewrite D3 in R. cbn [base64encode_in].
    rewrite (byte_in_some _ _ _ Ea), (byte_in_some _ _ _ Eb), (byte_in_some _ _ _ Ec). cbn [bind].
    rewrite enc0, enc1, enc2, enc3 by assumption. rewrite !at_alphabet by apply bits_value6_lt. cbn [bind].
    match goal with |- context [w_write w ?l] => set (g := l) end.
    assert (G : forall j, j < 4 -> exists x, nnth g j = Some x /\ 0 < x < 256).
    { intros j Hj. assert (j = 0 \/ j = 1 \/ j = 2 \/ j = 3) as [-> |[-> |[-> | ->]]] by lia; eexists; (split; [reflexivity|]);
        (split; [apply char_pos; apply bits_value6_lt|eapply N.lt_trans; [apply b64_char_byte; apply bits_value6_lt|lia]]). }
    assert (size g = 4) as SG by reflexivity.
    rewrite (w_write_append w g I) by lia. cbn [bind].
    pose proof (append_inv w g I ltac:(lia)) as I'. destruct (w_write_room w g I ltac:(lia)) as (w' & W & _ & P & Lm & SZ & K).
    rewrite (w_write_append w g I) in W by lia. injection W as <-. rewrite SG in P, K.
    destruct (IH n (append w g) (s + 3)) as (bs & Sb & Fbs & E & B); [lia|assumption|rewrite P, Lm; lia| |].
    { intros i Hi. rewrite K. destruct ((w_pos w <=? s + 3 + i) && (s + 3 + i <? w_pos w + 4)) eqn:C.
      - apply andb_prop in C as (C1 & C2). apply N.leb_le in C1. apply N.ltb_lt in C2.
        destruct (G (s + 3 + i - w_pos w)) as (x & Ex & Hx); [lia|]. exists x. split; [assumption|lia].
      - replace (s + 3 + i) with (s + (3 + i)) by lia. apply A. lia. }
    exists (a :: b :: c :: bs). rewrite !size_cons, Sb. split; [lia|].
    split; [constructor; [exact Fa|constructor; [exact Fb|constructor; [exact Fc|exact Fbs]]]|]. split.
    + rewrite E, b64_text3. change (map (b64_char url) _) with g. rewrite append_app; [reflexivity|].
      destruct I as (? & ? & ?). rewrite size_b64_text, Sb. lia.
    + intros i Hi C. destruct (N.lt_ge_cases i 3) as [L3|L3].
      * destruct C as [C|C]; [|rewrite N.div_small in C by lia; lia].
        assert (i = 0 \/ i = 1 \/ i = 2) as [-> |[-> | ->]] by lia.
        -- rewrite N.add_0_r, Ea in C. exact C.
        -- rewrite Eb in C. exact C.
        -- rewrite Ec in C. exact C.
      * set (j := i - 3). assert (i = 3 + j) as Ij by lia. clearbody j. subst i.
        replace (nnth (a :: b :: c :: bs) (3 + j)) with (nnth bs j)
          by (rewrite !nnth_nth_error; replace (N.to_nat (3 + j)) with (3 + N.to_nat j)%nat by lia; reflexivity).
        apply B; [lia|]. rewrite K. replace (s + 3 + j) with (s + (3 + j)) by lia.
        destruct ((w_pos w <=? s + (3 + j)) && (s + (3 + j) <? w_pos w + 4)) eqn:D.
        -- left. apply andb_prop in D as (D1 & D2). apply N.leb_le in D1. apply N.ltb_lt in D2.
           destruct (G (s + (3 + j) - w_pos w)) as (x & Ex & Hx); [lia|]. rewrite Ex. intros Q. injection Q as Q. lia.
        -- destruct C as [C|(C1 & C2)]; [left; exact C|]. right. rewrite P.
           apply andb_false_iff in D as [D|D]; [apply N.leb_gt in D; lia|apply N.ltb_ge in D].
           replace (3 + j) with (j + 1 * 3) in C2 at 2 by lia. rewrite N.div_add in C2 by lia. lia.
Qed.

Lemma b64_encode_clash url p s n cap : 3 < n -> 3 * s + 3 < 3 * p + n -> p < s + n ->
  p + 4 * ((n + 2) / 3) <= cap -> s + n <= cap -> cap < 2 ^ 64 ->
  let w := mkWriter p cap (repeat 0 (N.to_nat cap)) in
  b64_encode_in url alone w s (N.to_nat n) <> b64_encode url w (repeat 0 (N.to_nat n)).
Proof.
  intros H1 H2 H3 H4 H5 H6 w.
  assert (winv w) as I by (unfold winv, w; cbn; rewrite size_repeat; lia).
  destruct (enc_reads url (N.to_nat n) (N.to_nat n) w s) as (bs & Sb & Fb & E & B); [lia|assumption|unfold room4; rewrite N2Nat.id; exact H4| |].
  { intros i Hi. exists 0. split; [apply nnth_repeat; lia|lia]. }
  rewrite N2Nat.id in *. rewrite E.
  assert (bytes_ok (repeat 0 (N.to_nat n))) as Fz by (apply Forall_forall; intros x Hx; apply repeat_spec in Hx as ->; unfold is_byte; lia).
  rewrite b64_encode_ok; [|assumption|assumption|rewrite size_b64_text, size_repeat, N2Nat.id; exact H4].
  intros Q. injection Q as Q.
  assert (append w (b64_text url bs) = append w (b64_text url (repeat 0 (N.to_nat n)))) as Q' by (unfold append; now f_equal).
  apply append_inj in Q'; [|assumption|rewrite size_b64_text, Sb; exact H4|rewrite !size_b64_text, Sb, size_repeat, N2Nat.id; reflexivity].
  apply text_inj in Q'; [|assumption|assumption]. subst bs.
  assert (exists i, i < n /\ p <= s + i /\ s + i < p + 4 * (i / 3)) as (i & Hi & C1 & C2).
  { destruct (N.le_gt_cases p s) as [L|L].
    - exists (3 * ((n - 1) / 3)). pose proof (N.mul_div_le (n - 1) 3 ltac:(lia)). pose proof (N.mul_succ_div_gt (n - 1) 3 ltac:(lia)).
      replace (3 * ((n - 1) / 3) / 3) with ((n - 1) / 3) by (rewrite N.mul_comm, N.div_mul; lia). lia.
    - exists (N.max (p - s) 3). pose proof (N.mul_succ_div_gt (N.max (p - s) 3) 3 ltac:(lia)).
      assert (1 <= N.max (p - s) 3 / 3) by (apply N.div_le_lower_bound; lia). lia. }
  apply (B i Hi); [right; cbn [w w_pos]; lia|]. apply nnth_repeat. lia.
Qed.

(** ** Decoding: a character overwritten by a byte outside the alphabet *)

Ltac Zify.zify_post_hook ::= Z.to_euclidean_division_equations.

Section Decode.
Variable url : bool.

Definition val (x : N) : N := match b64_value url x with Some v => v | None => 64 end.
Definition c63 : N := b64_char url 63.
Definition byte0 (x y : N) : N := u8 (N.lor (N.shiftl (val x) 2) (N.shiftr (val y) 4)).
Definition byte1 (x y : N) : N := u8 (N.lor (N.shiftl (val x) 4) (N.shiftr (val y) 2)).
Definition byte2 (x y : N) : N := u8 (N.lor (N.shiftl (val x) 6) (val y)).

Definition mark (x : N) : Prop := x = c63 \/ x = 255.

Lemma c63_not : c63 <> 255.
Proof. unfold c63. destruct url; vm_compute; discriminate. Qed.
Lemma mark_lt x : mark x -> x < 256.
Proof. unfold mark, c63. intros [-> | ->]; [|lia]. destruct url; reflexivity. Qed.
Lemma u8_lt x : u8 x < 256.
Proof. unfold u8. apply N.mod_lt. lia. Qed.
Lemma u8_byte0 x y : byte0 x y < 256. Proof. apply u8_lt. Qed.
Lemma u8_byte1 x y : byte1 x y < 256. Proof. apply u8_lt. Qed.
Lemma u8_byte2 x y : byte2 x y < 256. Proof. apply u8_lt. Qed.

Lemma byte0_spec x y : mark x -> mark y -> (byte0 x y = 255 /\ x = c63 /\ y = c63) \/ (byte0 x y <> 255 /\ (x = 255 \/ y = 255)).
Proof.
  unfold mark, byte0, val, c63. intros [-> | ->] [-> | ->]; [left; destruct url; repeat split; reflexivity|right; split; [destruct url; vm_compute; discriminate|auto]..].
Qed.
Lemma byte1_spec x y : mark x -> mark y -> (byte1 x y = 255 /\ x = c63 /\ y = c63) \/ (byte1 x y <> 255 /\ (x = 255 \/ y = 255)).
Proof.
  unfold mark, byte1, val, c63. intros [-> | ->] [-> | ->]; [left; destruct url; repeat split; reflexivity|right; split; [destruct url; vm_compute; discriminate|auto]..].
Qed.
Lemma byte2_spec x y : mark x -> mark y -> (byte2 x y = 255 /\ x = c63 /\ y = c63) \/ (byte2 x y <> 255 /\ (x = 255 \/ y = 255)).
Proof.
  unfold mark, byte2, val, c63. intros [-> | ->] [-> | ->]; [left; destruct url; repeat split; reflexivity|right; split; [destruct url; vm_compute; discriminate|auto]..].
Qed.

Lemma dec_in_some w a x : nnth (w_buf w) a = Some x -> x < 256 -> dec_in alone (table_of url) w a = Ret (val x).
Proof. intros E H. unfold dec_in. rewrite (byte_in_some _ _ _ E). cbn [bind]. now apply at_table. Qed.

Lemma put1 w z : winv w -> w_pos w + 1 <= w_lim w ->
  exists w', w_write w [z] = Ret (Ok tt, w') /\ winv w' /\ w_pos w' = w_pos w + 1 /\ w_lim w' = w_lim w /\
  nnth (w_buf w') (w_pos w) = Some z /\ forall j, j <> w_pos w -> nnth (w_buf w') j = nnth (w_buf w) j.
Proof.
  intros I L. destruct (w_write_room w [z] I) as (w' & W & I' & P & Lm & _ & K); [exact L|]. change (size [z]) with 1 in *.
  exists w'. do 4 (split; [assumption|]). split.
  - rewrite K. destruct (N.leb_spec (w_pos w) (w_pos w)); [|lia]. destruct (N.ltb_spec (w_pos w) (w_pos w + 1)); [|lia].
    cbn [andb]. now rewrite N.sub_diag.
  - intros j Hj. rewrite K. destruct (N.leb_spec (w_pos w) j); destruct (N.ltb_spec j (w_pos w + 1)); cbn [andb]; try reflexivity. lia.
Qed.

Lemma put3 w x y z : winv w -> w_pos w + 3 <= w_lim w ->
  exists w', w_write w [x; y; z] = Ret (Ok tt, w') /\ winv w' /\ w_pos w' = w_pos w + 3 /\ w_lim w' = w_lim w /\
  nnth (w_buf w') (w_pos w) = Some x /\ nnth (w_buf w') (w_pos w + 1) = Some y /\ nnth (w_buf w') (w_pos w + 2) = Some z /\
  forall j, j < w_pos w \/ w_pos w + 3 <= j -> nnth (w_buf w') j = nnth (w_buf w) j.
Proof.
  intros I L. destruct (w_write_room w [x; y; z] I) as (w' & W & I' & P & Lm & _ & K); [exact L|]. change (size [x; y; z]) with 3 in *.
  assert (forall i, i < 3 -> nnth (w_buf w') (w_pos w + i) = nnth [x; y; z] i) as Q.
  { intros i Hi. rewrite K. destruct (N.leb_spec (w_pos w) (w_pos w + i)); [|lia]. destruct (N.ltb_spec (w_pos w + i) (w_pos w + 3)); [|lia].
    cbn [andb]. now replace (w_pos w + i - w_pos w) with i by lia. }
  exists w'. do 4 (split; [assumption|]). split; [|split; [|split]].
  - rewrite <- (N.add_0_r (w_pos w)). now rewrite Q.
  - now rewrite Q.
  - now rewrite Q.
  - intros j Hj. rewrite K. destruct (N.leb_spec (w_pos w) j); destruct (N.ltb_spec j (w_pos w + 3)); cbn [andb]; try reflexivity. lia.
Qed.

(** What lies at the [n] places from [s] on: bytes; only the two marked ones. *)
Definition bytes_at (w : writer) (s n : N) : Prop := forall i, i < n -> exists x, nnth (w_buf w) (s + i) = Some x /\ x < 256.
Definition marks_at (w : writer) (s n : N) : Prop := forall i, i < n -> exists x, nnth (w_buf w) (s + i) = Some x /\ mark x.

Definition keeps_before (w w' : writer) : Prop := forall j, j < w_pos w -> nnth (w_buf w') j = nnth (w_buf w) j.
Definition other (w w' : writer) (n : N) : Prop := exists j, w_pos w <= j < w_pos w + 3 * n / 4 /\ nnth (w_buf w') j <> Some 255.

Lemma put1_bytes w w' z s n : z < 256 -> nnth (w_buf w') (w_pos w) = Some z ->
  (forall j, j <> w_pos w -> nnth (w_buf w') j = nnth (w_buf w) j) -> bytes_at w s n -> bytes_at w' s n.
Proof.
  intros Hz E K A i Hi. destruct (N.eq_dec (s + i) (w_pos w)) as [-> |Q]; [eauto|]. rewrite K by assumption. now apply A.
Qed.
Lemma put1_marks w w' z s n : mark z -> nnth (w_buf w') (w_pos w) = Some z ->
  (forall j, j <> w_pos w -> nnth (w_buf w') j = nnth (w_buf w) j) -> marks_at w s n -> marks_at w' s n.
Proof.
  intros Hz E K A i Hi. destruct (N.eq_dec (s + i) (w_pos w)) as [-> |Q]; [eauto|]. rewrite K by assumption. now apply A.
Qed.
Lemma put1_255 w w' a : nnth (w_buf w') (w_pos w) = Some 255 ->
  (forall j, j <> w_pos w -> nnth (w_buf w') j = nnth (w_buf w) j) -> nnth (w_buf w) a = Some 255 -> nnth (w_buf w') a = Some 255.
Proof. intros E K A. destruct (N.eq_dec a (w_pos w)) as [-> |Q]; [assumption|]. now rewrite K. Qed.
Lemma marks_bytes w s n : marks_at w s n -> bytes_at w s n.
Proof. intros A i Hi. destruct (A i Hi) as (x & E & M). exists x. split; [assumption|now apply mark_lt]. Qed.

(** The tail: the bytes it writes are not all 255 if a character was overwritten, or is by the tail itself. *)
Lemma tail_other n w s : (n <= 4)%nat -> winv w -> w_pos w + 3 * N.of_nat n / 4 <= w_lim w -> bytes_at w s (N.of_nat n) ->
  exists w', b64_tail_in alone w s n (table_of url) = Ret (Ok tt, w') /\ keeps_before w w' /\
  (marks_at w s (N.of_nat n) -> (2 <= n)%nat ->
   (exists i, i < N.of_nat n /\ nnth (w_buf w) (s + i) = Some 255) \/ (s < w_pos w /\ w_pos w < s + N.of_nat n /\ (3 <= n)%nat) ->
   other w w' (N.of_nat n)).
Proof.
  intros Hn I R A. unfold b64_tail_in, keeps_before, other.
  destruct n as [|[|n]].
  - exists w. split; [reflexivity|]. split; [auto|lia].
  - exists w. split; [reflexivity|]. split; [auto|lia].
  - change (1 <? S (S n))%nat with true. cbn match.
    destruct (A 0 ltac:(lia)) as (x0 & E0 & L0). destruct (A 1 ltac:(lia)) as (x1 & E1 & L1). rewrite N.add_0_r in E0.
    rewrite (dec_in_some _ _ _ E0 L0), (dec_in_some _ _ _ E1 L1). cbn [bind]. fold (byte0 x0 x1).
    destruct (put1 w (byte0 x0 x1) I) as (w1 & W1 & I1 & P1 & M1 & Z1 & K1); [lia|]. rewrite W1. cbn [bind].
    pose proof (put1_bytes _ _ _ s _ (u8_byte0 x0 x1) Z1 K1 A) as A1.
    assert (S1 : marks_at w s (N.of_nat (S (S n))) ->
      (exists i, i < N.of_nat (S (S n)) /\ nnth (w_buf w) (s + i) = Some 255) \/ (s < w_pos w /\ w_pos w < s + N.of_nat (S (S n)) /\ (3 <= S (S n))%nat) ->
      byte0 x0 x1 <> 255 \/ (marks_at w1 s (N.of_nat (S (S n))) /\ exists i, 1 <= i < N.of_nat (S (S n)) /\ (1 <= n)%nat /\ nnth (w_buf w1) (s + i) = Some 255)).
    { intros M H. destruct (M 0 ltac:(lia)) as (y0 & F0 & M0). destruct (M 1 ltac:(lia)) as (y1 & F1 & N1). rewrite N.add_0_r in F0.
      assert (y0 = x0) as -> by congruence. assert (y1 = x1) as -> by congruence.
      destruct (byte0_spec x0 x1 M0 N1) as [(B & -> & ->)|(B & _)]; [|left; assumption]. right. rewrite B in Z1. split.
      - eapply put1_marks; [right; reflexivity|exact Z1|exact K1|exact M].
      - destruct H as [(i & Hi & E)|(C1 & C2 & C3)].
        + assert (i <> 0) by (intros ->; rewrite N.add_0_r, E0 in E; injection E as E; now apply c63_not).
          assert (i <> 1) by (intros ->; rewrite E1 in E; injection E as E; now apply c63_not).
          exists i. split; [lia|]. split; [lia|]. eapply put1_255; eauto.
        + exists (w_pos w - s). split; [lia|]. split; [lia|]. now replace (s + (w_pos w - s)) with (w_pos w) by lia. }
    destruct n as [|n].
    + exists w1. split; [reflexivity|]. split; [intros j Hj; apply K1; lia|]. intros M _ H.
      destruct (S1 M H) as [B|(_ & i & _ & Hi & _)]; [|lia]. exists (w_pos w). split; [lia|]. rewrite Z1. congruence.
    + change (2 <? S (S (S n)))%nat with true. cbn match.
      destruct (A1 1 ltac:(lia)) as (y1 & F1 & LL1). destruct (A1 2 ltac:(lia)) as (y2 & F2 & LL2).
      rewrite (dec_in_some _ _ _ F1 LL1), (dec_in_some _ _ _ F2 LL2). cbn [bind]. fold (byte1 y1 y2).
      destruct (put1 w1 (byte1 y1 y2) I1) as (w2 & W2 & I2 & P2 & M2 & Z2 & K2); [lia|]. rewrite W2. cbn [bind].
      pose proof (put1_bytes _ _ _ s _ (u8_byte1 y1 y2) Z2 K2 A1) as A2.
      assert (S2 : marks_at w1 s (N.of_nat (S (S (S n)))) ->
        (exists i, 1 <= i < N.of_nat (S (S (S n))) /\ nnth (w_buf w1) (s + i) = Some 255) ->
        byte1 y1 y2 <> 255 \/ (marks_at w2 s (N.of_nat (S (S (S n)))) /\ exists i, 3 <= i < N.of_nat (S (S (S n))) /\ nnth (w_buf w2) (s + i) = Some 255)).
      { intros M (i & Hi & E). destruct (M 1 ltac:(lia)) as (z1 & G1 & N1). destruct (M 2 ltac:(lia)) as (z2 & G2 & N2).
        assert (z1 = y1) as -> by congruence. assert (z2 = y2) as -> by congruence.
        destruct (byte1_spec y1 y2 N1 N2) as [(B & -> & ->)|(B & _)]; [|left; assumption]. right. rewrite B in Z2. split.
        - eapply put1_marks; [right; reflexivity|exact Z2|exact K2|exact M].
        - assert (i <> 1) by (intros ->; rewrite F1 in E; injection E as E; now apply c63_not).
          assert (i <> 2) by (intros ->; rewrite F2 in E; injection E as E; now apply c63_not).
          exists i. split; [lia|]. eapply put1_255; eauto. }
      destruct n as [|n].
      * exists w2. split; [reflexivity|]. split; [intros j Hj; rewrite K2 by lia; apply K1; lia|]. intros M _ H.
        destruct (S1 M H) as [B|(Ma & i & Hi & _ & E)].
        { exists (w_pos w). split; [lia|]. rewrite K2 by lia. rewrite Z1. congruence. }
        destruct (S2 Ma ltac:(eauto)) as [B|(_ & i' & Hi' & _)]; [|lia].
        exists (w_pos w + 1). split; [lia|]. rewrite <- P1, Z2. congruence.
      * destruct n; [|lia]. change (3 <? 4)%nat with true. cbn match.
        destruct (A2 2 ltac:(lia)) as (z2 & G2 & Q2). destruct (A2 3 ltac:(lia)) as (z3 & G3 & Q3).
        rewrite (dec_in_some _ _ _ G2 Q2), (dec_in_some _ _ _ G3 Q3). cbn [bind]. fold (byte2 z2 z3).
        destruct (put1 w2 (byte2 z2 z3) I2) as (w3 & W3 & I3 & P3 & M3 & Z3 & K3); [lia|]. rewrite W3. cbn [bind].
        exists w3. split; [reflexivity|]. split; [intros j Hj; rewrite K3, K2 by lia; apply K1; lia|]. intros M _ H.
        destruct (S1 M H) as [B|(Ma & i & Hi & _ & E)].
        { exists (w_pos w). split; [lia|]. rewrite K3, K2 by lia. rewrite Z1. congruence. }
        destruct (S2 Ma ltac:(eauto)) as [B|(Mb & i' & Hi' & E')].
        { exists (w_pos w + 1). split; [lia|]. rewrite K3 by lia. rewrite <- P1, Z2. congruence. }
        assert (i' = 3) as -> by lia. assert (z3 = 255) as -> by congruence.
        destruct (Mb 2 ltac:(lia)) as (u2 & U2 & N2). assert (u2 = z2) as -> by congruence.
        exists (w_pos w + 2). split; [lia|]. replace (w_pos w + 2) with (w_pos w2) by lia. rewrite Z3.
        destruct (byte2_spec z2 255 N2 (or_intror eq_refl)) as [(_ & _ & Q)|(B & _)]; [now destruct c63_not|congruence].
Qed.

Lemma loop_other : forall (k n : nat) w s, (n <= k)%nat -> winv w -> w_pos w + 3 * N.of_nat n / 4 <= w_lim w -> bytes_at w s (N.of_nat n) ->
  exists w', b64_loop_in alone w s n (table_of url) = Ret (Ok tt, w') /\ keeps_before w w' /\
  (marks_at w s (N.of_nat n) ->
   (exists i, i < used (N.of_nat n) /\ nnth (w_buf w) (s + i) = Some 255) \/
   (s < w_pos w /\ w_pos w < s + used (N.of_nat n) /\ (3 <= n)%nat /\ (n <> 5)%nat /\ (w_pos w = s + 1 -> (n <= 4)%nat)) ->
   other w w' (N.of_nat n)).
Proof.
  induction k as [|k IH]; intros n w s Hk I R A.
  { assert (n = 0%nat) as -> by lia. exists w. split; [reflexivity|]. split; [now intros ?|]. cbn. intros _ [(i & Hi & _)|C]; lia. }
  destruct (Nat.le_gt_cases n 4) as [L|L].
  { destruct (tail_other n w s L I R A) as (w' & E & K & T). exists w'. split; [|split; [assumption|]].
    - rewrite <- E. do 5 (destruct n as [|n]; [reflexivity|]). lia.
    - intros M H. destruct n as [|[|n]].
      + cbn in H. destruct H as [(i & Hi & _)|C]; lia.
      + cbn in H. destruct H as [(i & Hi & _)|C]; lia.
      + rewrite used_all in H by lia. apply T; [assumption|lia|]. destruct H as [H|H]; [left; assumption|right; lia]. }
  replace n with (5 + (n - 5))%nat in * by lia. set (l := (n - 5)%nat) in *. clearbody l. clear n.
  rewrite b64_loop_in_5.
  destruct (A 0 ltac:(lia)) as (x0 & E0 & L0). destruct (A 1 ltac:(lia)) as (x1 & E1 & L1). rewrite N.add_0_r in E0.
  destruct (A 2 ltac:(lia)) as (x2 & E2 & L2). destruct (A 3 ltac:(lia)) as (x3 & E3 & L3).
  rewrite (dec_in_some _ _ _ E0 L0), (dec_in_some _ _ _ E1 L1), (dec_in_some _ _ _ E2 L2), (dec_in_some _ _ _ E3 L3). cbn [bind].
  fold (byte0 x0 x1) (byte1 x1 x2) (byte2 x2 x3).
  destruct (put3 w (byte0 x0 x1) (byte1 x1 x2) (byte2 x2 x3) I) as (w1 & W1 & I1 & P1 & M1 & Z0 & Z1 & Z2 & K1); [lia|]. rewrite W1. cbn [bind].
  set (q := N.of_nat (5 + l)) in *. pose proof (used_4 q ltac:(lia)) as U. pose proof (used_le (q - 4)) as UL.
  assert (Q4 : N.of_nat (1 + l) = q - 4) by lia.
  assert (forall i, i < q - 4 -> w_pos w <= s + 4 + i < w_pos w + 3 ->
    nnth (w_buf w1) (s + 4 + i) = Some (byte0 x0 x1) \/ nnth (w_buf w1) (s + 4 + i) = Some (byte1 x1 x2) \/ nnth (w_buf w1) (s + 4 + i) = Some (byte2 x2 x3)) as OV.
  { intros i Hi C. assert (s + 4 + i = w_pos w \/ s + 4 + i = w_pos w + 1 \/ s + 4 + i = w_pos w + 2) as [-> |[-> | ->]] by lia; auto. }
  assert (bytes_at w1 (s + 4) (q - 4)) as A1.
  { intros i Hi. destruct (N.le_gt_cases (w_pos w) (s + 4 + i)) as [C1|C1]; [destruct (N.lt_ge_cases (s + 4 + i) (w_pos w + 3)) as [C2|C2]|].
    - destruct (OV i Hi (conj C1 C2)) as [-> |[-> | ->]]; eexists; (split; [reflexivity|apply u8_lt]).
    - rewrite K1 by auto. replace (s + 4 + i) with (s + (4 + i)) by lia. apply A. lia.
    - rewrite K1 by auto. replace (s + 4 + i) with (s + (4 + i)) by lia. apply A. lia. }
  destruct (IH (1 + l)%nat w1 (s + 4)) as (w' & E & K & T); [lia|assumption|rewrite P1, M1, Q4; lia|rewrite Q4; assumption|].
  rewrite Q4 in T. exists w'. split; [assumption|]. split.
  { intros j Hj. rewrite K by lia. apply K1. lia. }
  intros M H.
  assert (X : (byte0 x0 x1 <> 255 \/ byte1 x1 x2 <> 255 \/ byte2 x2 x3 <> 255) -> other w w' q).
  { intros [B|[B|B]]; [exists (w_pos w)|exists (w_pos w + 1)|exists (w_pos w + 2)]; (split; [lia|]); rewrite K by lia; congruence. }
  destruct (M 0 ltac:(lia)) as (y0 & F0 & N0). destruct (M 1 ltac:(lia)) as (y1 & F1 & N1). rewrite N.add_0_r in F0.
  destruct (M 2 ltac:(lia)) as (y2 & F2 & N2). destruct (M 3 ltac:(lia)) as (y3 & F3 & N3).
  assert (y0 = x0) as -> by congruence. assert (y1 = x1) as -> by congruence. assert (y2 = x2) as -> by congruence. assert (y3 = x3) as -> by congruence.
  destruct (byte0_spec x0 x1 N0 N1) as [(B0 & X0 & X1)|(B0 & _)]; [|apply X; auto].
  destruct (byte1_spec x1 x2 N1 N2) as [(B1 & _ & X2)|(B1 & _)]; [|apply X; auto].
  destruct (byte2_spec x2 x3 N2 N3) as [(B2 & _ & X3)|(B2 & _)]; [|apply X; auto]. clear X.
  rewrite B0 in *. rewrite B1 in *. rewrite B2 in *.
  assert (O : other w1 w' (q - 4)).
  { apply T.
    - intros i Hi. destruct (N.le_gt_cases (w_pos w) (s + 4 + i)) as [C1|C1]; [destruct (N.lt_ge_cases (s + 4 + i) (w_pos w + 3)) as [C2|C2]|].
      + exists 255. split; [destruct (OV i Hi (conj C1 C2)) as [-> |[-> | ->]]; reflexivity|now right].
      + rewrite K1 by auto. replace (s + 4 + i) with (s + (4 + i)) by lia. apply M. lia.
      + rewrite K1 by auto. replace (s + 4 + i) with (s + (4 + i)) by lia. apply M. lia.
    - left. destruct H as [(i & Hi & Ei)|(C1 & C2 & C3 & C4 & C5)].
      + assert (4 <= i) as I4.
        { destruct (N.lt_ge_cases i 4) as [B|B]; [|assumption]. exfalso. apply c63_not.
          assert (i = 0 \/ i = 1 \/ i = 2 \/ i = 3) as [-> |[-> |[-> | ->]]] by lia; [rewrite N.add_0_r in Ei|..]; congruence. }
        exists (i - 4). split; [lia|]. replace (s + 4 + (i - 4)) with (s + i) by lia.
        destruct (N.le_gt_cases (w_pos w) (s + i)) as [D1|D1]; [destruct (N.lt_ge_cases (s + i) (w_pos w + 3)) as [D2|D2]|].
        * specialize (OV (i - 4)). replace (s + 4 + (i - 4)) with (s + i) in OV by lia. destruct OV as [-> |[-> | ->]]; lia || reflexivity.
        * now rewrite K1 by auto.
        * now rewrite K1 by auto.
      + assert (used q <> 4) as U4.
        { intros Q. assert (q - 4 <= 1).
          { destruct (N.le_gt_cases (q - 4) 1); [assumption|]. exfalso. assert (used (q - 4) = 0) as V by lia. unfold used in V. destruct (_ =? _); lia. }
          lia. }
        exists (N.max (w_pos w) (s + 4) - s - 4). split; [lia|].
        specialize (OV (N.max (w_pos w) (s + 4) - s - 4)). destruct OV as [V|[V|V]]; try assumption; lia. }
  destruct O as (j & Hj & V). exists j. split; [|assumption]. rewrite P1 in Hj. lia.
Qed.

Lemma ones_bytes : forall (k L : nat), (L <= k)%nat ->
  size (sextet_bytes (repeat 63 L)) = 3 * N.of_nat L / 4 /\ Forall (fun x => x = 255) (sextet_bytes (repeat 63 L)).
Proof.
  induction k as [|k IH]; intros L HL.
  { assert (L = 0%nat) as -> by lia. split; [reflexivity|constructor]. }
  destruct L as [|[|[|[|L]]]].
  1-4: split; [reflexivity|vm_compute; repeat (apply Forall_cons; [reflexivity|]); apply Forall_nil].
  cbn [repeat]. rewrite sextet_bytes4. destruct (IH L ltac:(lia)) as (S1 & F1). split.
  - rewrite !size_cons, S1. lia.
  - repeat (apply Forall_cons; [reflexivity|]). exact F1.
Qed.

Definition ones_buf (s L cap : N) : list N :=
  repeat c63 (N.to_nat s) ++ repeat c63 (N.to_nat L) ++ 61 :: repeat c63 (N.to_nat (cap - s - L - 1)).

Lemma ones_leading s L cap : b64_leading url (ndrop s (ones_buf s L cap)) = Some (repeat 63 (N.to_nat L)).
Proof.
  unfold ones_buf. replace s with (size (repeat c63 (N.to_nat s))) at 1 by (rewrite size_repeat; lia). rewrite ndrop_app_exact.
  replace (repeat c63 (N.to_nat L)) with (map (b64_char url) (repeat 63 (N.to_nat L))) by (induction (N.to_nat L) as [|m IHm]; [reflexivity|]; cbn [repeat map]; now rewrite IHm).
  rewrite leading_chars by (apply Forall_forall; intros x Hx; apply repeat_spec in Hx as ->; lia).
  cbn [b64_leading]. replace (b64_value url 61) with (@None N) by (destruct url; reflexivity). cbn. now rewrite app_nil_r.
Qed.

Lemma ones_ok s L cap : bytes_ok (ones_buf s L cap).
Proof.
  assert (forall n, bytes_ok (repeat c63 n)) as F.
  { intros n. apply Forall_forall. intros x Hx. apply repeat_spec in Hx as ->. unfold is_byte. apply mark_lt. now left. }
  unfold ones_buf. apply Forall_app. split; [apply F|]. apply Forall_app. split; [apply F|]. constructor; [unfold is_byte; lia|apply F].
Qed.

Lemma b64_decode_clash p s L cap n : s < p -> p < s + L -> 3 <= L -> L <> 5 -> (p = s + 1 -> L <= 4) -> (L mod 4 = 1 -> p + 1 <> s + L) ->
  n <> 0 -> p + 3 * L / 4 <= cap -> s + L + 1 <= cap -> cap < 2 ^ 64 ->
  let w := mkWriter p cap (ones_buf s L cap) in
  b64_decode_in url alone w s n <> b64_decode url w (ones_buf s L cap) (mkView (Some s) n).
Proof.
  intros H1 H2 H3 H4 H5 H6 Hn R1 R2 R3 w.
  assert (winv w) as I by (unfold winv, w; cbn; unfold ones_buf; rewrite !size_app, size_cons, !size_repeat; lia).
  destruct (ones_bytes (N.to_nat L) (N.to_nat L) ltac:(lia)) as (SO & FO). rewrite N2Nat.id in SO.
  rewrite (b64_decode_ok url w _ s n (repeat 63 (N.to_nat L)) (ones_ok s L cap) I Hn (ones_leading s L cap)) by (rewrite SO; exact R1).
  unfold b64_decode_in, base64decode_in. destruct (N.eqb_spec n 0); [contradiction|]. rewrite block_alone. change (w_buf w) with (ones_buf s L cap).
  rewrite b64_scan_spec by (apply bytes_ok_ndrop; apply ones_ok). rewrite ones_leading. cbn [bind]. rewrite size_repeat.
  rewrite Nat2N.id.
  assert (marks_at w s L) as M.
  { intros i Hi. exists c63. split; [|now left]. cbn [w w_buf]. unfold ones_buf.
    rewrite nnth_nth_error. rewrite nth_error_app2 by (rewrite repeat_length; lia). rewrite repeat_length.
    rewrite nth_error_app1 by (rewrite repeat_length; lia). rewrite (nth_error_nth' _ c63) by (rewrite repeat_length; lia). now rewrite nth_repeat. }
  destruct (loop_other (N.to_nat L) (N.to_nat L) w s) as (w' & E & K & T); rewrite ?N2Nat.id in *; [lia|assumption|exact R1|now apply marks_bytes|].
  rewrite E. intros Q. injection Q as Q. destruct (T M) as (j & Hj & V).
  { right. cbn [w w_pos]. assert (p < s + used L) by (unfold used; destruct (N.eqb_spec (L mod 4) 1); lia). lia. }
  apply V. rewrite Q. cbn [append w_buf w w_pos] in *. rewrite <- overwrite_spliced.
  destruct I as (? & ? & ?). cbn [w w_pos w_lim w_buf] in *. rewrite nnth_overwrite by lia. rewrite SO.
  destruct (N.leb_spec p j); [|lia]. destruct (N.ltb_spec j (p + 3 * L / 4)); [|lia]. cbn [andb].
  assert (j - p < size (sextet_bytes (repeat 63 (N.to_nat L)))) as B by lia.
  rewrite nnth_nth_error. destruct (nth_error (sextet_bytes (repeat 63 (N.to_nat L))) (N.to_nat (j - p))) as [x|] eqn:Ex.
  - apply nth_error_In in Ex. rewrite Forall_forall in FO. now rewrite (FO x Ex).
  - apply nth_error_None in Ex. unfold size in B. lia.
Qed.
End Decode.
