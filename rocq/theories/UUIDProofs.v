From Verif Require Import Base BaseLemmas MemViewModel MemViewSpec MemViewProofs ByteIOModel ByteIOSpec ByteIOProofs.
From Verif Require Import LexSpec LexProofs Base16Model Base16Spec Base16Proofs UUIDModel UUIDSpec.

(** ** Order *)

Lemma memcmp_eq a : forall b, length a = length b -> memcmp a b = Eq <-> a = b.
Proof.
  induction a as [|x a IH]; intros [|y b] L; try discriminate; cbn; [tauto|].
  injection L as L. destruct (N.compare_spec x y) as [->|H|H].
  - rewrite IH by assumption. split; [now intros ->|congruence].
  - split; [discriminate|]. intros E. injection E as E _. lia.
  - split; [discriminate|]. intros E. injection E as E _. lia.
Qed.

Lemma memcmp_lt a : forall b, length a = length b -> memcmp a b = Lt <-> lex_lt a b.
Proof.
  intros b. rewrite <- lexltb_spec. revert b.
  induction a as [|x a IH]; intros [|y b] L; try discriminate; cbn; [split; discriminate|].
  injection L as L. destruct (N.compare_spec x y) as [->|H|H].
  - rewrite IH by assumption. rewrite N.ltb_irrefl, N.eqb_refl. reflexivity.
  - destruct (N.ltb_spec x y); [tauto|lia].
  - destruct (N.ltb_spec x y); [lia|]. destruct (N.eqb_spec x y); [lia|]. split; discriminate.
Qed.

Lemma uuid_lt_spec a b : length a = length b -> uuid_lt a b = true <-> lex_lt a b.
Proof. intros L. rewrite <- memcmp_lt by assumption. unfold uuid_lt. destruct (memcmp a b); split; congruence. Qed.
Lemma uuid_eq_spec a b : length a = length b -> uuid_eq a b = true <-> a = b.
Proof. intros L. rewrite <- memcmp_eq by assumption. unfold uuid_eq, uuid_equals. destruct (memcmp a b); split; congruence. Qed.

Lemma isNull_spec u : uuid_isNull u = true <-> Forall (fun b => b = 0) u.
Proof.
  unfold uuid_isNull. rewrite N.eqb_eq.
  assert (forall s, fold_left (fun s v => s + v) u s = 0 <-> s = 0 /\ Forall (fun b => b = 0) u) as G.
  { induction u as [|b u IH]; intros s; cbn [fold_left]; [split; [auto|tauto]|].
    rewrite IH. split; intros (H1 & H2).
    - split; [lia|]. constructor; [lia|assumption].
    - inversion H2; subst. split; [lia|assumption]. }
  rewrite G. tauto.
Qed.

(** ** Printing *)

Lemma put_ok u from to w bs : section u from (to - from) = bs -> bytes_ok bs -> winv w -> size bs < 2 ^ 64 ->
  w_pos w + 2 * size bs <= w_lim w ->
  uuid_put u from to w = Ret (append w (hex_text bs)).
Proof.
  intros E B I S L. unfold uuid_put, view_bytes.
  rewrite load_valid_all by (apply slice_valid, storage_valid). rewrite slice_contents by apply storage_valid.
  rewrite storage_contents, range_spec, <- section_spec, E. cbn [bind].
  rewrite b16_encode_ok by assumption. reflexivity.
Qed.

Lemma dash_ok w : winv w -> w_pos w + 1 <= w_lim w -> uuid_dash w = Ret (append w [45]).
Proof. intros I L. unfold uuid_dash. rewrite w_write_append by (assumption || (cbn; lia)). reflexivity. Qed.

Lemma bytes_ok_section l a n : bytes_ok l -> bytes_ok (section l a n).
Proof. intros. rewrite section_spec. now apply bytes_ok_ntake, bytes_ok_ndrop. Qed.

Lemma size_section l a n : a + n <= size l -> size (section l a n) = n.
Proof. intros. rewrite section_spec, size_ntake, size_ndrop. lia. Qed.

Lemma toString_buf_ok u buf : is_uuid u -> 36 <= size buf -> size buf < 2 ^ 64 ->
  uuid_toString_buf u buf = Ret (uuid_text u, uuid_text u ++ ndrop 36 buf).
Proof.
  intros (L & B) H1 H2. unfold uuid_toString_buf.
  assert (size u = 16) as Su by (unfold size; lia).
  assert (forall a n, a + n <= 16 -> size (hex_text (section u a n)) = 2 * n) as Sh.
  { intros. rewrite size_hex_text, size_section by lia. reflexivity. }
  assert (forall a n, a + n <= 16 -> size (section u a n) = n) as Ss by (intros; apply size_section; lia).
  set (w0 := writer_make buf).
  assert (winv w0 /\ w_pos w0 = 0 /\ w_lim w0 = size buf /\ w_buf w0 = buf) as (I0 & P0 & Q0 & B0).
  { unfold w0, writer_make, winv; cbn. repeat split; lia. }
  assert (forall w bs k, winv w -> w_pos w = k -> w_lim w = size buf -> k + size bs <= 36 ->
    winv (append w bs) /\ w_pos (append w bs) = k + size bs /\ w_lim (append w bs) = size buf) as A.
  { intros w bs k I P Q K. split; [apply append_inv; [assumption|lia]|]. cbn. lia. }
  rewrite (put_ok u 0 4 w0 (section u 0 4)) by (reflexivity || (now apply bytes_ok_section) || assumption || (rewrite Ss by lia; lia)).
  cbn [bind]. set (w1 := append w0 _). destruct (A w0 (hex_text (section u 0 4)) 0 I0 P0 Q0) as (I1 & P1 & Q1); [rewrite Sh; lia|].
  fold w1 in I1, P1, Q1. rewrite Sh in P1 by lia.
  rewrite dash_ok by (assumption || lia). cbn [bind]. set (w2 := append w1 _).
  destruct (A w1 [45] _ I1 P1 Q1) as (I2 & P2 & Q2); [cbn; lia|]. fold w2 in I2, P2, Q2.
  change (size [45]) with 1 in P2.
  rewrite (put_ok u 4 6 w2 (section u 4 2)) by (reflexivity || (now apply bytes_ok_section) || assumption || (rewrite Ss by lia; lia)).
  cbn [bind]. set (w3 := append w2 _). destruct (A w2 (hex_text (section u 4 2)) _ I2 P2 Q2) as (I3 & P3 & Q3); [rewrite Sh; lia|].
  fold w3 in I3, P3, Q3. rewrite Sh in P3 by lia.
  rewrite dash_ok by (assumption || lia). cbn [bind]. set (w4 := append w3 _).
  destruct (A w3 [45] _ I3 P3 Q3) as (I4 & P4 & Q4); [cbn; lia|]. fold w4 in I4, P4, Q4.
  change (size [45]) with 1 in P4.
  rewrite (put_ok u 6 8 w4 (section u 6 2)) by (reflexivity || (now apply bytes_ok_section) || assumption || (rewrite Ss by lia; lia)).
  cbn [bind]. set (w5 := append w4 _). destruct (A w4 (hex_text (section u 6 2)) _ I4 P4 Q4) as (I5 & P5 & Q5); [rewrite Sh; lia|].
  fold w5 in I5, P5, Q5. rewrite Sh in P5 by lia.
  rewrite dash_ok by (assumption || lia). cbn [bind]. set (w6 := append w5 _).
  destruct (A w5 [45] _ I5 P5 Q5) as (I6 & P6 & Q6); [cbn; lia|]. fold w6 in I6, P6, Q6.
  change (size [45]) with 1 in P6.
  rewrite (put_ok u 8 10 w6 (section u 8 2)) by (reflexivity || (now apply bytes_ok_section) || assumption || (rewrite Ss by lia; lia)).
  cbn [bind]. set (w7 := append w6 _). destruct (A w6 (hex_text (section u 8 2)) _ I6 P6 Q6) as (I7 & P7 & Q7); [rewrite Sh; lia|].
  fold w7 in I7, P7, Q7. rewrite Sh in P7 by lia.
  rewrite dash_ok by (assumption || lia). cbn [bind]. set (w8 := append w7 _).
  destruct (A w7 [45] _ I7 P7 Q7) as (I8 & P8 & Q8); [cbn; lia|]. fold w8 in I8, P8, Q8.
  change (size [45]) with 1 in P8.
  rewrite (put_ok u 10 16 w8 (section u 10 6)) by (reflexivity || (now apply bytes_ok_section) || assumption || (rewrite Ss by lia; lia)).
  cbn [bind].
  assert (append w8 (hex_text (section u 10 6)) = append w0 (uuid_text u)) as ->.
  { assert (forall w, winv w -> w_lim w = size buf -> w_lim w <= size (w_buf w)) as K by (intros w (X1 & X2 & X3) _; lia).
    unfold uuid_text.
    unfold w8. rewrite append_app by (rewrite ?size_app, ?Sh by lia; change (size [45]) with 1; pose proof (K w7 I7 Q7); lia). rewrite ?app_assoc_reverse.
    unfold w7. rewrite append_app by (rewrite ?size_app, ?Sh by lia; change (size [45]) with 1; pose proof (K w6 I6 Q6); lia). rewrite ?app_assoc_reverse.
    unfold w6. rewrite append_app by (rewrite ?size_app, ?Sh by lia; change (size [45]) with 1; pose proof (K w5 I5 Q5); lia). rewrite ?app_assoc_reverse.
    unfold w5. rewrite append_app by (rewrite ?size_app, ?Sh by lia; change (size [45]) with 1; pose proof (K w4 I4 Q4); lia). rewrite ?app_assoc_reverse.
    unfold w4. rewrite append_app by (rewrite ?size_app, ?Sh by lia; change (size [45]) with 1; pose proof (K w3 I3 Q3); lia). rewrite ?app_assoc_reverse.
    unfold w3. rewrite append_app by (rewrite ?size_app, ?Sh by lia; change (size [45]) with 1; pose proof (K w2 I2 Q2); lia). rewrite ?app_assoc_reverse.
    unfold w2. rewrite append_app by (rewrite ?size_app, ?Sh by lia; change (size [45]) with 1; pose proof (K w1 I1 Q1); lia). rewrite ?app_assoc_reverse.
    unfold w1. rewrite append_app by (rewrite ?size_app, ?Sh by lia; change (size [45]) with 1; pose proof (K w0 I0 Q0); lia). rewrite ?app_assoc_reverse.
    reflexivity. }
  assert (size (uuid_text u) = 36) as S36.
  { unfold uuid_text. rewrite !size_app, !Sh by lia. reflexivity. }
  assert (w_buf (append w0 (uuid_text u)) = uuid_text u ++ ndrop 36 buf) as ->.
  { unfold append. cbn [w_buf]. rewrite P0, B0. rewrite <- overwrite_spliced. unfold overwrite.
    rewrite ntake_0, S36. reflexivity. }
  unfold view_bytes. rewrite load_valid_all by (apply mslice_valid, storage_valid).
  rewrite mslice_contents by apply storage_valid. rewrite storage_contents, range_spec, ndrop_0. cbn [bind].
  change (36 - 0) with 36.
  pose proof (ntake_app_exact (uuid_text u) (ndrop 36 buf)) as T. rewrite S36 in T. now rewrite T.
Qed.

(** ** Parsing *)

Lemma hex_value_app a : forall b, size a mod 2 = 0 ->
  hex_value (a ++ b) = match hex_value a, hex_value b with Some x, Some y => Some (x ++ y) | _, _ => None end.
Proof.
  induction a as [|x|x y a IH] using pair_ind; intros b E.
  - cbn [app hex_value]. destruct (hex_value b); reflexivity.
  - discriminate.
  - cbn [app hex_value]. rewrite !size_cons in E. rewrite IH by lia.
    destruct (digit_value x), (digit_value y), (hex_value a), (hex_value b); reflexivity.
Qed.

Lemma digit_not_dash c v : digit_value c = Some v -> c <> 45.
Proof. intros E ->. discriminate. Qed.

Lemma parse_group g : forall bs rest i out, hex_value g = Some bs -> i + size g <= 36 ->
  size out + size bs <= 16 ->
  uuid_parse_loop (g ++ rest) i out = uuid_parse_loop rest (i + size g) (out ++ bs).
Proof.
  induction g as [|a|a b g IH] using pair_ind; intros bs rest i out E L S.
  - injection E as <-. cbn [app]. now rewrite (@size_nil N), N.add_0_r, app_nil_r.
  - discriminate.
  - cbn [hex_value] in E. destruct (digit_value a) as [h|] eqn:Ea; [|discriminate].
    destruct (digit_value b) as [l|] eqn:Eb; [|discriminate].
    destruct (hex_value g) as [r|]; [|discriminate].
    assert (bs = (16 * h + l) :: r) as -> by congruence. clear E.
    rewrite !size_cons in *. pose proof (digit_not_dash _ _ Ea) as Na.
    pose proof (digit_value_lt _ _ Ea) as (H1 & H2). pose proof (digit_value_lt _ _ Eb) as (H3 & H4).
    cbn [app uuid_parse_loop]. destruct (N.ltb_spec i 36); [|lia]. destruct (N.eqb_spec a 45); [lia|].
    rewrite !charToBin_spec, Ea, Eb by assumption. cbn [bind]. destruct (N.leb_spec 16 (size out)); [lia|].
    assert (u8 (u8 (N.shiftl h 4) + u8 l) = 16 * h + l) as ->.
    { rewrite N.shiftl_mul_pow2. unfold u8. lia. }
    rewrite (IH r) by (reflexivity || (rewrite ?size_app, ?size_cons, ?(@size_nil N); lia)).
    rewrite <- app_assoc. cbn [app]. f_equal. lia.
Qed.

Lemma parse_bad_group g : forall rest i out, ascii7 g -> Forall (fun c => c <> 45) g -> hex_value g = None ->
  size g mod 2 = 0 -> i + size g <= 36 -> size out + size g / 2 <= 16 ->
  uuid_parse_loop (g ++ rest) i out = Ret (Err E_ILSEQ).
Proof.
  induction g as [|a|a b g IH] using pair_ind; intros rest i out F D E M L S.
  - discriminate.
  - discriminate.
  - cbn [hex_value] in E. inversion F as [|? ? Fa F1]; inversion F1 as [|? ? Fb F2]; subst.
    inversion D as [|? ? Da D1]; inversion D1 as [|? ? Db D2]; subst. rewrite !size_cons in *.
    cbn [app uuid_parse_loop]. destruct (N.ltb_spec i 36); [|lia]. destruct (N.eqb_spec a 45); [lia|].
    rewrite !charToBin_spec by assumption. destruct (digit_value a) as [h|] eqn:Ea; cbn [bind].
    2:{ destruct (digit_value b); reflexivity. }
    destruct (digit_value b) as [l|] eqn:Eb; [|reflexivity]. cbn [bind]. destruct (N.leb_spec 16 (size out)); [lia|].
    apply IH; auto; try lia.
    + destruct (hex_value g); [discriminate|reflexivity].
    + rewrite size_app, size_cons, (@size_nil N). lia.
Qed.

Lemma parse_any_group g rest i out : ascii7 g -> Forall (fun c => c <> 45) g ->
  size g mod 2 = 0 -> i + size g <= 36 -> size out + size g / 2 <= 16 ->
  uuid_parse_loop (g ++ rest) i out =
    match hex_value g with
    | Some bs => uuid_parse_loop rest (i + size g) (out ++ bs)
    | None => Ret (Err E_ILSEQ)
    end.
Proof.
  intros F D M L S. destruct (hex_value g) as [bs|] eqn:E.
  - apply parse_group; auto. apply hex_value_size in E as (E & _). lia.
  - now apply parse_bad_group.
Qed.

Lemma parse_dash rest i out : i < 36 -> uuid_parse_loop (45 :: rest) i out = uuid_parse_loop rest (i + 1) out.
Proof. intros H. cbn [uuid_parse_loop]. destruct (N.ltb_spec i 36); [reflexivity|lia]. Qed.

Definition grouped (g1 g2 g3 g4 g5 : list N) := g1 ++ [45] ++ g2 ++ [45] ++ g3 ++ [45] ++ g4 ++ [45] ++ g5.

Definition group_ok (n : N) (g : list N) := size g = n /\ ascii7 g /\ Forall (fun c => c <> 45) g.

Lemma parse_grouped g1 g2 g3 g4 g5 after :
  group_ok 8 g1 -> group_ok 4 g2 -> group_ok 4 g3 -> group_ok 4 g4 -> group_ok 12 g5 ->
  uuid_parse (grouped g1 g2 g3 g4 g5) after =
    match hex_value (g1 ++ g2 ++ g3 ++ g4 ++ g5) with
    | Some bs => Ret (Ok (map Some bs))
    | None => Ret (Err E_ILSEQ)
    end.
Proof.
  intros (S1 & F1 & D1) (S2 & F2 & D2) (S3 & F3 & D3) (S4 & F4 & D4) (S5 & F5 & D5).
  unfold uuid_parse. assert (size (grouped g1 g2 g3 g4 g5) = 36) as ->.
  { unfold grouped. rewrite !size_app, S1, S2, S3, S4, S5. reflexivity. }
  cbn [N.eqb Pos.eqb negb]. unfold grouped. repeat rewrite <- app_assoc.
  repeat rewrite hex_value_app by (rewrite ?S1, ?S2, ?S3, ?S4; reflexivity).
  rewrite parse_any_group by (assumption || (rewrite ?S1, ?(@size_nil N); reflexivity || lia)).
  rewrite S1. destruct (hex_value g1) as [b1|] eqn:E1; [|reflexivity]. apply hex_value_size in E1 as (Z1 & _).
  cbn [app]. rewrite parse_dash by lia.
  rewrite parse_any_group by (assumption || (rewrite ?S2; reflexivity || lia)).
  rewrite S2. destruct (hex_value g2) as [b2|] eqn:E2; [|reflexivity]. apply hex_value_size in E2 as (Z2 & _).
  rewrite parse_dash by lia.
  rewrite parse_any_group by (assumption || (rewrite ?S3, ?size_app; reflexivity || lia)).
  rewrite S3. destruct (hex_value g3) as [b3|] eqn:E3; [|reflexivity]. apply hex_value_size in E3 as (Z3 & _).
  rewrite parse_dash by lia.
  rewrite parse_any_group by (assumption || (rewrite ?S4, ?size_app; reflexivity || lia)).
  rewrite S4. destruct (hex_value g4) as [b4|] eqn:E4; [|reflexivity]. apply hex_value_size in E4 as (Z4 & _).
  rewrite parse_dash by lia.
  rewrite parse_any_group by (assumption || (rewrite ?S5, ?size_app; reflexivity || lia)).
  rewrite S5. destruct (hex_value g5) as [b5|] eqn:E5; [|reflexivity]. apply hex_value_size in E5 as (Z5 & _).
  replace (0 + 8 + 1 + 4 + 1 + 4 + 1 + 4 + 1 + 12) with 36 by lia.
  assert (forall m o, uuid_parse_loop m 36 o = Ret (Ok o)) as -> by (intros [|]; reflexivity). cbn [bind].
  rewrite <- !app_assoc.
  replace (16 - length (b1 ++ b2 ++ b3 ++ b4 ++ b5))%nat with 0%nat.
  2:{ rewrite !app_length. unfold size in *. lia. }
  cbn [repeat]. now rewrite app_nil_r.
Qed.

(** A text with the four dashes in place is grouped. *)
Lemma Forall_nth0 (P : N -> Prop) l : (forall i, (i < length l)%nat -> P (nth i l 0)) -> Forall P l.
Proof. intros H. apply Forall_forall. intros x Hx. apply (In_nth l x 0) in Hx as (n & Hn & <-). auto. Qed.

Lemma nth_firstn_skipn (l : list N) a n i : (i < n)%nat -> nth i (firstn n (skipn a l)) 0 = nth (a + i) l 0.
Proof.
  revert a n i. induction l as [|x l IH]; intros a n i H.
  - rewrite skipn_nil, firstn_nil. assert (forall j, nth j (@nil N) 0 = 0) as Z by (intros [|]; reflexivity). now rewrite !Z.
  - destruct a as [|a].
    + cbn [skipn Nat.add]. destruct n as [|n]; [lia|]. destruct i as [|i]; [reflexivity|]. cbn [firstn nth].
      specialize (IH 0%nat n i). cbn [skipn Nat.add] in IH. apply IH. lia.
    + cbn [skipn Nat.add nth]. apply IH. assumption.
Qed.

Lemma dash_positions_grouped t : ascii7 t -> dash_positions t ->
  exists g1 g2 g3 g4 g5, t = grouped g1 g2 g3 g4 g5 /\
    group_ok 8 g1 /\ group_ok 4 g2 /\ group_ok 4 g3 /\ group_ok 4 g4 /\ group_ok 12 g5.
Proof.
  intros F (L & D).
  assert (forall a n, (a + n <= 36)%nat -> (forall i, (i < n)%nat -> ~ In (a + i)%nat [8; 13; 18; 23]%nat) ->
    group_ok (N.of_nat n) (firstn n (skipn a t))) as G.
  { intros a n H1 H2. assert (length (firstn n (skipn a t)) = n) as Ln by (rewrite firstn_length, skipn_length; lia).
    split; [unfold size; lia|]. split.
    - unfold ascii7 in *. apply Forall_forall. intros x Hx. rewrite Forall_forall in F. apply F. revert Hx. rewrite <- (firstn_skipn a t) at 2. intros Hx. apply in_or_app. right. rewrite <- (firstn_skipn n (skipn a t)). apply in_or_app. now left.
    - apply Forall_nth0. intros i Hi. rewrite Ln in Hi. rewrite nth_firstn_skipn by assumption.
      intros E. apply D in E; [|lia]. now apply (H2 i Hi). }
  exists (firstn 8 (skipn 0 t)), (firstn 4 (skipn 9 t)), (firstn 4 (skipn 14 t)), (firstn 4 (skipn 19 t)), (firstn 12 (skipn 24 t)).
  split.
  - assert (nth 8 t 0 = 45) as E8 by (apply D; [lia|cbn; tauto]).
    assert (nth 13 t 0 = 45) as E13 by (apply D; [lia|cbn; tauto]).
    assert (nth 18 t 0 = 45) as E18 by (apply D; [lia|cbn; tauto]).
    assert (nth 23 t 0 = 45) as E23 by (apply D; [lia|cbn; tauto]).
    clear F D G. do 36 (destruct t as [|? t]; [discriminate L|]). destruct t; [|discriminate L].
    cbn [nth] in E8, E13, E18, E23. subst. reflexivity.
  - repeat split; try (apply (G 0 8)%nat || apply (G 9 4)%nat || apply (G 14 4)%nat || apply (G 19 4)%nat || apply (G 24 12)%nat); try lia.
    all: intros i Hi; cbn [In]; lia.
Qed.

Lemma lower_digit c v : digit_value c = Some v -> hex_digit v = lower c.
Proof.
  intros E. assert (c < 256) as Hc by (apply digit_value_lt in E; lia).
  set (f := fun c => match digit_value c with Some v => hex_digit v =? lower c | None => true end).
  assert (f c = true) as H by (revert c E Hc; intros c _; revert c; apply byte_sweep; vm_compute; reflexivity).
  unfold f in H. rewrite E in H. now apply N.eqb_eq.
Qed.

Lemma hex_text_lower g : forall bs, hex_value g = Some bs -> hex_text bs = map lower g.
Proof.
  induction g as [|a|a b g IH] using pair_ind; intros bs E; cbn [hex_value] in E.
  - injection E as <-. reflexivity.
  - discriminate.
  - destruct (digit_value a) as [h|] eqn:Ea; [|discriminate]. destruct (digit_value b) as [l|] eqn:Eb; [|discriminate].
    destruct (hex_value g) as [r|]; [|discriminate]. assert (bs = (16 * h + l) :: r) as -> by congruence. clear E.
    pose proof (digit_value_lt _ _ Ea) as (H1 & _). pose proof (digit_value_lt _ _ Eb) as (H2 & _).
    unfold hex_text in *. cbn [flat_map app map]. rewrite (IH r eq_refl).
    replace ((16 * h + l) / 16) with h by lia. replace ((16 * h + l) mod 16) with l by lia.
    rewrite (lower_digit a h), (lower_digit b l) by assumption. reflexivity.
Qed.

Lemma grouped_text g1 g2 g3 g4 g5 bs :
  group_ok 8 g1 -> group_ok 4 g2 -> group_ok 4 g3 -> group_ok 4 g4 -> group_ok 12 g5 ->
  hex_value (g1 ++ g2 ++ g3 ++ g4 ++ g5) = Some bs ->
  is_uuid bs /\ uuid_text bs = map lower (grouped g1 g2 g3 g4 g5).
Proof.
  intros (S1 & _) (S2 & _) (S3 & _) (S4 & _) (S5 & _) E.
  pose proof (hex_value_size _ _ E) as (Z & B). rewrite !size_app, S1, S2, S3, S4, S5 in Z.
  split; [split; [unfold size in Z; lia|assumption]|].
  repeat rewrite hex_value_app in E by (rewrite ?S1, ?S2, ?S3, ?S4; reflexivity).
  destruct (hex_value g1) as [b1|] eqn:E1; [|discriminate]. destruct (hex_value g2) as [b2|] eqn:E2; [|discriminate].
  destruct (hex_value g3) as [b3|] eqn:E3; [|discriminate]. destruct (hex_value g4) as [b4|] eqn:E4; [|discriminate].
  destruct (hex_value g5) as [b5|] eqn:E5; [|discriminate]. injection E as <-.
  pose proof (hex_value_size _ _ E1) as (Z1 & _). pose proof (hex_value_size _ _ E2) as (Z2 & _).
  pose proof (hex_value_size _ _ E3) as (Z3 & _). pose proof (hex_value_size _ _ E4) as (Z4 & _).
  pose proof (hex_value_size _ _ E5) as (Z5 & _).
  unfold grouped, uuid_text. rewrite !map_app.
  rewrite <- (hex_text_lower _ _ E1), <- (hex_text_lower _ _ E2), <- (hex_text_lower _ _ E3),
          <- (hex_text_lower _ _ E4), <- (hex_text_lower _ _ E5).
  change (map lower [45]) with [45].
  assert (forall l m r, section (l ++ m ++ r) (size l) (size m) = m) as SM.
  { intros l m r. rewrite section_spec, ndrop_app_exact. apply ntake_app_exact. }
  assert (section (b1 ++ b2 ++ b3 ++ b4 ++ b5) 0 4 = b1) as ->.
  { replace 4 with (size b1) by lia. apply (SM [] b1). }
  assert (section (b1 ++ b2 ++ b3 ++ b4 ++ b5) 4 2 = b2) as ->.
  { replace 4 with (size b1) by lia. replace 2 with (size b2) by lia. apply (SM b1 b2). }
  assert (section (b1 ++ b2 ++ b3 ++ b4 ++ b5) 6 2 = b3) as ->.
  { rewrite (app_assoc b1 b2). replace 6 with (size (b1 ++ b2)) by (rewrite size_app; lia).
    replace 2 with (size b3) by lia. apply (SM _ b3). }
  assert (section (b1 ++ b2 ++ b3 ++ b4 ++ b5) 8 2 = b4) as ->.
  { rewrite (app_assoc b2 b3), (app_assoc b1 _). replace 8 with (size (b1 ++ b2 ++ b3)) by (rewrite !size_app; lia).
    replace 2 with (size b4) by lia. apply (SM _ b4). }
  assert (section (b1 ++ b2 ++ b3 ++ b4 ++ b5) 10 6 = b5) as ->.
  { replace (b1 ++ b2 ++ b3 ++ b4 ++ b5) with ((b1 ++ b2 ++ b3 ++ b4) ++ b5 ++ []) by (rewrite app_nil_r, <- !app_assoc; reflexivity).
    replace 10 with (size (b1 ++ b2 ++ b3 ++ b4)) by (rewrite !size_app; lia). replace 6 with (size b5) by lia. apply SM. }
  reflexivity.
Qed.

Lemma filter_grouped g1 g2 g3 g4 g5 :
  group_ok 8 g1 -> group_ok 4 g2 -> group_ok 4 g3 -> group_ok 4 g4 -> group_ok 12 g5 ->
  filter (fun c => negb (c =? 45)) (grouped g1 g2 g3 g4 g5) = g1 ++ g2 ++ g3 ++ g4 ++ g5.
Proof.
  assert (forall n g, group_ok n g -> filter (fun c => negb (c =? 45)) g = g) as K.
  { intros n g (_ & _ & D). induction D as [|c g Hc _ IH]; [reflexivity|]. cbn.
    destruct (N.eqb_spec c 45); [lia|]. cbn. now rewrite IH. }
  intros. unfold grouped. rewrite !filter_app.
  rewrite (K 8 g1), (K 4 g2), (K 4 g3), (K 4 g4), (K 12 g5) by assumption. reflexivity.
Qed.

(** The canonical text parses to its UUID. *)
Lemma hex_group u a n : is_uuid u -> a + n <= 16 -> group_ok (2 * n) (hex_text (section u a n)).
Proof.
  intros (L & B) H. assert (bytes_ok (section u a n)) as Bs by now apply bytes_ok_section.
  split; [rewrite size_hex_text, size_section; [reflexivity|unfold size; lia]|]. split; [now apply hex_text_ascii|].
  revert Bs. generalize (section u a n). unfold hex_text. induction 1 as [|b l Hb _ IH]; [constructor|].
  unfold is_byte in Hb. assert (forall d, d < 16 -> hex_digit d <> 45) as K.
  { intros d Hd. unfold hex_digit. destruct (d <? 10); lia. }
  cbn [flat_map app]. repeat apply Forall_cons; auto; apply K; lia.
Qed.

Lemma section_join (u : list N) a n m : section u a n ++ section u (a + n) m = section u a (n + m).
Proof.
  rewrite !section_spec. rewrite <- ndrop_ndrop. generalize (ndrop a u). clear. intros l.
  rewrite !ntake_firstn, ndrop_skipn, N2Nat.inj_add. generalize (N.to_nat n). intros k. revert l.
  induction k as [|k IH]; intros l; [reflexivity|]. destruct l as [|x l]; cbn; [now rewrite firstn_nil|]. now rewrite IH.
Qed.

Lemma parse_text u after : is_uuid u -> uuid_parse (uuid_text u) after = Ret (Ok (map Some u)).
Proof.
  intros H. pose proof H as (L & B).
  change (uuid_text u) with (grouped (hex_text (section u 0 4)) (hex_text (section u 4 2)) (hex_text (section u 6 2))
     (hex_text (section u 8 2)) (hex_text (section u 10 6))).
  rewrite parse_grouped; [|apply (hex_group u 0 4 H); lia|apply (hex_group u 4 2 H); lia|apply (hex_group u 6 2 H); lia|apply (hex_group u 8 2 H); lia|apply (hex_group u 10 6 H); lia].
  repeat rewrite hex_value_app by (rewrite size_hex_text, size_section by (unfold size; lia); reflexivity).
  rewrite !hex_value_text by now apply bytes_ok_section.
  do 3 f_equal. change 10 with (8 + 2). rewrite section_join. change 8 with (6 + 2) at 1. rewrite section_join.
  change 6 with (4 + 2) at 1. rewrite section_join. change 4 with (0 + 4) at 2. rewrite section_join.
  rewrite section_spec, ndrop_0. apply ntake_all. unfold size. lia.
Qed.

(** ** Construction *)

Lemma uuid_copy_spec mem v k : forall i, valid mem v -> i + N.of_nat k <= v_size v ->
  uuid_copy mem v k i = Ret (section (contents mem v) i (N.of_nat k)).
Proof.
  induction k as [|k IH]; intros i V L; cbn [uuid_copy].
  - rewrite section_spec. change (N.of_nat 0) with 0. now rewrite ntake_0.
  - assert (i < size (contents mem v)) as Hi.
    { rewrite (size_contents mem v V). lia. }
    rewrite index_spec by assumption. destruct (nnth_lt_Some _ _ Hi) as (b & Eb). rewrite Eb. cbn [bind].
    rewrite IH by (assumption || lia). cbn [bind]. f_equal.
    rewrite Nat2N.inj_succ. rewrite <- (N.add_1_l (N.of_nat k)). rewrite <- section_join.
    rewrite (section_spec _ i 1). rewrite nnth_nth_error in Eb. clear - Eb.
    rewrite ndrop_skipn. generalize dependent (N.to_nat i). generalize (contents mem v). intros l n E.
    assert (skipn n l = b :: skipn (S n) l) as ->; [|cbn; now rewrite ntake_0].
    revert l E. induction n as [|n IH]; intros [|x l] E; try discriminate; cbn in *; [congruence|]. now apply IH.
Qed.
