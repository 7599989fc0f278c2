From Verif Require Import Base BaseLemmas MemViewModel MemViewSpec MemViewProofs ByteIOModel ByteIOSpec ByteIOProofs.
From Verif Require Import Base16Model Base16Spec Base16Proofs Base64Model Base64Spec Base64Proofs CodecSpec.

Lemma firstn_front {A} (c t : list A) k n : length c = k -> firstn (k + n) (c ++ t) = c ++ firstn n t.
Proof. intros <-. apply firstn_app_2. Qed.

Lemma skipn_front {A} (c t : list A) k n : length c = k -> skipn (k + n) (c ++ t) = skipn n t.
Proof.
  intros <-. rewrite skipn_app. replace (length c + n - length c)%nat with n by lia.
  rewrite (skipn_all2 c) by lia. reflexivity.
Qed.

Lemma write_piece w c : winv w -> size c < 2 ^ 64 ->
  w_write w c = Ret (if size c <=? room w then (Ok tt, append w c) else (Err E_Overflow, refused w c)).
Proof.
  intros I Sc. pose proof I as (H1 & H2 & H3). rewrite w_write_spec by assumption. unfold room, refused.
  destruct (N.leb_spec (w_pos w + size c) (w_lim w)), (N.leb_spec (size c) (w_lim w - w_pos w)); try lia; [reflexivity|].
  destruct (N.ltb_spec (size (w_buf w)) (w_pos w + size c)), (N.leb_spec (w_pos w + size c) (size (w_buf w))); try lia; reflexivity.
Qed.

Lemma room_append w c : winv w -> size c <= room w -> room (append w c) = room w - size c.
Proof. intros (H1 & H2 & H3) L. unfold room in *. cbn [append w_pos w_lim]. lia. Qed.

Lemma in_pieces_nil k w : winv w -> in_pieces k w [] = (Ok tt, w).
Proof.
  intros (H1 & H2 & H3). unfold in_pieces. rewrite (@size_nil N).
  destruct (N.leb_spec 0 (room w)); [|lia].
  change (appended w []) with (append w []). rewrite append_nil by lia. reflexivity.
Qed.

Lemma in_pieces_cons k w c t : winv w -> k <> 0 -> size c = k ->
  in_pieces k w (c ++ t) =
  if k <=? room w then in_pieces k (append w c) t else (Err E_Overflow, refused w c).
Proof.
  intros I K Sc. pose proof I as (H1 & H2 & H3).
  assert (length c = N.to_nat k) as Lc by (unfold size in Sc; lia).
  unfold in_pieces. rewrite size_app, Sc.
  destruct (N.leb_spec k (room w)) as [R|R].
  - rewrite (room_append w c) by (assumption || lia). rewrite Sc.
    destruct (N.leb_spec (k + size t) (room w)) as [A|A], (N.leb_spec (size t) (room w - k)) as [B|B]; try lia.
    + change appended with append. rewrite append_app; [reflexivity|]. unfold room in *. lia.
    + f_equal.
      assert (room w / k = 1 + (room w - k) / k) as Q.
      { replace (room w) with ((room w - k) + 1 * k) at 1 by lia. rewrite N.div_add by assumption. lia. }
      rewrite Q, N.mul_add_distr_l, N.mul_1_r, N2Nat.inj_add.
      rewrite firstn_front, skipn_front by assumption.
      change appended with append. rewrite append_app; [reflexivity|].
      assert (k * ((room w - k) / k) <= room w - k) as M by (apply N.mul_div_le; assumption).
      assert (size (firstn (N.to_nat (k * ((room w - k) / k))) t) <= room w - k) as M2.
      { unfold size. rewrite firstn_length. lia. }
      unfold room in *. lia.
  - destruct (N.leb_spec (k + size t) (room w)); [lia|].
    rewrite N.div_small by assumption. rewrite N.mul_0_r. change (N.to_nat 0) with 0%nat. cbn [firstn skipn].
    change (appended w []) with (append w []). rewrite append_nil by lia.
    rewrite <- Lc, firstn_app, Nat.sub_diag, firstn_all. cbn [firstn]. rewrite app_nil_r. reflexivity.
Qed.

(** One round of the loops of the encoders. *)
Lemma round_pieces k w c t (go : writer -> outcome (result unit * writer)) : winv w -> k <> 0 -> k < 2 ^ 64 -> size c = k ->
  (winv (append w c) -> go (append w c) = Ret (in_pieces k (append w c) t)) ->
  (let! res := w_write w c in
   match res with (Ok _, d) => go d | (Err e, d) => Ret (Err e, d) end) = Ret (in_pieces k w (c ++ t)).
Proof.
  intros I K K2 Sc G. rewrite write_piece by (assumption || lia). rewrite in_pieces_cons by assumption. cbn [bind].
  rewrite Sc. destruct (N.leb_spec k (room w)) as [R|R]; [|reflexivity].
  apply G. pose proof I as (H1 & H2 & H3). apply append_inv; [assumption|]. unfold room in R. lia.
Qed.

Lemma b16_encode_pieces src : forall w, winv w -> bytes_ok src ->
  b16_encode w src = Ret (in_pieces 2 w (hex_text src)).
Proof.
  induction src as [|b t IH]; intros w I F.
  - cbn [b16_encode]. change (hex_text []) with (@nil N). rewrite in_pieces_nil by assumption. reflexivity.
  - inversion F as [|? ? F1 F2]; subst. cbn [b16_encode].
    rewrite b16_pair_spec by assumption. cbn [bind].
    change (hex_text (b :: t)) with ([hex_digit (b / 16); hex_digit (b mod 16)] ++ hex_text t).
    apply (round_pieces 2 w [hex_digit (b / 16); hex_digit (b mod 16)] (hex_text t) (fun d => b16_encode d t));
      [assumption|lia|lia|reflexivity|]. intros I'. now apply IH.
Qed.

Lemma b16_decode_loop_pieces src : forall w, winv w -> bytes_ok src -> size src mod 2 = 0 ->
  b16_decode_loop w src =
    if room w <? size (hex_prefix src) then Ret (in_pieces 1 w (hex_prefix src))
    else if size src =? 2 * size (hex_prefix src) then Ret (Ok tt, appended w (hex_prefix src))
    else if existsb (fun c => 128 <=? c) (firstn 2 (skipn (2 * length (hex_prefix src)) src)) then UB
    else Ret (Err E_ILSEQ, appended w (hex_prefix src)).
Proof.
  change appended with append.
  induction src as [|a|a b t IH] using pair_ind; intros w I F E; pose proof I as (H1 & H2 & H3).
  - cbn [hex_prefix b16_decode_loop length]. rewrite (@size_nil N). destruct (N.ltb_spec (room w) 0); [lia|].
    change (0 =? 2 * 0) with true. cbn iota. rewrite append_nil by lia. reflexivity.
  - discriminate E.
  - inversion F as [|? ? Fa F']; subst. inversion F' as [|? ? Fb Ft]; subst. unfold is_byte in Fa, Fb.
    assert (size t mod 2 = 0) as Et.
    { assert (size (a :: b :: t) = size t + 1 * 2) as X by (rewrite !size_cons; lia).
      rewrite X, N.mod_add in E by lia. exact E. }
    cbn [b16_decode_loop hex_prefix].
    assert (Z1 : room w <? 0 = false) by (apply N.ltb_ge; lia).
    assert (Z2 : size (a :: b :: t) =? 2 * 0 = false) by (apply N.eqb_neq; rewrite !size_cons; lia).
    destruct (N.le_gt_cases 128 a) as [A|A].
    { rewrite charToBin_high by assumption. cbn [bind].
      destruct (digit_value a) as [h|] eqn:Da; [apply digit_value_lt in Da; lia|].
      change (2 * length (@nil N))%nat with 0%nat. rewrite (@size_nil N), Z1, Z2. cbn [skipn firstn existsb].
      destruct (N.leb_spec 128 a); [|lia]. reflexivity. }
    rewrite charToBin_spec by assumption.
    assert (128 <=? a = false) as Ha by (apply N.leb_gt; lia).
    destruct (N.le_gt_cases 128 b) as [B|B].
    { rewrite (charToBin_high b) by assumption.
      assert (digit_value b = None) as Db by (destruct (digit_value b) as [h|] eqn:Db; [apply digit_value_lt in Db; lia|reflexivity]).
      rewrite Db. assert (128 <=? b = true) as Hb by now apply N.leb_le.
      destruct (digit_value a) as [h|]; cbn [bind];
        change (2 * length (@nil N))%nat with 0%nat; rewrite (@size_nil N), Z1, Z2; cbn [skipn firstn existsb]; rewrite Ha, Hb; reflexivity. }
    rewrite (charToBin_spec b) by assumption.
    assert (128 <=? b = false) as Hb by (apply N.leb_gt; lia).
    destruct (digit_value a) as [h|] eqn:Da.
    2:{ destruct (digit_value b) as [l|]; cbn [bind];
        change (2 * length (@nil N))%nat with 0%nat; rewrite (@size_nil N), Z1, Z2; cbn [skipn firstn existsb]; rewrite Ha, Hb; cbn [orb];
        rewrite append_nil by lia; reflexivity. }
    destruct (digit_value b) as [l|] eqn:Db.
    2:{ cbn [bind];
        change (2 * length (@nil N))%nat with 0%nat; rewrite (@size_nil N), Z1, Z2; cbn [skipn firstn existsb]; rewrite Ha, Hb; cbn [orb];
        rewrite append_nil by lia; reflexivity. }
    cbn [bind]. apply digit_value_lt in Da, Db. rewrite shift_add by tauto.
    set (v := 16 * h + l). rewrite write_piece by (try assumption; reflexivity).
    change (size [v]) with 1. cbn [bind].
    change (v :: hex_prefix t) with ([v] ++ hex_prefix t). rewrite in_pieces_cons by (try assumption; try reflexivity; lia).
    rewrite size_app, app_length, (size_cons a), (size_cons b). change (size [v]) with 1. change (length [v]) with 1%nat.
    destruct (N.leb_spec 1 (room w)) as [R|R].
    2:{ destruct (N.ltb_spec (room w) (1 + size (hex_prefix t))); [reflexivity|lia]. }
    assert (winv (append w [v])) as I'.
    { apply append_inv; [assumption|]. change (size [v]) with 1. unfold room in R. lia. }
    rewrite IH by assumption. rewrite room_append by (try assumption; exact R). change (size [v]) with 1.
    replace (2 * (1 + length (hex_prefix t)))%nat with (S (S (2 * length (hex_prefix t)))) by lia. cbn [skipn].
    destruct (N.ltb_spec (room w - 1) (size (hex_prefix t))), (N.ltb_spec (room w) (1 + size (hex_prefix t))); try lia; [reflexivity|].
    rewrite append_app by (change (size [v]) with 1; unfold room in *; lia).
    destruct (N.eqb_spec (size t) (2 * size (hex_prefix t))), (N.eqb_spec (size t + 1 + 1) (2 * (1 + size (hex_prefix t)))); try lia; reflexivity.
Qed.

Lemma b64_encode_pieces url src : forall w, winv w -> bytes_ok src ->
  b64_encode url w src = Ret (in_pieces 4 w (b64_text url src)).
Proof.
  unfold b64_encode.
  induction src as [|a|a b|a b c l IH] using triple_ind; intros w I F.
  - cbn [base64encode]. change (b64_text url []) with (@nil N). rewrite in_pieces_nil by assumption. reflexivity.
  - inversion F as [|? ? Fa _]; subst. unfold is_byte in Fa.
    assert (0 < 256) as F0 by lia. pose proof (enc1 a 0 Fa F0) as E1.
    change (N.shiftr (N.land 0 0xF0) 4) with 0 in E1. rewrite N.lor_0_r in E1.
    cbn [base64encode]. rewrite (enc0 a) by assumption. rewrite E1.
    rewrite !at_alphabet by apply bits_value6_lt. cbn [bind].
    rewrite b64_text_eq, sx1. cbn [map].
    match goal with |- _ = Ret (in_pieces 4 w ?x) => change x with (x ++ []) end.
    apply (round_pieces 4 w _ [] (fun d => Ret (Ok tt, d))); [assumption|lia|lia|reflexivity|].
    intros I'. rewrite in_pieces_nil by assumption. reflexivity.
  - inversion F as [|? ? Fa F']; subst. inversion F' as [|? ? Fb _]; subst. unfold is_byte in Fa, Fb.
    assert (0 < 256) as F0 by lia. pose proof (enc2 b 0 Fb F0) as E2.
    change (N.shiftr (N.land 0 0xC0) 6) with 0 in E2. rewrite N.lor_0_r in E2.
    cbn [base64encode]. rewrite (enc0 a), (enc1 a b) by assumption. rewrite E2.
    rewrite !at_alphabet by apply bits_value6_lt. cbn [bind].
    rewrite b64_text_eq, sx2. cbn [map].
    match goal with |- _ = Ret (in_pieces 4 w ?x) => change x with (x ++ []) end.
    apply (round_pieces 4 w _ [] (fun d => Ret (Ok tt, d))); [assumption|lia|lia|reflexivity|].
    intros I'. rewrite in_pieces_nil by assumption. reflexivity.
  - inversion F as [|? ? Fa F']; subst. inversion F' as [|? ? Fb F'']; subst.
    inversion F'' as [|? ? Fc Fl]; subst. unfold is_byte in Fa, Fb, Fc.
    cbn [base64encode]. rewrite (enc0 a), (enc1 a b), (enc2 b c), (enc3 c) by assumption.
    rewrite !at_alphabet by apply bits_value6_lt. cbn [bind].
    rewrite b64_text3. cbn [map].
    apply (round_pieces 4 w _ (b64_text url l) (fun d => base64encode d l (alphabet_of url))); [assumption|lia|lia|reflexivity|].
    intros I'. now apply IH.
Qed.

Lemma b64_tail_pieces url vs buf w : starts url vs buf -> size vs <= 4 -> winv w ->
  b64_tail w buf (size vs) (table_of url) = Ret (in_pieces 1 w (sextet_bytes vs)).
Proof.
  intros S L I. pose proof I as (H1 & H2 & H3). pose proof (starts_lt _ _ _ S) as F.
  pose proof (fun v => starts_at url vs buf 0 v S) as A0.
  pose proof (fun v => starts_at url vs buf 1 v S) as A1.
  pose proof (fun v => starts_at url vs buf 2 v S) as A2.
  pose proof (fun v => starts_at url vs buf 3 v S) as A3.
  assert (forall w x, winv w -> room w = room w -> 1 <= room w -> winv (append w [x])) as AI.
  { intros w0 x I0 _ R. pose proof I0 as (G1 & G2 & G3). apply append_inv; [assumption|]. change (size [x]) with 1. unfold room in R. lia. }
  destruct vs as [|a [|b [|c [|d [|e vs]]]]].
  - change (sextet_bytes []) with (@nil N). rewrite in_pieces_nil by assumption. reflexivity.
  - change (sextet_bytes [a]) with (@nil N). rewrite in_pieces_nil by assumption. reflexivity.
  - assert (sextet_bytes [a; b] = [bits_value [tb a 5; tb a 4; tb a 3; tb a 2; tb a 1; tb a 0; tb b 5; tb b 4]]) as E by reflexivity.
    rewrite E. inversion F as [|? ? Fa F1]; subst. inversion F1 as [|? ? Fb F2]; subst.
    unfold b64_tail. change (1 <? size [a; b]) with true. change (2 <? size [a; b]) with false.
    change (3 <? size [a; b]) with false. cbn iota.
    rewrite (A0 a), (A1 b) by reflexivity. cbn [bind]. rewrite dec0 by assumption.
    generalize (bits_value [tb a 5; tb a 4; tb a 3; tb a 2; tb a 1; tb a 0; tb b 5; tb b 4]). intros p.
    rewrite write_piece by (try assumption; reflexivity). change (size [p]) with 1.
    change (in_pieces 1 w [p]) with (in_pieces 1 w ([p] ++ [])). rewrite in_pieces_cons by (try assumption; try reflexivity; lia).
    destruct (N.leb_spec 1 (room w)) as [R|R]; cbn [bind]; [|reflexivity].
    rewrite in_pieces_nil by auto. reflexivity.
  - assert (sextet_bytes [a; b; c] = [bits_value [tb a 5; tb a 4; tb a 3; tb a 2; tb a 1; tb a 0; tb b 5; tb b 4]]
        ++ [bits_value [tb b 3; tb b 2; tb b 1; tb b 0; tb c 5; tb c 4; tb c 3; tb c 2]] ++ []) as E by reflexivity.
    rewrite E.
    inversion F as [|? ? Fa F1]; subst. inversion F1 as [|? ? Fb F2]; subst. inversion F2 as [|? ? Fc F3]; subst.
    unfold b64_tail. change (1 <? size [a; b; c]) with true. change (2 <? size [a; b; c]) with true.
    change (3 <? size [a; b; c]) with false. cbn iota.
    rewrite (A0 a), (A1 b), (A2 c) by reflexivity. cbn [bind]. rewrite dec0, dec1 by assumption.
    generalize (bits_value [tb a 5; tb a 4; tb a 3; tb a 2; tb a 1; tb a 0; tb b 5; tb b 4]). intros p.
    generalize (bits_value [tb b 3; tb b 2; tb b 1; tb b 0; tb c 5; tb c 4; tb c 3; tb c 2]). intros q.
    rewrite write_piece by (try assumption; reflexivity). change (size [p]) with 1.
    rewrite in_pieces_cons by (try assumption; try reflexivity; lia).
    destruct (N.leb_spec 1 (room w)) as [R|R]; cbn [bind]; [|reflexivity].
    assert (winv (append w [p])) as Ip by auto.
    rewrite write_piece by (try assumption; reflexivity). change (size [q]) with 1.
    rewrite in_pieces_cons by (try assumption; try reflexivity; lia).
    destruct (N.leb_spec 1 (room (append w [p]))) as [R1|R1]; cbn [bind]; [|reflexivity].
    rewrite in_pieces_nil by auto. reflexivity.
  - assert (sextet_bytes [a; b; c; d] = [bits_value [tb a 5; tb a 4; tb a 3; tb a 2; tb a 1; tb a 0; tb b 5; tb b 4]]
        ++ [bits_value [tb b 3; tb b 2; tb b 1; tb b 0; tb c 5; tb c 4; tb c 3; tb c 2]]
        ++ [bits_value [tb c 1; tb c 0; tb d 5; tb d 4; tb d 3; tb d 2; tb d 1; tb d 0]] ++ []) as E by reflexivity.
    rewrite E.
    inversion F as [|? ? Fa F1]; subst. inversion F1 as [|? ? Fb F2]; subst. inversion F2 as [|? ? Fc F3]; subst.
    inversion F3 as [|? ? Fd F4]; subst.
    unfold b64_tail. change (1 <? size [a; b; c; d]) with true. change (2 <? size [a; b; c; d]) with true.
    change (3 <? size [a; b; c; d]) with true. cbn iota.
    rewrite (A0 a), (A1 b), (A2 c), (A3 d) by reflexivity. cbn [bind]. rewrite dec0, dec1, dec2 by assumption.
    generalize (bits_value [tb a 5; tb a 4; tb a 3; tb a 2; tb a 1; tb a 0; tb b 5; tb b 4]). intros p.
    generalize (bits_value [tb b 3; tb b 2; tb b 1; tb b 0; tb c 5; tb c 4; tb c 3; tb c 2]). intros q.
    generalize (bits_value [tb c 1; tb c 0; tb d 5; tb d 4; tb d 3; tb d 2; tb d 1; tb d 0]). intros r.
    rewrite write_piece by (try assumption; reflexivity). change (size [p]) with 1.
    rewrite in_pieces_cons by (try assumption; try reflexivity; lia).
    destruct (N.leb_spec 1 (room w)) as [R|R]; cbn [bind]; [|reflexivity].
    assert (winv (append w [p])) as Ip by auto.
    rewrite write_piece by (try assumption; reflexivity). change (size [q]) with 1.
    rewrite in_pieces_cons by (try assumption; try reflexivity; lia).
    destruct (N.leb_spec 1 (room (append w [p]))) as [R1|R1]; cbn [bind]; [|reflexivity].
    assert (winv (append (append w [p]) [q])) as Iq by auto.
    rewrite write_piece by (try assumption; reflexivity). change (size [r]) with 1.
    rewrite in_pieces_cons by (try assumption; try reflexivity; lia).
    destruct (N.leb_spec 1 (room (append (append w [p]) [q]))) as [R2|R2]; cbn [bind]; [|reflexivity].
    rewrite in_pieces_nil by auto. reflexivity.
  - rewrite !size_cons in L. lia.
Qed.

Lemma grouped_small vs : size vs <= 4 -> grouped vs = 0%nat.
Proof. intros L. unfold grouped. rewrite N.div_small by lia. reflexivity. Qed.

Lemma grouped_more a b c d vs : vs <> [] -> grouped (a :: b :: c :: d :: vs) = (3 + grouped vs)%nat.
Proof.
  intros H. unfold grouped. rewrite !size_cons. destruct vs as [|v vs]; [congruence|]. rewrite size_cons.
  replace (size vs + 1 + 1 + 1 + 1 + 1 - 1) with ((size vs + 1 - 1) + 1 * 4) by lia.
  rewrite N.div_add by lia. lia.
Qed.

Lemma b64_loop_pieces url : forall (k : nat) vs buf w, (length vs <= k)%nat -> starts url vs buf -> winv w ->
  b64_loop w buf (size vs) (table_of url) =
  Ret (then_pieces (in_pieces 3 w (firstn (grouped vs) (sextet_bytes vs))) 1 (skipn (grouped vs) (sextet_bytes vs))).
Proof.
  induction k as [|k IH]; intros vs buf w K S I.
  - destruct vs; [|cbn in K; lia]. change (sextet_bytes []) with (@nil N). change (grouped []) with 0%nat. cbn [firstn skipn].
    rewrite in_pieces_nil by assumption. cbn [then_pieces]. rewrite in_pieces_nil by assumption.
    destruct buf as [|? [|? [|? [|? ?]]]]; reflexivity.
  - destruct (N.lt_ge_cases 4 (size vs)) as [G|G].
    2:{ assert (b64_loop w buf (size vs) (table_of url) = b64_tail w buf (size vs) (table_of url)) as ->.
        { destruct buf; cbn [b64_loop]; destruct (N.ltb_spec 4 (size vs)); try lia; reflexivity. }
        rewrite grouped_small by assumption. cbn [firstn skipn]. rewrite in_pieces_nil by assumption. cbn [then_pieces].
        now apply b64_tail_pieces. }
    destruct S as [|a vs c0 buf C0 V0 S]; [cbn in G; lia|].
    destruct S as [|b vs c1 buf C1 V1 S]; [cbn in G; lia|].
    destruct S as [|c vs c2 buf C2 V2 S]; [cbn in G; lia|].
    destruct S as [|d vs c3 buf C3 V3 S]; [cbn in G; lia|].
    assert (vs <> []) as NE by (intros ->; cbn in G; lia).
    rewrite grouped_more by assumption.
    rewrite sextet_bytes4.
    pose proof (b64_value_lt _ _ _ V0). pose proof (b64_value_lt _ _ _ V1).
    pose proof (b64_value_lt _ _ _ V2). pose proof (b64_value_lt _ _ _ V3).
    cbn [b64_loop]. destruct (N.ltb_spec 4 (size (a :: b :: c :: d :: vs))); [|lia].
    rewrite !at_table, V0, V1, V2, V3 by assumption. cbn [bind].
    rewrite dec0, dec1, dec2 by assumption.
    cbn [Nat.add firstn skipn].
    match goal with |- context [w_write w [?x; ?y; ?z]] => generalize x, y, z; intros p q r end.
    replace (size (a :: b :: c :: d :: vs) - 4) with (size vs) by (rewrite !size_cons; lia).
    rewrite write_piece by (try assumption; reflexivity). change (size [p; q; r]) with 3.
    match goal with |- context [in_pieces 3 w (p :: q :: r :: ?l)] => change (p :: q :: r :: l) with ([p; q; r] ++ l) end.
    rewrite in_pieces_cons by (try assumption; try reflexivity; lia).
    destruct (N.leb_spec 3 (room w)) as [R|R]; cbn [bind]; [|reflexivity].
    apply IH; [cbn in K; lia|assumption|].
    pose proof I as (H1' & H2' & H3'). apply append_inv; [assumption|]. change (size [p; q; r]) with 3. unfold room in R. lia.
Qed.

(** ** What is kept *)

Lemma written_eq w : contents (w_buf w) (w_viewWritten w) = ntake (w_pos w) (w_buf w).
Proof.
  unfold w_viewWritten. rewrite slice_contents by apply storage_valid.
  rewrite storage_contents, range_spec, ndrop_0, N.sub_0_r. reflexivity.
Qed.

Lemma refused_written w bs : winv w ->
  w_lim (refused w bs) = w_lim w /\ size (w_buf (refused w bs)) = size (w_buf w) /\
  w_pos (refused w bs) = w_pos w /\
  contents (w_buf (refused w bs)) (w_viewWritten (refused w bs)) = contents (w_buf w) (w_viewWritten w).
Proof.
  intros (H1 & H2 & H3). rewrite !written_eq. unfold refused.
  destruct (N.leb_spec (w_pos w + size bs) (size (w_buf w))) as [L|L]; [|auto]. cbn [w_lim w_buf w_pos].
  rewrite size_spliced by lia. repeat split.
  unfold spliced. rewrite !ntake_firstn.
  rewrite firstn_app, firstn_firstn, firstn_length, Nat.min_id.
  unfold size in *. replace (N.to_nat (w_pos w) - Nat.min (N.to_nat (w_pos w)) (length (w_buf w)))%nat with 0%nat by lia.
  cbn [firstn]. apply app_nil_r.
Qed.

Lemma in_pieces_kept k w t r w' : winv w -> k <> 0 -> in_pieces k w t = (r, w') ->
  w_lim w' = w_lim w /\ size (w_buf w') = size (w_buf w) /\
  (exists n, contents (w_buf w') (w_viewWritten w') = contents (w_buf w) (w_viewWritten w) ++ firstn n t) /\
  (r = Ok tt -> w' = append w t /\ size t <= room w).
Proof.
  intros I K E. pose proof I as (H1 & H2 & H3). unfold in_pieces in E.
  destruct (N.leb_spec (size t) (room w)) as [L|L]; injection E as <- <-.
  - change appended with append. unfold room in L. rewrite append_written by (assumption || lia).
    split; [reflexivity|]. split; [cbn [append w_buf]; rewrite size_spliced; lia|]. split.
    + exists (length t). now rewrite firstn_all.
    + intros _. split; [reflexivity|exact L].
  - set (n := N.to_nat (k * (room w / k))). change appended with append.
    assert (k * (room w / k) <= room w) as M by (apply N.mul_div_le; assumption).
    assert (size (firstn n t) <= room w) as M2.
    { unfold size. rewrite firstn_length. unfold n. lia. }
    unfold room in M2.
    assert (winv (append w (firstn n t))) as I' by (apply append_inv; [assumption|lia]).
    destruct (refused_written (append w (firstn n t)) (firstn (N.to_nat k) (skipn n t)) I') as (A & B & _ & C).
    rewrite A, B, C. rewrite append_written by (assumption || lia).
    split; [reflexivity|]. split; [cbn [append w_buf]; rewrite size_spliced; lia|]. split.
    + exists n. reflexivity.
    + discriminate.
Qed.
