From Verif Require Import Base BaseLemmas LexSpec LexProofs Base16Model Base16Spec Base16Proofs UUIDModel UUIDSpec UUIDProofs.
From Verif Require Import StringSpec StringModel StringViewModel StringViewProofs StringProofs StringProps.
From Verif Require Import FmtModel FmtSpec FmtProofs VersionModel VersionSpec VersionProofs ParseSpec.

(** ** UUID *)
Lemma token_inv t : token_ok t -> t = Dash \/ exists a b h l, t = Pair a b /\ digit_value a = Some h /\ digit_value b = Some l /\ token_bytes t = [16 * h + l].
Proof.
  destruct t as [|a b]; [auto|]. cbn. intros (A & B). right. destruct (digit_value a) as [h|] eqn:Ea; [|congruence].
  destruct (digit_value b) as [l|] eqn:Eb; [|congruence]. exists a, b, h, l. auto.
Qed.
Lemma loop_pair a b h l m i out : digit_value a = Some h -> digit_value b = Some l -> i < 36 -> size out < 16 ->
  uuid_parse_loop (a :: b :: m) i out = uuid_parse_loop m (i + 2) (out ++ [16 * h + l]).
Proof.
  intros Ea Eb L S. pose proof (digit_not_dash _ _ Ea). pose proof (digit_value_lt _ _ Ea) as (? & ?). pose proof (digit_value_lt _ _ Eb) as (? & ?).
  cbn [uuid_parse_loop]. destruct (N.ltb_spec i 36); [|lia]. destruct (N.eqb_spec a 45); [lia|].
  rewrite !charToBin_spec, Ea, Eb by assumption. cbn [bind]. destruct (N.leb_spec 16 (size out)); [lia|].
  assert (u8 (u8 (N.shiftl h 4) + u8 l) = 16 * h + l) as ->; [|reflexivity]. rewrite N.shiftl_mul_pow2. unfold u8. lia.
Qed.
Lemma loop_row ts : forall m i out, Forall token_ok ts -> i + size (row_text ts) <= 36 -> size out + size (row_bytes ts) <= 16 ->
  uuid_parse_loop (row_text ts ++ m) i out = uuid_parse_loop m (i + size (row_text ts)) (out ++ row_bytes ts).
Proof.
  induction ts as [|t ts IH]; intros m i out F L S.
  - cbn [row_text row_bytes flat_map app]. rewrite (@size_nil N), N.add_0_r, app_nil_r. reflexivity.
  - inversion F as [|? ? T F']; subst. unfold row_text, row_bytes in *. cbn [flat_map] in *. rewrite !size_app in *.
    destruct (token_inv t T) as [->|(a & b & h & l & -> & Ea & Eb & B)].
    + change (size (token_bytes Dash)) with 0 in *. change (size (token_text Dash)) with 1 in *. cbn [token_text token_bytes app]. rewrite parse_dash by lia. rewrite IH by (try assumption; lia). f_equal. lia.
    + rewrite B in *. change (size (token_text (Pair a b))) with 2 in *. cbn [token_text app] in *. change (size [16 * h + l]) with 1 in *.
      rewrite (loop_pair _ _ _ _ _ _ _ Ea Eb) by lia. rewrite IH by (try assumption; rewrite ?size_app; change (size [16 * h + l]) with 1; lia).
      rewrite <- app_assoc. cbn [app]. f_equal. lia.
Qed.
Lemma loop_end m i out : 36 <= i -> uuid_parse_loop m i out = Ret (Ok out).
Proof. intros H. destruct m; cbn [uuid_parse_loop]; destruct (N.ltb_spec i 36); try lia; reflexivity. Qed.

(** Every way the loop can come out. *)
Definition loop_case (m : list N) (i : N) (out : list N) (o : outcome (result (list N))) : Prop :=
  (exists ts rest, Forall token_ok ts /\ m = row_text ts ++ rest /\ o = Ret (Ok (out ++ row_bytes ts)) /\ size out + size (row_bytes ts) <= 16 /\
     (i + size (row_text ts) = 36 \/ exists ts' a b, ts = ts' ++ [Pair a b] /\ i + size (row_text ts') = 35)) \/
  (exists ts a b rest, Forall token_ok ts /\ m = row_text ts ++ a :: b :: rest /\ i + size (row_text ts) < 36 /\ size out + size (row_bytes ts) <= 16 /\
     a <> 45 /\ a < 128 /\ b < 128 /\ ~ token_ok (Pair a b) /\ o = Ret (Err E_ILSEQ)) \/
  o = UB.
Lemma loop_case_cons t m i out o : token_ok t -> size out + size (token_bytes t) <= 16 ->
  loop_case m (i + size (token_text t)) (out ++ token_bytes t) o -> loop_case (token_text t ++ m) i out o.
Proof.
  intros T S [(ts & rest & F & -> & -> & B & E)|[(ts & a & b & rest & F & -> & L & B & C1 & C2 & C3 & C4 & ->)| ->]].
  - left. exists (t :: ts), rest. unfold row_text, row_bytes in *. cbn [flat_map]. rewrite !size_app in *. rewrite <- !app_assoc.
    split; [now constructor|]. split; [reflexivity|]. split; [reflexivity|]. split; [lia|]. destruct E as [E|(ts' & a & b & -> & E)]; [left; lia|].
    right. exists (t :: ts'), a, b. split; [reflexivity|]. cbn [flat_map]. rewrite size_app. lia.
  - right; left. exists (t :: ts), a, b, rest. unfold row_text, row_bytes in *. cbn [flat_map]. rewrite !size_app in *. rewrite <- !app_assoc.
    repeat split; auto; lia.
  - right; right. reflexivity.
Qed.
Lemma loop_cases : forall n m i out, (length m < n)%nat -> i <= 36 -> size out <= 16 -> loop_case m i out (uuid_parse_loop m i out).
Proof.
  induction n as [|n IH]; intros m i out Ln Li S; [lia|]. destruct (N.eq_dec i 36) as [->|Ni].
  { left. exists [], m. cbn. rewrite loop_end by lia. rewrite app_nil_r. repeat split; try constructor; auto; lia. }
  destruct m as [|c m]; [right; right; cbn [uuid_parse_loop]; destruct (N.ltb_spec i 36); [reflexivity|lia]|].
  destruct (N.eq_dec c 45) as [->|Nc].
  { rewrite parse_dash by lia. apply (loop_case_cons Dash m i out); [constructor|cbn; lia|]. cbn [token_bytes token_text]. rewrite app_nil_r. change (size [45]) with 1. apply IH; [cbn [length] in Ln; lia|lia|lia]. }
  destruct (N.lt_ge_cases c 128) as [C|C].
  2:{ right; right. cbn [uuid_parse_loop]. destruct (N.ltb_spec i 36); [|lia]. destruct (N.eqb_spec c 45); [congruence|]. now rewrite charToBin_high. }
  destruct m as [|d m].
  { right; right. cbn [uuid_parse_loop]. destruct (N.ltb_spec i 36); [|lia]. destruct (N.eqb_spec c 45); [congruence|]. rewrite charToBin_spec by assumption. destruct (digit_value c); reflexivity. }
  destruct (N.lt_ge_cases d 128) as [D|D].
  2:{ right; right. cbn [uuid_parse_loop]. destruct (N.ltb_spec i 36); [|lia]. destruct (N.eqb_spec c 45); [congruence|]. rewrite charToBin_spec, charToBin_high by assumption. destruct (digit_value c); reflexivity. }
  destruct (digit_value c) as [h|] eqn:Ec.
  2:{ right; left. exists [], c, d, m. split; [constructor|]. split; [reflexivity|]. change (size (row_text [])) with 0. change (size (row_bytes [])) with 0. split; [lia|]. split; [lia|]. split; [exact Nc|]. split; [exact C|]. split; [exact D|]. split; [intros (X & _); congruence|]. cbn [uuid_parse_loop]. destruct (N.ltb_spec i 36); [|lia]. destruct (N.eqb_spec c 45); [congruence|].
      rewrite !charToBin_spec, Ec by assumption. destruct (digit_value d); reflexivity. }
  destruct (digit_value d) as [l|] eqn:Ed.
  2:{ right; left. exists [], c, d, m. split; [constructor|]. split; [reflexivity|]. change (size (row_text [])) with 0. change (size (row_bytes [])) with 0. split; [lia|]. split; [lia|]. split; [exact Nc|]. split; [exact C|]. split; [exact D|]. split; [intros (_ & X); congruence|]. cbn [uuid_parse_loop]. destruct (N.ltb_spec i 36); [|lia]. destruct (N.eqb_spec c 45); [congruence|].
      rewrite !charToBin_spec, Ec, Ed by assumption. reflexivity. }
  destruct (N.eq_dec (size out) 16) as [Q|Q].
  { right; right. cbn [uuid_parse_loop]. destruct (N.ltb_spec i 36); [|lia]. destruct (N.eqb_spec c 45); [congruence|]. rewrite !charToBin_spec, Ec, Ed by assumption. cbn [bind].
    destruct (N.leb_spec 16 (size out)); [reflexivity|lia]. }
  rewrite (loop_pair _ _ _ _ _ _ _ Ec Ed) by lia.
  assert (T : token_ok (Pair c d)) by (cbn; rewrite Ec, Ed; split; discriminate).
  assert (B : token_bytes (Pair c d) = [16 * h + l]) by (cbn; now rewrite Ec, Ed).
  destruct (N.eq_dec i 35) as [->|Ni'].
  { left. exists [Pair c d], m. assert (RB : row_bytes [Pair c d] = [16 * h + l]) by (unfold row_bytes; cbn [flat_map]; now rewrite B). rewrite RB. rewrite loop_end by lia. split; [constructor; auto|]. split; [reflexivity|]. split; [reflexivity|].
    split; [change (size [16 * h + l]) with 1; lia|]. right. exists [], c, d. split; reflexivity. }
  change (c :: d :: m) with (token_text (Pair c d) ++ m). apply loop_case_cons; [exact T|rewrite B; change (size [16 * h + l]) with 1; lia|].
  rewrite B. change (size (token_text (Pair c d))) with 2. apply IH; [cbn [length] in Ln; lia|lia|rewrite size_app; change (size [16 * h + l]) with 1; lia].
Qed.
Lemma row_text_app a b : row_text (a ++ b) = row_text a ++ row_text b.
Proof. apply flat_map_app. Qed.
Lemma row_bytes_app a b : row_bytes (a ++ b) = row_bytes a ++ row_bytes b.
Proof. apply flat_map_app. Qed.
Lemma parse_36 t after : length t = 36%nat -> uuid_parse t after =
  let! res := uuid_parse_loop (t ++ after) 0 [] in match res with Err e => Ret (Err e) | Ok out => Ret (Ok (stored out)) end.
Proof. intros L. unfold uuid_parse. replace (size t) with 36 by (unfold size; lia). reflexivity. Qed.

(** ** Numbers *)
Lemma c_space_spec c : c_space c = true <-> space c.
Proof.
  unfold c_space, space. rewrite orb_true_iff, andb_true_iff, !N.leb_le, N.eqb_eq. tauto.
Qed.
Lemma skip_spaces_over ws : forall c m used, Forall space ws -> ~ space c -> skip_spaces (ws ++ c :: m) used = Ret (c :: m, used + size ws).
Proof.
  induction ws as [|w ws IH]; intros c m used F C; cbn [app skip_spaces].
  - destruct (c_space c) eqn:E; [now apply c_space_spec in E|]. rewrite (@size_nil N), N.add_0_r. reflexivity.
  - inversion F; subst. rewrite (proj2 (c_space_spec w)) by assumption. rewrite IH by assumption. rewrite size_cons. f_equal. f_equal. lia.
Qed.
Lemma digit_not_space c : digit c -> ~ space c.
Proof. unfold digit, space. lia. Qed.
Lemma stopper_digit z : stopper z -> ~ digit z.
Proof. intros (_ & D & _). now apply c_digit_false. Qed.
Lemma numeral_strtoul s v rest z m : stopper z -> numeral s v rest -> strtoul (s ++ z :: m) = Ret (v, size s - size rest).
Proof.
  intros Z (ws & sg & ds & -> & W & Sg & D1 & D2 & R & ->).
  destruct ds as [|d ds]; [congruence|]. assert (D : digit d) by now inversion D2.
  assert (NX : exists c r, rest ++ z :: m = c :: r /\ ~ digit c).
  { destruct rest as [|c r]; [exists z, m; split; [reflexivity|now apply stopper_digit]|exists c, (r ++ z :: m); split; [reflexivity|exact R]]. }
  destruct NX as (c & r & NX & NC).
  assert (E : (ws ++ sg ++ (d :: ds) ++ rest) ++ z :: m = ws ++ sg ++ (d :: ds) ++ c :: r) by (rewrite <- !app_assoc; now rewrite NX).
  rewrite E. assert (SZ : size (ws ++ sg ++ (d :: ds) ++ rest) - size rest = size ws + size sg + size (d :: ds)) by (rewrite !size_app; lia). rewrite SZ.
  unfold strtoul. cbn [In] in Sg.
  assert (NZ : size (d :: ds) =? 0 = false) by (rewrite size_cons; destruct (N.eqb_spec (size ds + 1) 0); [lia|reflexivity]).
  destruct Sg as [<-|[<-|[<-|[]]]]; cbn [app].
  - rewrite skip_spaces_over by (try assumption; now apply digit_not_space). cbn [bind fst snd].
    assert (d <> 43 /\ d <> 45) as (X & Y) by (unfold digit in D; lia). destruct (N.eqb_spec d 43); [congruence|]. destruct (N.eqb_spec d 45); [congruence|]. cbn [orb].
    change (d :: ds ++ c :: r) with ((d :: ds) ++ c :: r). rewrite scan_digits_spec by assumption. cbn [bind fst snd]. rewrite N.add_0_l, NZ. fold (dec_value (d :: ds)).
    f_equal; try (f_equal; rewrite ?(@size_nil N); lia).
  - rewrite skip_spaces_over by (try assumption; unfold space; lia). cbn [bind fst snd]. cbn [N.eqb Pos.eqb orb].
    change (d :: ds ++ c :: r) with ((d :: ds) ++ c :: r). rewrite scan_digits_spec by assumption. cbn [bind fst snd]. rewrite N.add_0_l, NZ. fold (dec_value (d :: ds)).
    f_equal; try (f_equal; change (size [43]) with 1; lia).
  - rewrite skip_spaces_over by (try assumption; unfold space; lia). cbn [bind fst snd]. cbn [N.eqb Pos.eqb orb].
    change (d :: ds ++ c :: r) with ((d :: ds) ++ c :: r). rewrite scan_digits_spec by assumption. cbn [bind fst snd]. rewrite N.add_0_l, NZ. fold (dec_value (d :: ds)).
    change (size [45]) with 1. f_equal. f_equal. destruct (N.leb_spec (2 ^ 64) (dec_value (d :: ds))) as [|L]; [reflexivity|].
    unfold sub64. set (w := dec_value (d :: ds)) in *. clearbody w. destruct (N.eq_dec w 0) as [->|Nw]; [reflexivity|]. unfold sub_wrap. rewrite (N.mod_small w) by exact L. reflexivity.
Qed.
(** Every text is white space, then something else. *)
Lemma spaces_split s : exists ws r, s = ws ++ r /\ Forall space ws /\ match r with [] => True | c :: _ => ~ space c end.
Proof.
  induction s as [|c s IH]; [exists [], []; auto|]. destruct IH as (ws & r & -> & W & R). destruct (c_space c) eqn:E.
  - exists (c :: ws), r. split; [reflexivity|]. split; [|exact R]. constructor; [now apply c_space_spec|assumption].
  - exists [], (c :: ws ++ r). split; [reflexivity|]. split; [constructor|]. intros X. apply c_space_spec in X. congruence.
Qed.
Lemma digits_split s : exists ds r, s = ds ++ r /\ Forall digit ds /\ no_digit_first r.
Proof.
  induction s as [|c s IH]; [exists [], []; repeat split; auto|]. destruct IH as (ds & r & -> & W & R). destruct (c_digit c) eqn:E.
  - exists (c :: ds), r. split; [reflexivity|]. split; [|exact R]. constructor; [now apply c_digit_spec|assumption].
  - exists [], (c :: ds ++ r). split; [reflexivity|]. split; [constructor|]. cbn. now apply c_digit_false.
Qed.
Lemma numeral_or_not s z : stopper z -> (exists v rest, numeral s v rest) \/ (forall m, strtoul (s ++ z :: m) = Ret (0, 0)).
Proof.
  intros Z. destruct (spaces_split s) as (ws & r & -> & W & R). assert (Zs : ~ space z) by (destruct Z as (Z & _); intros X; apply c_space_spec in X; congruence).
  pose proof (stopper_digit z Z) as Zd. destruct Z as (Z1 & Z2 & Z3 & Z4). destruct r as [|c r].
  { right. intros m. rewrite app_nil_r. unfold strtoul. rewrite skip_spaces_over by assumption. cbn [bind fst snd].
    destruct (N.eqb_spec z 43); [congruence|]. destruct (N.eqb_spec z 45); [congruence|]. cbn [orb scan_digits]. rewrite Z2. reflexivity. }
  destruct ((c =? 43) || (c =? 45)) eqn:Sg.
  - destruct (digits_split r) as (ds & q & -> & D & Q). destruct ds as [|d ds].
    + right. intros m. rewrite <- app_assoc. unfold strtoul. cbn [app]. rewrite skip_spaces_over by assumption. cbn [bind fst snd]. rewrite Sg.
      destruct q as [|x q]; cbn [app scan_digits]; [rewrite Z2; reflexivity|]. rewrite (proj2 (c_digit_false x)) by exact Q. reflexivity.
    + left. eexists. exists q, ws, [c], (d :: ds). split; [reflexivity|]. split; [exact W|]. split; [|split; [discriminate|split; [exact D|split; [exact Q|reflexivity]]]].
      apply orb_true_iff in Sg. rewrite !N.eqb_eq in Sg. cbn. destruct Sg as [->| ->]; auto.
  - destruct (digits_split (c :: r)) as (ds & q & E & D & Q). destruct ds as [|d ds].
    + right. intros m. rewrite <- app_assoc. unfold strtoul. cbn [app]. rewrite skip_spaces_over by assumption. cbn [bind fst snd]. rewrite Sg. cbn [app] in E. subst q.
      cbn [scan_digits]. rewrite (proj2 (c_digit_false c)) by exact Q. reflexivity.
    + left. eexists. exists q, ws, [], (d :: ds). rewrite E. split; [reflexivity|]. split; [exact W|]. split; [cbn; auto|]. split; [discriminate|]. split; [exact D|]. split; [exact Q|reflexivity].
Qed.
Lemma reads_strtoul s v rest z m : stopper z -> reads s v rest -> strtoul (s ++ z :: m) = Ret (v, size s - size rest).
Proof.
  intros Z [R|(R & -> & ->)]; [now apply numeral_strtoul|]. rewrite N.sub_diag. destruct (numeral_or_not s z Z) as [(v & r & X)|X]; [now apply R in X|apply X].
Qed.
Lemma stopper_0 : stopper 0. Proof. repeat split; discriminate. Qed.
Lemma stopper_46 : stopper 46. Proof. repeat split; discriminate. Qed.
Lemma reads_total s : exists v rest, reads s v rest.
Proof.
  destruct (numeral_or_not s 0 stopper_0) as [(v & r & X)|X]; [exists v, r; now left|]. exists 0, s. right. split; [|auto].
  intros v r Y. pose proof (numeral_strtoul s v r 0 [] stopper_0 Y) as E. rewrite X in E. destruct Y as (ws & sg & ds & -> & _ & _ & D & _).
  injection E as _ E. rewrite !size_app in E. destruct ds; [congruence|]. rewrite size_cons in E. lia.
Qed.
Lemma reads_suffix s v rest : reads s v rest -> exists p, s = p ++ rest.
Proof.
  intros [(ws & sg & ds & -> & _)|(_ & _ & ->)]; [exists (ws ++ sg ++ ds); now rewrite <- !app_assoc|now exists []].
Qed.
Lemma suffix_unique (a b c d : list N) : a ++ b = c ++ d -> size b = size d -> b = d.
Proof.
  intros E S. assert (length a = length c). { apply (f_equal (@length N)) in E. rewrite !app_length in E. unfold size in S. lia. }
  revert c E H. induction a as [|x a IH]; intros [|y c] E H; try discriminate; [exact E|]. injection E as _ E. injection H as H. eauto.
Qed.
Lemma reads_unique s v r v' r' : reads s v r -> reads s v' r' -> v = v' /\ r = r'.
Proof.
  intros A B. pose proof (reads_strtoul s v r 0 [] stopper_0 A) as E. rewrite (reads_strtoul s v' r' 0 [] stopper_0 B) in E.
  injection E as E1 E2. split; [auto|]. destruct (reads_suffix _ _ _ A) as (p & P). destruct (reads_suffix _ _ _ B) as (q & Q).
  apply (suffix_unique p r q r'); [congruence|]. assert (size s = size p + size r) by (rewrite P; apply size_app). assert (size s = size q + size r') by (rewrite Q; apply size_app). lia.
Qed.

(** ** Versions *)
Lemma first_cut (c : N) (s : list N) : In c s -> exists x r, s = x ++ c :: r /\ ~ In c x.
Proof.
  induction s as [|d s IH]; [contradiction|]. intros I. destruct (N.eq_dec d c) as [->|Nd]; [exists [], s; auto|].
  destruct I as [I|I]; [congruence|]. destruct (IH I) as (x & r & -> & X). exists (d :: x), r. split; [reflexivity|]. intros [Y|Y]; auto.
Qed.
Lemma count_cut c (x r : list N) : ~ In c x -> count_occ N.eq_dec (x ++ c :: r) c = S (count_occ N.eq_dec r c).
Proof.
  intros H. rewrite count_occ_app, (proj1 (count_occ_not_In N.eq_dec x c) H). cbn [count_occ]. destruct (N.eq_dec c c); [reflexivity|congruence].
Qed.
Lemma dotted_or_few s : (exists x y z, dotted s x y z) \/ (count_occ N.eq_dec s 46%N < 2)%nat.
Proof.
  destruct (in_dec N.eq_dec 46 s) as [I|I]; [|right; rewrite (proj1 (count_occ_not_In N.eq_dec s 46%N) I); lia].
  destruct (first_cut 46 s I) as (x & r & -> & X). destruct (in_dec N.eq_dec 46 r) as [J|J].
  2:{ right. rewrite count_cut, (proj1 (count_occ_not_In N.eq_dec r 46%N) J) by exact X. lia. }
  destruct (first_cut 46 r J) as (y & z & -> & Y). left. exists x, y, z. repeat split; auto.
Qed.
Lemma dotted_count s x y z : dotted s x y z -> (2 <= count_occ N.eq_dec s 46%N)%nat.
Proof. intros (-> & X & Y). rewrite !count_cut by assumption. lia. Qed.

(** What parse does after the third number. *)
Lemma parse_dotted alloc s x y z rest va vb vc ra rb rc : sv_ok s -> dotted s x y z -> reads x va ra -> reads y vb rb -> reads z vc rc ->
  ver_parse alloc s (0 :: rest) =
    if sv_empty rc then Ret (Ok (mkVersion (u32 va) (u32 vb) (u32 vc) [] [])) else
    let! tp := sv_split_char 43 rc in
    let! tags := ver_tags alloc 0 (fst tp) [] [] in
    match tags with
    | Err e => Ret (Err e)
    | Ok (i, pre, build) => if (2 <? i)%nat then Ret (Err E_InvalidInput) else Ret (Ok (mkVersion (u32 va) (u32 vb) (u32 vc) pre build))
    end.
Proof.
  intros L (E & X & Y) Ra Rb Rc. unfold ver_parse.
  assert (Lz : sv_ok z). { unfold sv_ok in *. rewrite E, !size_app, !size_cons, !size_app, !size_cons in L. lia. }
  destruct (split_char_spec 46 z Lz) as (ps & _ & S).
  assert (S' : splits [46] s (x :: y :: ps)) by (rewrite E; apply splits_char_cut; [assumption|]; now apply splits_char_cut).
  destruct (split_char_is 46 s _ L S') as (n & E'). rewrite E'. cbn [bind fst].
  assert (M0 : s ++ 0 :: rest = x ++ 46 :: (y ++ 46 :: z ++ 0 :: rest)).
  { rewrite E. now rewrite <- !app_assoc, <- !app_comm_cons, <- !app_assoc, <- !app_comm_cons. }
  assert (M1 : ndrop (size x + 1) (s ++ 0 :: rest) = y ++ 46 :: (z ++ 0 :: rest)).
  { rewrite M0, ndrop_app_plus. cbn [ndrop]. change (1 =? 0) with false. change (N.pred 1) with 0. cbv iota. now rewrite ndrop_0. }
  assert (M2 : ndrop (size x + 1 + size y + 1) (s ++ 0 :: rest) = z ++ 0 :: rest).
  { rewrite <- N.add_assoc, <- ndrop_ndrop, M1, ndrop_app_plus. cbn [ndrop]. change (1 =? 0) with false. change (N.pred 1) with 0. cbv iota. now rewrite ndrop_0. }
  rewrite M0 at 1. rewrite (reads_strtoul x va ra 46 _ stopper_46 Ra). cbn [bind fst snd].
  rewrite M1, (reads_strtoul y vb rb 46 _ stopper_46 Rb). cbn [bind fst snd].
  destruct ps as [|p2 ps]; [now apply splits_nonempty in S|].
  rewrite M2, (reads_strtoul z vc rc 0 _ stopper_0 Rc). cbn [bind fst snd].
  destruct (reads_suffix _ _ _ Rc) as (q & Q).
  assert (ZS : size s = size x + 1 + size y + 1 + size q + size rc).
  { rewrite E, Q, !size_app, !size_cons, !size_app, !size_cons, !size_app. lia. }
  assert (Zz : size z - size rc = size q) by (rewrite Q, size_app; lia). rewrite Zz.
  assert (AP : ver_afterPatch (s ++ 0 :: rest) (size s) (size x + 1 + size y + 1 + size q) = Ret rc).
  { unfold ver_afterPatch. destruct (N.eqb_spec (size x + 1 + size y + 1 + size q) (size s)) as [K|K].
    - f_equal. symmetry. apply size_0_nil. lia.
    - unfold sv_ok in L. rewrite Z.mod_small by lia. replace (Z.to_N _) with (size rc) by lia. rewrite size_app.
      destruct (N.leb_spec (size x + 1 + size y + 1 + size q + size rc) (size s + size (0 :: rest))); [|lia].
      f_equal. rewrite <- ndrop_ndrop, M2, Q, <- app_assoc. rewrite ndrop_app_exact by reflexivity. now apply ntake_app_exact. }
  rewrite AP. reflexivity.
Qed.
Lemma trimmed_char_total c s : exists t, trimmed (fun x => x = c) s t.
Proof.
  destruct (trim_by_spec (fun x => x =? c) s) as (u & _ & T). exists u. eapply trimmed_ext; [|exact T]. intros x. cbn. apply N.eqb_eq.
Qed.
Lemma tags_or_many s : (exists pre build, tags s pre build) \/ (2 <= count_occ N.eq_dec s 43%N)%nat.
Proof.
  destruct (in_dec N.eq_dec 43 s) as [I|I].
  2:{ left. destruct (trimmed_char_total 45 s) as (t & T). exists t, []. left. auto. }
  destruct (first_cut 43 s I) as (x & r & -> & X). destruct (in_dec N.eq_dec 43 r) as [J|J].
  - right. rewrite count_cut by exact X. apply (count_occ_In N.eq_dec) in J. lia.
  - left. destruct (trimmed_char_total 45 x) as (t & T). exists t, r. right. exists x. auto.
Qed.
Lemma tags_count s pre build : tags s pre build -> (count_occ N.eq_dec s 43%N <= 1)%nat.
Proof.
  intros [(H & _)|(x & -> & X & B & _)].
  - rewrite (proj1 (count_occ_not_In N.eq_dec s 43%N) H). lia.
  - rewrite count_cut, (proj1 (count_occ_not_In N.eq_dec build 43%N) B) by exact X. lia.
Qed.
Lemma tags_parsed alloc s pre build : heap_total alloc -> sv_ok s -> tags s pre build ->
  exists ps n i, sv_split_char 43 s = Ret (ps, n) /\ ver_tags alloc 0 ps [] [] = Ret (Ok (i, pre, build)) /\ (i <= 2)%nat.
Proof.
  intros T L [(H & Tr & ->)|(x & -> & X & B & Tr)].
  - destruct (split_char_is 43 s [s] L (splits_char_none 43 s H)) as (n & E). exists [s], n, 1%nat. split; [exact E|].
    cbn [ver_tags]. rewrite (trim_char_is 45 s pre Tr). cbn [bind]. destruct (str_make_total alloc pre T) as (st & -> & V). cbn [bind]. rewrite V. split; [reflexivity|lia].
  - destruct (split_char_is 43 _ [x; build] L) as (n & E); [apply splits_char_cut; [exact X|now apply splits_char_none]|]. exists [x; build], n, 2%nat. split; [exact E|].
    cbn [ver_tags]. rewrite (trim_char_is 45 x pre Tr). cbn [bind]. destruct (str_make_total alloc pre T) as (st & -> & V). cbn [bind].
    destruct (str_make_total alloc build T) as (st' & -> & V'). cbn [bind]. rewrite V, V'. split; [reflexivity|lia].
Qed.
Lemma tags_empty : tags [] [] [].
Proof. left. split; [auto|]. split; [exists [], []; repeat split; constructor|reflexivity]. Qed.
Lemma tags_many alloc s : heap_total alloc -> sv_ok s -> (2 <= count_occ N.eq_dec s 43%N)%nat ->
  exists ps n i pre build, sv_split_char 43 s = Ret (ps, n) /\ ver_tags alloc 0 ps [] [] = Ret (Ok (i, pre, build)) /\ (2 < i)%nat.
Proof.
  intros T L C. destruct (split_char_spec 43 s L) as (ps & E & S). apply splits_char_count in S.
  destruct (ver_tags_count alloc ps T 0 [] []) as (p & b & V). exists ps. eexists. exists (0 + length ps)%nat, p, b. split; [exact E|]. split; [exact V|lia].
Qed.
