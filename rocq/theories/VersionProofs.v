From Verif Require Import Base BaseLemmas LexSpec LexProofs MemViewModel MemViewSpec MemViewProofs ByteIOModel ByteIOSpec ByteIOProofs.
From Verif Require Import Base16Proofs StringSpec StringModel StringViewModel StringViewProofs StringProofs.
From Verif Require Import FmtModel FmtSpec FmtProofs BuilderModel BuilderSpec BuilderProofs VersionModel VersionSpec.
Ltac Zify.zify_post_hook ::= Z.div_mod_to_equations.

Lemma bind_bind {A B C} (m : outcome A) (f : A -> outcome B) (g : B -> outcome C) :
  bind (bind m f) g = bind m (fun a => bind (f a) g).
Proof. destruct m; reflexivity. Qed.

(** ** Splitting at a character *)
Lemma nnth_In {A} (l : list A) i x : nnth l i = Some x -> In x l.
Proof. rewrite nnth_nth_error. apply nth_error_In. Qed.
Lemma splits_char_none c s : ~ In c s -> splits [c] s [s].
Proof. intros H. apply splits_last. intros i O. apply occurs_char in O. apply H. eapply nnth_In; eauto. Qed.
Lemma splits_char_cut c p r ps : ~ In c p -> splits [c] r ps -> splits [c] (p ++ c :: r) (p :: ps).
Proof.
  intros H S. change (c :: r) with ([c] ++ r). apply splits_first; [|exact S]. intros i Hi O. apply occurs_char in O.
  rewrite nnth_app in O. fold (size p) in Hi. destruct (N.ltb_spec i (size p)); [|lia]. apply H. eapply nnth_In; eauto.
Qed.
Lemma split_char_is c s ps : sv_ok s -> splits [c] s ps -> exists n, sv_split_char c s = Ret (ps, n).
Proof.
  intros H S. destruct (split_char_spec c s H) as (qs & E & S'). rewrite (splits_det [c] s ps qs) by (discriminate || assumption). eauto.
Qed.
Lemma splits_char_count c s ps : splits [c] s ps -> length ps = S (count_occ N.eq_dec s c).
Proof.
  induction 1 as [s H|p r ps H S IH].
  - cbn [length]. f_equal. symmetry. apply count_occ_not_In. intros I. apply In_nth_error in I as (n & E).
    apply (H (N.of_nat n)). apply occurs_char. rewrite nnth_nth_error, Nat2N.id. exact E.
  - cbn [length]. rewrite IH, !count_occ_app. cbn [count_occ]. destruct (N.eq_dec c c); [|congruence].
    assert (Z : count_occ N.eq_dec p c = 0%nat).
    { apply count_occ_not_In. intros I. apply In_nth_error in I as (n & E). assert (L : (n < length p)%nat) by (apply nth_error_Some; congruence).
      apply (H (N.of_nat n)); [lia|]. apply occurs_char. rewrite nnth_nth_error, Nat2N.id, nth_error_app1 by exact L. exact E. }
    lia.
Qed.

Lemma digits_no ds c : Forall digit ds -> ~ digit c -> ~ In c ds.
Proof. intros F H I. rewrite Forall_forall in F. auto. Qed.
Lemma not_digit_46 : ~ digit 46. Proof. unfold digit; lia. Qed.
Lemma not_digit_45 : ~ digit 45. Proof. unfold digit; lia. Qed.
Lemma not_digit_43 : ~ digit 43. Proof. unfold digit; lia. Qed.

(** ** Strings from a heap that never fails *)
Definition heap_total (alloc : heap) : Prop := heap_ok alloc /\ forall n, exists b, alloc n = Ok b.
Lemma str_make_total alloc s : heap_total alloc -> exists st, str_make alloc s = Ret (Ok st) /\ str_view st = s.
Proof.
  intros (H & T). unfold str_make. destruct (T (size s)) as (b & E). rewrite E. apply H in E.
  destruct (N.ltb_spec (size b) (size s)); [lia|]. eexists. split; [reflexivity|]. rewrite overwrite_all by assumption. now apply str_view_exact.
Qed.
Lemma str_make_ret alloc s : heap_ok alloc -> exists r, str_make alloc s = Ret r.
Proof. intros H. unfold str_make. destruct (alloc (size s)); [|eauto]. destruct (_ <? _); eauto. Qed.

Lemma trim_char_is c s t : trimmed (fun x => x = c) s t -> sv_trim_char c s = Ret t.
Proof.
  intros H. unfold sv_trim_char. destruct (trim_by_spec (fun x => x =? c) s) as (u & E & T). rewrite E. f_equal.
  eapply trimmed_unique; [|exact H]. eapply trimmed_ext; [|exact T]. intros x. cbn. apply N.eqb_eq.
Qed.

(** ** Tags *)
Lemma trim_pre pre : hd 0 pre <> 45 -> last pre 0 <> 45 -> sv_trim_char 45 (tagged 45 pre) = Ret pre.
Proof.
  intros H L. apply trim_char_is. destruct pre as [|c t].
  - exists [], []. repeat split; constructor.
  - exists [45], []. cbn [tagged]. rewrite app_nil_r. split; [reflexivity|]. repeat split; try constructor; auto.
Qed.

Lemma In_tagged sep tag c : c <> sep -> ~ In c tag -> ~ In c (tagged sep tag).
Proof. destruct tag; cbn; intuition congruence. Qed.

Definition tail_text (pre build : list N) : list N := tagged 45 pre ++ tagged 43 build.

Lemma tags_spec alloc pre build : heap_total alloc -> ~ In 43 pre -> ~ In 43 build -> hd 0 pre <> 45 -> last pre 0 <> 45 ->
  sv_ok (tail_text pre build) -> tail_text pre build <> [] ->
  exists ps n i, sv_split_char 43 (tail_text pre build) = Ret (ps, n) /\ ver_tags alloc 0 ps [] [] = Ret (Ok (i, pre, build)) /\ (i <= 2)%nat.
Proof.
  intros T P B H L OK NE. destruct build as [|e build'] eqn:Eb.
  - assert (S : splits [43] (tail_text pre []) [tagged 45 pre]).
    { unfold tail_text. cbn [tagged]. rewrite app_nil_r. apply splits_char_none. now apply In_tagged. }
    destruct (split_char_is _ _ _ OK S) as (n & E). exists [tagged 45 pre], n, 1%nat. split; [exact E|].
    cbn [ver_tags]. rewrite trim_pre by assumption. cbn [bind]. destruct (str_make_total alloc pre T) as (st & -> & V). cbn [bind].
    rewrite V. split; [reflexivity|lia].
  - rewrite <- Eb in *. assert (S : splits [43] (tail_text pre build) [tagged 45 pre; build]).
    { unfold tail_text. replace (tagged 43 build) with (43 :: build) by now subst build. apply splits_char_cut; [now apply In_tagged|].
      now apply splits_char_none. }
    destruct (split_char_is _ _ _ OK S) as (n & E). exists [tagged 45 pre; build], n, 2%nat. split; [exact E|].
    cbn [ver_tags]. rewrite trim_pre by assumption. cbn [bind]. destruct (str_make_total alloc pre T) as (st & -> & V). cbn [bind].
    destruct (str_make_total alloc build T) as (st' & -> & V'). cbn [bind]. rewrite V, V'. split; [reflexivity|lia].
Qed.

(** ** Parsing a version text *)
Lemma ndrop_app_plus {A} (a b : list A) n : ndrop (size a + n) (a ++ b) = ndrop n b.
Proof. rewrite <- ndrop_ndrop. f_equal. now apply ndrop_app_exact. Qed.

Definition stops (l : list N) : Prop := match l with [] => False | c :: _ => ~ digit c end.
Lemma strtoul_stops ds l : Forall digit ds -> ds <> [] -> stops l -> dec_value ds < 2 ^ 64 ->
  strtoul (ds ++ l) = Ret (dec_value ds, size ds).
Proof. intros F N1 S L. destruct l as [|c t]; [contradiction|]. now apply strtoul_digits. Qed.

(** The three numbers are read and the rest is cut at '+' signs. *)
Lemma parse_front alloc x y z r a b c after : x < 2 ^ 32 -> y < 2 ^ 32 -> z < 2 ^ 32 ->
  decimal x a -> decimal y b -> decimal z c ->
  let t := a ++ 46 :: b ++ 46 :: c ++ r in
  size t < 2 ^ 16 -> stops (r ++ after) ->
  ver_parse alloc t after =
    if sv_empty r then Ret (Ok (mkVersion x y z [] [])) else
    let! tp := sv_split_char 43 r in
    let! tags := ver_tags alloc 0 (fst tp) [] [] in
    match tags with
    | Err e => Ret (Err e)
    | Ok (i, pre, build) => if (2 <? i)%nat then Ret (Err E_InvalidInput) else Ret (Ok (mkVersion x y z pre build))
    end.
Proof.
  intros O1 O2 O3 (A1 & A2 & A3 & _) (B1 & B2 & B3 & _) (C1 & C2 & C3 & _) t L St.
  unfold ver_parse.
  destruct (split_char_spec 46 (c ++ r)) as (ps & _ & S).
  { unfold sv_ok. unfold t in L. rewrite !size_app, !size_cons, !size_app, !size_cons, !size_app in L. rewrite size_app. lia. }
  assert (S' : splits [46] t (a :: b :: ps)).
  { unfold t. apply splits_char_cut; [apply digits_no; [assumption|apply not_digit_46]|].
    apply splits_char_cut; [apply digits_no; [assumption|apply not_digit_46]|]. exact S. }
  destruct (split_char_is 46 t _ L S') as (n & E). rewrite E. cbn [bind fst].
  assert (M0 : t ++ after = a ++ (46 :: b ++ 46 :: c ++ r ++ after)).
  { unfold t. now rewrite <- !app_assoc, <- !app_comm_cons, <- !app_assoc, <- !app_comm_cons, <- !app_assoc. }
  assert (M1 : ndrop (size a + 1) (t ++ after) = b ++ (46 :: c ++ r ++ after)).
  { rewrite M0, ndrop_app_plus. cbn [ndrop]. change (1 =? 0) with false. change (N.pred 1) with 0. cbv iota. now rewrite ndrop_0. }
  assert (M2 : ndrop (size a + 1 + size b + 1) (t ++ after) = c ++ r ++ after).
  { rewrite <- N.add_assoc, <- ndrop_ndrop, M1, ndrop_app_plus. cbn [ndrop]. change (1 =? 0) with false. change (N.pred 1) with 0. cbv iota. now rewrite ndrop_0. }
  rewrite M0 at 1. rewrite strtoul_stops; [|assumption|assumption|apply not_digit_46|lia]. cbn [bind fst snd].
  rewrite M1. rewrite strtoul_stops; [|assumption|assumption|apply not_digit_46|lia]. cbn [bind fst snd].
  destruct ps as [|p2 ps]; [now apply splits_nonempty in S|].
  rewrite M2. rewrite strtoul_stops; [|assumption|assumption|assumption|lia]. cbn [bind fst snd].
  assert (ZS : size t = size a + 1 + size b + 1 + size c + size r).
  { unfold t. rewrite !size_app, !size_cons, !size_app, !size_cons, !size_app. lia. }
  assert (AP : ver_afterPatch (t ++ after) (size t) (size a + 1 + size b + 1 + size c) = Ret r).
  { unfold ver_afterPatch. destruct (N.eqb_spec (size a + 1 + size b + 1 + size c) (size t)) as [Q|Q].
    - f_equal. symmetry. apply size_0_nil. lia.
    - rewrite Z.mod_small by lia. replace (Z.to_N _) with (size r) by lia. rewrite size_app.
      destruct (N.leb_spec (size a + 1 + size b + 1 + size c + size r) (size t + size after)); [|lia].
      f_equal. rewrite <- ndrop_ndrop, M2. rewrite ndrop_app_exact by reflexivity. now apply ntake_app_exact. }
  rewrite AP. cbn [bind]. rewrite A3, B3, C3. unfold u32. rewrite !N.mod_small by lia.
  reflexivity.
Qed.

Lemma parse_text alloc v a b c after : heap_total alloc -> version_ok v -> tags_ok v ->
  decimal (v_major v) a -> decimal (v_minor v) b -> decimal (v_patch v) c ->
  let t := a ++ 46 :: b ++ 46 :: c ++ tail_text (v_pre v) (v_build v) in
  size t < 2 ^ 16 -> stops (tail_text (v_pre v) (v_build v) ++ after) ->
  ver_parse alloc t after = Ret (Ok v).
Proof.
  intros T (O1 & O2 & O3 & _) (T1 & T2 & T3 & T4) A B C t L St.
  unfold t. rewrite (parse_front alloc _ _ _ _ _ _ _ after O1 O2 O3 A B C L St).
  set (r := tail_text (v_pre v) (v_build v)) in *.
  assert (ZS : size r <= size t). { unfold t. rewrite !size_app, !size_cons, !size_app, !size_cons, !size_app. lia. }
  assert (EV : v = mkVersion (v_major v) (v_minor v) (v_patch v) (v_pre v) (v_build v)) by now destruct v.
  destruct r as [|x r'] eqn:Er.
  - cbn [sv_empty]. assert (v_pre v = [] /\ v_build v = []) as [Ep Eb].
    { unfold r, tail_text in Er. destruct (v_pre v), (v_build v); cbn in Er; try discriminate; auto. }
    unfold sv_empty. change (size (@nil N) =? 0) with true. cbv iota. rewrite Ep, Eb in EV. now rewrite <- EV.
  - assert (SE : sv_empty (x :: r') = false) by (unfold sv_empty; rewrite size_cons; destruct (N.eqb_spec (size r' + 1) 0); [lia|reflexivity]).
    rewrite SE, <- Er. unfold r. rewrite <- Er in ZS.
    destruct (tags_spec alloc (v_pre v) (v_build v)) as (qs & m & i & E1 & E2 & Li); try assumption.
    { unfold sv_ok. fold r. lia. }
    { fold r. rewrite Er. discriminate. }
    rewrite E1. cbn [bind fst]. rewrite E2. cbn [bind]. destruct (Nat.ltb_spec 2 i); [lia|]. now rewrite <- EV.
Qed.

(** Pieces beyond the second are counted. *)
Lemma ver_tags_count alloc ps : heap_total alloc -> forall i pre build, exists pre' build',
  ver_tags alloc i ps pre build = Ret (Ok ((i + length ps)%nat, pre', build')).
Proof.
  intros H. induction ps as [|p ps IH]; intros i pre build; cbn [ver_tags length].
  - exists pre, build. now rewrite Nat.add_0_r.
  - rewrite <- plus_n_Sm, <- plus_Sn_m. destruct i as [|[|i]].
    + unfold sv_trim_char. destruct (trim_by_spec (fun x => x =? 45) p) as (u & E & _). rewrite E. cbn [bind].
      destruct (str_make_total alloc u H) as (st & -> & _). cbn [bind]. apply IH.
    + destruct (str_make_total alloc p H) as (st & -> & _). cbn [bind]. apply IH.
    + apply IH.
Qed.

(** ** Printing *)
Definition ver_pieces (v : version) : list piece :=
  [PNum (v_major v); PChar 46; PNum (v_minor v); PChar 46; PNum (v_patch v)] ++
  (if sv_empty (v_pre v) then [] else [PChar 45; PText (v_pre v)]) ++
  (if sv_empty (v_build v) then [] else [PChar 43; PText (v_build v)]).

Lemma sv_empty_nil s : sv_empty s = match s with [] => true | _ => false end.
Proof. unfold sv_empty. destruct s as [|c t]; [reflexivity|]. rewrite size_cons. destruct (N.eqb_spec (size t + 1) 0); [lia|reflexivity]. Qed.

Lemma appends_app host_be ps qs : forall w, sb_appends host_be w (ps ++ qs) = let! w' := sb_appends host_be w ps in sb_appends host_be w' qs.
Proof. induction ps as [|p ps IH]; intros w; cbn [app sb_appends bind]; [reflexivity|]. rewrite bind_bind. destruct (sb_append host_be w p); cbn [bind]; auto. Qed.

Lemma toString_pieces host_be buffer v :
  (let! sb := sb_num (sb_make buffer) (v_major v) in
   let! sb := sb_char host_be sb 46 in
   let! sb := sb_num sb (v_minor v) in
   let! sb := sb_char host_be sb 46 in
   let! sb := sb_num sb (v_patch v) in
   let! sb := (if sv_empty (v_pre v) then Ret sb else let! sb := sb_char host_be sb 45 in sb_text sb (v_pre v)) in
   let! sb := (if sv_empty (v_build v) then Ret sb else let! sb := sb_char host_be sb 43 in sb_text sb (v_build v)) in
   Ret (fst (sb_build sb)))
  = let! w := sb_appends host_be (sb_make buffer) (ver_pieces v) in Ret (fst (sb_build w)).
Proof.
  unfold ver_pieces. cbn [app sb_appends sb_append].
  destruct (sb_num (sb_make buffer) (v_major v)) as [w| | | |]; cbn [bind]; try reflexivity.
  destruct (sb_char host_be w 46) as [w1| | | |]; cbn [bind]; try reflexivity.
  destruct (sb_num w1 (v_minor v)) as [w2| | | |]; cbn [bind]; try reflexivity.
  destruct (sb_char host_be w2 46) as [w3| | | |]; cbn [bind]; try reflexivity.
  destruct (sb_num w3 (v_patch v)) as [w4| | | |]; cbn [bind]; try reflexivity.
  assert (P : (if sv_empty (v_pre v) then Ret w4 else let! sb := sb_char host_be w4 45 in sb_text sb (v_pre v))
    = sb_appends host_be w4 (if sv_empty (v_pre v) then [] else [PChar 45; PText (v_pre v)])).
  { destruct (sv_empty (v_pre v)); [reflexivity|]. cbn [sb_appends sb_append]. destruct (sb_char host_be w4 45) as [x| | | |]; cbn [bind]; try reflexivity.
    destruct (sb_text x (v_pre v)); reflexivity. }
  rewrite P, appends_app. destruct (sb_appends host_be w4 _) as [w5| | | |]; cbn [bind]; try reflexivity.
  destruct (sv_empty (v_build v)); [reflexivity|]. cbn [sb_appends sb_append]. destruct (sb_char host_be w5 43) as [x| | | |]; cbn [bind]; try reflexivity.
  destruct (sb_text x (v_build v)); reflexivity.
Qed.

Lemma ver_pieces_text v : concat (map piece_text (ver_pieces v)) =
  dec (v_major v) ++ 46 :: dec (v_minor v) ++ 46 :: dec (v_patch v) ++ tail_text (v_pre v) (v_build v).
Proof.
  unfold ver_pieces, tail_text. rewrite !sv_empty_nil. destruct (v_pre v) as [|x p], (v_build v) as [|y q];
    cbn [app map concat piece_text tagged]; rewrite ?app_nil_r; reflexivity.
Qed.

(** After a number has been accepted a NUL byte follows it. *)
Lemma num_terminated cap w t v : holds cap w t -> v < 2 ^ 64 -> size t + size (dec v) + 1 <= cap ->
  exists w', sb_num w v = Ret w' /\ holds cap w' (t ++ dec v) /\ exists r, ndrop (size (t ++ dec v)) (w_buf w') = 0 :: r.
Proof.
  intros H Hv L. destruct (num_spec cap w t v H Hv) as (w' & E & K). destruct (N.leb_spec (size t + size (dec v) + 1) cap); [|lia].
  exists w'. split; [exact E|]. split; [exact K|]. destruct H as (A & B & C & D & X & F).
  pose proof (dec_size v Hv). pose proof (dec_pos v).
  unfold sb_num in E. assert (V : v_size (w_viewRemaining w) = cap - size t).
  { unfold w_viewRemaining, view_slice, storage_view. cbn [v_size v_addr]. rewrite A, B, C. lia. }
  rewrite V in E. unfold snprintf in E. destruct (N.ltb_spec 0 (size (dec v))); [|lia]. destruct (N.ltb_spec (size (dec v)) (cap - size t)); [|lia].
  cbn [andb] in E. destruct (N.eqb_spec (cap - size t) 0); [lia|]. rewrite (ntake_all _ (dec v)) in E by lia.
  unfold w_advance, w_remaining in E. cbn [w_buf w_lim w_pos] in E. rewrite B, C, sub64_le in E by lia.
  destruct (N.ltb_spec (cap - size t) (size (dec v))); [lia|]. injection E as <-. cbn [w_buf].
  unfold overwrite. rewrite F. match goal with |- context [t ++ (dec v ++ [0]) ++ ?R] =>
    replace (t ++ (dec v ++ [0]) ++ R) with ((t ++ dec v) ++ 0 :: R) by (rewrite <- !app_assoc; reflexivity) end.
  rewrite ndrop_app_exact by reflexivity. eexists. reflexivity.
Qed.

Lemma accumulate_app cap ps qs : forall acc, accumulate cap acc (ps ++ qs) = accumulate cap (accumulate cap acc ps) qs.
Proof. induction ps as [|[p t] ps IH]; intros acc; [reflexivity|]. cbn. apply IH. Qed.

Lemma combine_map {A B} (f : A -> B) l : combine l (map f l) = map (fun a => (a, f a)) l.
Proof. induction l; cbn; congruence. Qed.

Lemma accumulate_total cap ps : size (concat (map piece_text ps)) + 1 <= cap ->
  accumulate cap [] (map (fun p => (p, piece_text p)) ps) = concat (map piece_text ps).
Proof.
  intros H. rewrite <- combine_map, accumulate_fits; [reflexivity|trivial|now rewrite map_length|]. rewrite (@size_nil N). lia.
Qed.

Lemma toString_spec host_be alloc v : heap_total alloc -> version_ok v ->
  let t := dec (v_major v) ++ 46 :: dec (v_minor v) ++ 46 :: dec (v_patch v) ++ tail_text (v_pre v) (v_build v) in
  size t < 2 ^ 16 ->
  exists st, ver_toString host_be alloc v = Ret st /\ str_view st = t /\ stops (tail_text (v_pre v) (v_build v) ++ ndrop (size t) (st_buf st)).
Proof.
  intros (HO & HT) (O1 & O2 & O3 & O4 & O5) t L. unfold ver_toString.
  assert (BS : ver_bufferSize v = size t + 1).
  { unfold ver_bufferSize, sb_measure, t, tail_text. rewrite !size_app, !size_cons, !size_app, !size_cons, !size_app, !sv_empty_nil.
    pose proof (dec_size (v_major v)). pose proof (dec_size (v_minor v)). pose proof (dec_size (v_patch v)).
    unfold u16. rewrite !N.mod_small by lia. destruct (v_pre v), (v_build v); cbn [tagged]; rewrite ?(@size_nil N), ?size_cons; lia. }
  destruct (HT (ver_bufferSize v)) as (b & E). rewrite E. apply HO in E. rewrite BS in E. rewrite toString_pieces.
  assert (F : Forall piece_ok (ver_pieces v)).
  { unfold ver_pieces. rewrite !Forall_app. split; [|split].
    - repeat apply Forall_cons; try apply Forall_nil; cbn [piece_ok]; try lia; reflexivity.
    - destruct (sv_empty (v_pre v)); [constructor|]. apply Forall_cons; [reflexivity|]. apply Forall_cons; [exact O4|constructor].
    - destruct (sv_empty (v_build v)); [constructor|]. apply Forall_cons; [reflexivity|]. apply Forall_cons; [exact O5|constructor]. }
  assert (L64 : size b < 2 ^ 64) by lia.
  destruct (appends_spec host_be (size b) (ver_pieces v) (sb_make b) [] (holds_make b L64) F) as (w & EW & K).
  rewrite accumulate_total in K by (rewrite ver_pieces_text; fold t; lia). rewrite ver_pieces_text in K. fold t in K.
  rewrite EW. cbn [bind]. eexists. split; [reflexivity|]. unfold sb_build. cbn [fst st_buf].
  pose proof K as (A & B & C & D & X & P). split.
  - unfold str_view. cbn [st_buf st_size]. unfold sb_length, u16. rewrite C, N.mod_small, N.min_r by lia. exact P.
  - destruct (tail_text (v_pre v) (v_build v)) as [|c r] eqn:ET.
    + assert (v_pre v = [] /\ v_build v = []) as [Ep Eb].
      { unfold tail_text in ET. destruct (v_pre v), (v_build v); cbn in ET; try discriminate; auto. }
      unfold ver_pieces in EW. rewrite Ep, Eb in EW. cbn [app] in EW. change (sv_empty []) with true in EW. cbv iota in EW. cbn [app] in EW.
      change [PNum (v_major v); PChar 46; PNum (v_minor v); PChar 46; PNum (v_patch v)] with
        ([PNum (v_major v); PChar 46; PNum (v_minor v); PChar 46] ++ [PNum (v_patch v)]) in EW.
      rewrite appends_app in EW.
      destruct (appends_spec host_be (size b) [PNum (v_major v); PChar 46; PNum (v_minor v); PChar 46] (sb_make b) [] (holds_make b L64)) as (w0 & E0 & K0).
      { repeat apply Forall_cons; try apply Forall_nil; cbn [piece_ok]; try lia; reflexivity. }
      assert (TL : size (concat (map piece_text [PNum (v_major v); PChar 46; PNum (v_minor v); PChar 46])) + size (dec (v_patch v)) = size t).
      { unfold t. cbn [map concat piece_text]. rewrite app_nil_r. rewrite !size_app. change (size [46]) with 1. rewrite !size_cons, !size_app, !size_cons, ?size_app, ?(@size_nil N). lia. }
      rewrite accumulate_total in K0 by lia.
      rewrite E0 in EW. cbn [bind sb_appends sb_append] in EW.
      destruct (num_terminated (size b) w0 _ (v_patch v) K0) as (w' & E1 & K1 & r1 & R1); [lia|lia|]. rewrite E1 in EW. cbn [bind] in EW. injection EW as <-.
      cbn [app]. rewrite size_app, TL in R1. rewrite R1. cbn. unfold digit. lia.
    + cbn [app stops]. unfold tail_text in ET. destruct (v_pre v) as [|x p]; cbn [tagged app] in ET.
      * destruct (v_build v) as [|y q]; cbn [tagged] in ET; [discriminate|]. injection ET as <- _. apply not_digit_43.
      * injection ET as <- _. apply not_digit_45.
Qed.

(** ** What strtoul reads *)
Definition stopper (z : N) : Prop := c_space z = false /\ c_digit z = false /\ z <> 43 /\ z <> 45.
Lemma skip_spaces_spec s z : c_space z = false -> forall used, exists k, k <= size s /\
  (forall rest, skip_spaces (s ++ z :: rest) used = Ret (ndrop k (s ++ z :: rest), used + k)).
Proof.
  intros Hz. induction s as [|c t IH]; intros used; cbn [app skip_spaces].
  - exists 0. split; [lia|]. intros r. rewrite Hz, ndrop_0, N.add_0_r. reflexivity.
  - destruct (c_space c) eqn:E.
    + destruct (IH (used + 1)) as (k & L & H). exists (k + 1). rewrite size_cons. split; [lia|]. intros r. rewrite H. cbn [ndrop].
      destruct (N.eqb_spec (k + 1) 0); [lia|]. replace (N.pred (k + 1)) with k by lia. f_equal. f_equal. lia.
    + exists 0. split; [lia|]. intros r. rewrite ndrop_0, N.add_0_r. reflexivity.
Qed.
Lemma scan_digits_stop s z : c_digit z = false -> forall acc used, exists a k, k <= size s /\
  forall rest, scan_digits (s ++ z :: rest) acc used = Ret (a, used + k).
Proof.
  intros Hz. induction s as [|c t IH]; intros acc used; cbn [app scan_digits].
  - exists acc, 0. split; [lia|]. intros r. now rewrite Hz, N.add_0_r.
  - destruct (c_digit c) eqn:E.
    + destruct (IH (acc * 10 + (c - 48)) (used + 1)) as (a & k & L & H). exists a, (k + 1). rewrite size_cons. split; [lia|]. intros r.
      rewrite H. f_equal. f_equal. lia.
    + exists acc, 0. split; [lia|]. intros r. now rewrite N.add_0_r.
Qed.
Lemma strtoul_stop s z : stopper z -> exists v k, k <= size s /\ forall rest, strtoul (s ++ z :: rest) = Ret (v, k).
Proof.
  intros (Hs & Hd & Hp & Hm). destruct (skip_spaces_spec s z Hs 0) as (k & L & H).
  assert (Q : forall rest, ndrop k (s ++ z :: rest) = ndrop k s ++ z :: rest).
  { intros r. rewrite ndrop_app. now rewrite (proj2 (N.sub_0_le _ _) L), ndrop_0. }
  destruct (ndrop k s) as [|c t] eqn:Es.
  - exists 0, 0. split; [lia|]. intros r. unfold strtoul. rewrite H, Q. cbn [bind fst snd app].
    destruct (N.eqb_spec z 43); [congruence|]. destruct (N.eqb_spec z 45); [congruence|]. cbn [orb scan_digits]. rewrite Hd. reflexivity.
  - assert (SZ : size t + 1 = size s - k) by (rewrite <- size_cons with (x := c), <- Es; apply size_ndrop).
    destruct ((c =? 43) || (c =? 45)) eqn:Sg.
    + destruct (scan_digits_stop t z Hd 0 0) as (a & m & Lm & Hm').
      exists (if m =? 0 then 0 else if 2 ^ 64 <=? a then 2 ^ 64 - 1 else if c =? 45 then sub64 0 a else a), (if m =? 0 then 0 else k + 1 + m). split; [destruct (m =? 0); lia|]. intros r. unfold strtoul. rewrite H, Q. cbn [bind fst snd app].
      rewrite Sg, Hm'. cbn [bind fst snd]. rewrite !N.add_0_l. destruct (m =? 0); reflexivity.
    + destruct (scan_digits_stop (c :: t) z Hd 0 0) as (a & m & Lm & Hm'). rewrite size_cons in Lm.
      exists (if m =? 0 then 0 else if 2 ^ 64 <=? a then 2 ^ 64 - 1 else if c =? 45 then sub64 0 a else a), (if m =? 0 then 0 else k + 0 + m). split; [destruct (m =? 0); lia|]. intros r. unfold strtoul. rewrite H, Q. cbn [bind fst snd app].
      rewrite Sg. change (c :: t ++ z :: r) with ((c :: t) ++ z :: r). rewrite Hm'. cbn [bind fst snd]. rewrite !N.add_0_l. destruct (m =? 0); reflexivity.
Qed.
Lemma strtoul_at s z o : stopper z -> o <= size s -> exists v k, o + k <= size s /\ forall rest, strtoul (ndrop o (s ++ z :: rest)) = Ret (v, k).
Proof.
  intros H L. destruct (strtoul_stop (ndrop o s) z H) as (v & k & Lk & E). rewrite size_ndrop in Lk. exists v, k. split; [lia|].
  intros r. rewrite ndrop_app, (proj2 (N.sub_0_le _ _) L), ndrop_0. apply E.
Qed.

Lemma ver_tags_ret alloc ps : heap_ok alloc -> forall i pre build, exists r, ver_tags alloc i ps pre build = Ret r.
Proof.
  intros H. induction ps as [|p ps IH]; intros i pre build; cbn [ver_tags]; [eauto|]. destruct i as [|[|i]].
  - unfold sv_trim_char. destruct (trim_by_spec (fun x => x =? 45) p) as (u & E & _). rewrite E. cbn [bind].
    destruct (str_make_ret alloc u H) as ([s|e] & E2); rewrite E2; cbn [bind]; eauto.
  - destruct (str_make_ret alloc p H) as ([s|e] & E2); rewrite E2; cbn [bind]; eauto.
  - eauto.
Qed.

(** Behind a byte that cannot continue a number, parse reads the text only. *)
Lemma parse_local alloc s z : heap_ok alloc -> sv_ok s -> stopper z ->
  exists r, (forall rest, ver_parse alloc s (z :: rest) = Ret r) /\
  ((count_occ N.eq_dec s 46%N < 2)%nat -> r = Err E_InvalidInput).
Proof.
  intros H L Z. unfold ver_parse. destruct (split_char_spec 46 s L) as (ps & E & S). rewrite E. cbn [bind fst].
  pose proof (splits_char_count _ _ _ S) as CO. pose proof (splits_glue _ _ _ S) as G.
  assert (M : forall rest, s ++ z :: rest = ndrop 0 (s ++ z :: rest)) by (intros; now rewrite ndrop_0).
  destruct (strtoul_at s z 0 Z ltac:(lia)) as (v0 & k0 & _ & E0).
  destruct ps as [|p0 ps]; [now apply splits_nonempty in S|].
  destruct ps as [|p1 ps].
  { exists (Err E_InvalidInput). split; [|trivial]. intros r. rewrite M, E0. reflexivity. }
  assert (L1 : size p0 + 1 + size (glue [46] (p1 :: ps)) = size s).
  { rewrite <- G. change (glue [46] (p0 :: p1 :: ps)) with (p0 ++ [46] ++ glue [46] (p1 :: ps)). rewrite !size_app. change (size [46]) with 1. lia. }
  destruct (strtoul_at s z (size p0 + 1) Z ltac:(lia)) as (v1 & k1 & _ & E1).
  destruct ps as [|p2 ps].
  { exists (Err E_InvalidInput). split; [|trivial]. intros r. rewrite M at 1. rewrite E0. cbn [bind]. rewrite E1. reflexivity. }
  assert (L2 : size p1 + 1 + size (glue [46] (p2 :: ps)) = size (glue [46] (p1 :: p2 :: ps))).
  { change (glue [46] (p1 :: p2 :: ps)) with (p1 ++ [46] ++ glue [46] (p2 :: ps)). rewrite !size_app. change (size [46]) with 1. lia. }
  destruct (strtoul_at s z (size p0 + 1 + size p1 + 1) Z ltac:(lia)) as (v2 & k2 & K2 & E2).
  set (o := size p0 + 1 + size p1 + 1) in *. set (r := ndrop (o + k2) s).
  assert (AP : forall rest, ver_afterPatch (s ++ z :: rest) (size s) (o + k2) = Ret r).
  { intros rest. unfold ver_afterPatch. destruct (N.eqb_spec (o + k2) (size s)) as [Q|Q].
    - f_equal. symmetry. unfold r. apply ndrop_all. lia.
    - unfold sv_ok in L. rewrite Z.mod_small by lia. replace (Z.to_N _) with (size s - (o + k2)) by lia. rewrite size_app.
      destruct (N.leb_spec (o + k2 + (size s - (o + k2))) (size s + size (z :: rest))); [|lia]. f_equal.
      rewrite ndrop_app, (proj2 (N.sub_0_le _ _) K2), ndrop_0. fold r. replace (size s - (o + k2)) with (size r) by (unfold r; apply size_ndrop). now apply ntake_app_exact. }
  set (mk := mkVersion (u32 v0) (u32 v1) (u32 v2)).
  assert (OKr : sv_ok r) by (unfold r, sv_ok in *; rewrite size_ndrop; lia).
  destruct (split_char_spec 43 r OKr) as (qs & EQ & _).
  destruct (ver_tags_ret alloc qs H 0 [] []) as (tg & ET).
  exists (if sv_empty r then Ok (mk [] []) else match tg with Err e => Err e | Ok (i, pre, build) => if (2 <? i)%nat then Err E_InvalidInput else Ok (mk pre build) end).
  split; [|cbn [length] in CO; lia].
  intros rest. rewrite M at 1. rewrite E0. cbn [bind fst snd]. rewrite E1. cbn [bind fst snd]. rewrite E2. cbn [bind fst snd]. rewrite AP. cbn [bind].
  destruct (sv_empty r); [reflexivity|]. rewrite EQ. cbn [bind fst]. rewrite ET. cbn [bind].
  destruct tg as [[[i pre] build]|e]; [|reflexivity]. destruct (2 <? i)%nat; reflexivity.
Qed.
