(** C32, C33, C65, C66: Version. *)
From Verif Require Import Base BaseLemmas LexSpec LexProofs StringSpec StringModel StringViewModel StringViewProofs StringProofs StringProps.
From Verif Require Import FmtModel FmtSpec FmtProofs BuilderModel BuilderSpec BuilderProofs VersionModel VersionSpec VersionProofs.
Ltac Zify.zify_post_hook ::= Z.div_mod_to_equations.

(** ** C32 *)
Lemma lex3 a b c x y z : lexltb [a; b; c] [x; y; z] = true <-> a < x \/ (a = x /\ (b < y \/ (b = y /\ c < z))).
Proof.
  cbn [lexltb]. destruct (N.ltb_spec a x), (N.eqb_spec a x), (N.ltb_spec b y), (N.eqb_spec b y), (N.ltb_spec c z), (N.eqb_spec c z); cbn; intuition (try lia; try congruence).
Qed.
(** operator> is the dictionary order on (major, minor, patch): a strict order. *)
Theorem C32_gt : forall a b, ver_gt a b = true <-> lex_lt (numbers b) (numbers a).
Proof.
  intros a b. unfold numbers. rewrite <- lexltb_spec, lex3. unfold ver_gt.
  destruct (N.ltb_spec (v_major b) (v_major a)); [intuition lia|]. destruct (N.ltb_spec (v_major a) (v_major b)); [intuition (try lia; discriminate)|].
  destruct (N.ltb_spec (v_minor b) (v_minor a)); [intuition lia|]. destruct (N.ltb_spec (v_minor a) (v_minor b)); [intuition (try lia; discriminate)|].
  rewrite N.ltb_lt. lia.
Qed.
Print Assumptions C32_gt.
Theorem C32_gt_strict_order : (forall a, ver_gt a a = false) /\
  (forall a b c, ver_gt a b = true -> ver_gt b c = true -> ver_gt a c = true) /\
  (forall a b, ver_gt a b = true -> ver_gt b a = false).
Proof.
  assert (I : forall a, ver_gt a a = false) by (intros a; destruct (ver_gt a a) eqn:E; [apply C32_gt in E; now apply lex_irrefl in E|reflexivity]).
  assert (T : forall a b c, ver_gt a b = true -> ver_gt b c = true -> ver_gt a c = true).
  { intros a b c. rewrite !C32_gt. intros X Y. eapply lex_trans; eauto. }
  split; [exact I|]. split; [exact T|]. intros a b H. destruct (ver_gt b a) eqn:E; [|reflexivity]. rewrite <- (I a). symmetry. eauto.
Qed.
Print Assumptions C32_gt_strict_order.
(** Between versions whose numbers differ, < is the converse of >. *)
Theorem C32_lt_partial : forall a b, numbers a <> numbers b ->
  (ver_lt a b = true <-> lex_lt (numbers a) (numbers b)) /\ ver_lt a b = ver_gt b a.
Proof.
  intros a b H.
  assert (K : ver_lt a b = true <-> lex_lt (numbers a) (numbers b)).
  { unfold ver_lt. rewrite negb_true_iff. destruct (lex_total (numbers a) (numbers b)) as [X|[X|X]]; [|congruence|].
    - split; [trivial|]. intros _. destruct (ver_gt a b) eqn:E; [|reflexivity]. apply C32_gt in E. now apply lex_asym in E.
    - split; [|intros Y; now apply lex_asym in Y]. intros E. apply C32_gt in X. congruence. }
  split; [exact K|]. rewrite <- C32_gt in K. destruct (ver_lt a b), (ver_gt b a); intuition congruence.
Qed.
Print Assumptions C32_lt_partial.
(** operator< holds between a version and itself, although the two are equal. *)
Theorem C32_lt_refuted : forall a, ver_lt a a = true /\ ver_equals a a = true /\ ver_gt a a = false.
Proof.
  intros a. unfold ver_lt. rewrite (proj1 C32_gt_strict_order a). split; [reflexivity|]. split; [|reflexivity].
  unfold ver_equals. rewrite !N.eqb_refl, sv_equals_refl. reflexivity.
Qed.
Print Assumptions C32_lt_refuted.
(** == compares numbers and pre-release tag and ignores the build tag. *)
Theorem C32_equals : forall a b, ver_equals a b = true <-> numbers a = numbers b /\ v_pre a = v_pre b.
Proof.
  intros a b. unfold ver_equals, numbers. rewrite !andb_true_iff, !N.eqb_eq, sv_equals_spec. split.
  - intros (((-> & ->) & ->) & ->). auto.
  - intros (E & ->). injection E as -> -> ->. auto.
Qed.
Print Assumptions C32_equals.
Theorem C32_equals_not_gt : forall a b, ver_equals a b = true -> ver_gt a b = false /\ ver_gt b a = false.
Proof.
  intros a b E. apply C32_equals in E as (E & _).
  split; [destruct (ver_gt a b) eqn:G|destruct (ver_gt b a) eqn:G]; try reflexivity; apply C32_gt in G; rewrite E in G; now apply lex_irrefl in G.
Qed.
Print Assumptions C32_equals_not_gt.
(** A pre-release is neither equal to, nor greater than, nor smaller (by >) than its release. *)
Theorem C32_prerelease_refuted : forall a b, numbers a = numbers b -> v_pre a <> v_pre b ->
  ver_equals a b = false /\ ver_gt a b = false /\ ver_gt b a = false /\ ver_lt a b = true /\ ver_lt b a = true.
Proof.
  intros a b E P. assert (G : ver_gt a b = false /\ ver_gt b a = false).
  { split; [destruct (ver_gt a b) eqn:G|destruct (ver_gt b a) eqn:G]; try reflexivity; apply C32_gt in G; rewrite E in G; now apply lex_irrefl in G. }
  destruct G as (G1 & G2). unfold ver_lt. rewrite G1, G2. repeat split. destruct (ver_equals a b) eqn:X; [|reflexivity]. apply C32_equals in X. now destruct X.
Qed.
Print Assumptions C32_prerelease_refuted.
Example C32_ok : let a := mkVersion 1 9 0 [] [] in let b := mkVersion 1 10 0 [97] [] in
  numbers a <> numbers b /\ ver_gt b a = true /\ ver_lt a b = true /\ ver_lt b a = false /\ ver_equals a b = false.
Proof. cbv zeta. split; [discriminate|]. repeat split. Qed.

(** ** C33 *)
(** toString gives MAJOR.MINOR.PATCH[-pre][+build] and parsing it gives the version back,
    tags included. *)
Theorem C33_round_trip : forall host_be alloc v, heap_total alloc -> version_ok v -> tags_ok v ->
  (forall t, version_text v t -> size t < 2 ^ 16) ->
  exists st, ver_toString host_be alloc v = Ret st /\ version_text v (str_view st) /\ ver_parse_string alloc st = Ret (Ok v).
Proof.
  intros host_be alloc v T O G L.
  set (t := dec (v_major v) ++ 46 :: dec (v_minor v) ++ 46 :: dec (v_patch v) ++ tail_text (v_pre v) (v_build v)).
  assert (VT : version_text v t) by (exists (dec (v_major v)), (dec (v_minor v)), (dec (v_patch v)); repeat (split; [apply dec_spec|]); reflexivity).
  pose proof (L t VT) as Lt. destruct (toString_spec host_be alloc v T O Lt) as (st & E & V & S). fold t in V, S.
  exists st. split; [exact E|]. split; [now rewrite V|]. unfold ver_parse_string. rewrite V.
  apply parse_text; try assumption; apply dec_spec.
Qed.
Print Assumptions C33_round_trip.
(** toString writes the same text whatever the tags are. *)
Theorem C33_text : forall host_be alloc v, heap_total alloc -> version_ok v -> (forall t, version_text v t -> size t < 2 ^ 16) ->
  exists st, ver_toString host_be alloc v = Ret st /\ version_text v (str_view st).
Proof.
  intros host_be alloc v T O L.
  set (t := dec (v_major v) ++ 46 :: dec (v_minor v) ++ 46 :: dec (v_patch v) ++ tail_text (v_pre v) (v_build v)).
  assert (VT : version_text v t) by (exists (dec (v_major v)), (dec (v_minor v)), (dec (v_patch v)); repeat (split; [apply dec_spec|]); reflexivity).
  destruct (toString_spec host_be alloc v T O (L t VT)) as (st & E & V & _). exists st. split; [exact E|]. fold t in V. now rewrite V.
Qed.
Print Assumptions C33_text.
(** The text of a version parses to it wherever it lies, if no digit follows. *)
Theorem C33_parse : forall alloc v t after, heap_total alloc -> version_ok v -> tags_ok v -> version_text v t -> size t < 2 ^ 16 ->
  match v_pre v ++ v_build v ++ after with [] => False | c :: _ => v_pre v = [] -> v_build v = [] -> ~ digit c end ->
  ver_parse alloc t after = Ret (Ok v).
Proof.
  intros alloc v t after T O G (a & b & c & A & B & C & ->) L S. apply parse_text; try assumption.
  unfold tail_text. destruct (v_pre v) as [|x p]; cbn [tagged app] in *; [|apply not_digit_45].
  destruct (v_build v) as [|y q]; cbn [tagged app] in *; [|apply not_digit_43]. destruct after; [contradiction|]. now apply S.
Qed.
Print Assumptions C33_parse.
(** A pre-release tag ending in '-' (allowed by the semver grammar) is not preserved. *)
Theorem C33_dash_limit : exists st v', let v := mkVersion 1 0 0 [114; 99; 45] [] in
  version_ok v /\ ver_toString false junk_heap v = Ret st /\ ver_parse_string junk_heap st = Ret (Ok v') /\
  str_view st = [49; 46; 48; 46; 48; 45; 114; 99; 45] /\ v_pre v' = [114; 99].
Proof.
  eexists. eexists. cbv zeta. split; [repeat split; cbv; reflexivity|]. repeat (split; [vm_compute; reflexivity|]). vm_compute; reflexivity.
Qed.
Print Assumptions C33_dash_limit.
Lemma junk_heap_total : heap_total junk_heap.
Proof. split; [exact junk_heap_ok|]. intros n. eexists. reflexivity. Qed.
Example C33_ok : let v := mkVersion 4294967295 0 17 [114; 99; 46; 49; 45; 98] [50; 48] in version_ok v /\ tags_ok v /\
  (exists st, ver_toString false junk_heap v = Ret st /\ ver_parse_string junk_heap st = Ret (Ok v) /\ size (str_view st) = 25).
Proof.
  cbv zeta. split; [repeat split; cbv; reflexivity|]. split.
  - unfold tags_ok. cbn. repeat split; try lia; intuition lia.
  - eexists. repeat (split; [vm_compute; reflexivity|]). vm_compute; reflexivity.
Qed.

(** ** C65: parse looks only at the text it is given *)
(** True if the byte after the text is none that strtoul accepts (e.g. NUL): the result
    is independent of the memory behind it and no undefined behaviour occurs. *)
Theorem C65_local_partial : forall alloc s z, heap_ok alloc -> sv_ok s -> ~ digit z -> ~ whitespace z -> z <> 43 -> z <> 45 ->
  exists r, forall rest, ver_parse alloc s (z :: rest) = Ret r.
Proof.
  intros alloc s z H L D W P M. destruct (parse_local alloc s z H L) as (r & E & _); [|eauto].
  split; [|split; [now apply c_digit_false|auto]]. destruct (c_space z) eqn:E; [|reflexivity]. exfalso. apply W. unfold c_space in E. unfold whitespace.
  destruct (N.leb_spec 9 z), (N.leb_spec z 13), (N.eqb_spec z 32); cbn [andb orb] in E; try discriminate; cbn [In]; lia.
Qed.
Print Assumptions C65_local_partial.
(** Otherwise it is not: parsing a view of "1.2.3" cut out of "1.2.34", or one at the very
    end of its allocation, is undefined behaviour. *)
Theorem C65_local_refuted :
  ver_parse junk_heap [49; 46; 50; 46; 51] [52; 0] = UB /\
  ver_parse junk_heap [49; 46; 50; 46; 51] [0] = Ret (Ok (mkVersion 1 2 3 [] [])) /\
  ver_parse junk_heap [49; 46; 50; 46; 51] [] = UB.
Proof. repeat (split; [vm_compute; reflexivity|]). vm_compute; reflexivity. Qed.
Print Assumptions C65_local_refuted.
Example C65_ok : ver_parse junk_heap [49; 46; 50; 46; 51; 45; 120] [0; 1; 2] = Ret (Ok (mkVersion 1 2 3 [120] [])).
Proof. vm_compute; reflexivity. Qed.

(** ** C66: malformed texts are rejected *)
(** Texts with fewer than two dots are rejected. *)
Theorem C66_reject_partial : forall alloc s rest, heap_ok alloc -> sv_ok s -> (count_occ N.eq_dec s 46%N < 2)%nat ->
  ver_parse alloc s (0 :: rest) = Ret (Err E_InvalidInput).
Proof.
  intros alloc s rest H L C. destruct (parse_local alloc s 0 H L) as (r & E & K); [repeat split; discriminate|]. rewrite (E rest), (K C). reflexivity.
Qed.
Print Assumptions C66_reject_partial.
(** So are the texts where more than one '+' follows the three numbers. *)
Theorem C66_plus_partial alloc x y z a b c r after : heap_total alloc -> x < 2 ^ 32 -> y < 2 ^ 32 -> z < 2 ^ 32 ->
  decimal x a -> decimal y b -> decimal z c -> ~ digit (hd 48 r) ->
  let t := a ++ 46 :: b ++ 46 :: c ++ r in
  size t < 2 ^ 16 -> (2 <= count_occ N.eq_dec r 43%N)%nat ->
  ver_parse alloc t after = Ret (Err E_InvalidInput).
Proof.
  intros T X Y Z A B C St t L CO. assert (stops (r ++ after)) as St'.
  { destruct r as [|k r']; [cbn in CO; lia | exact St]. }
  unfold t. rewrite (parse_front alloc _ _ _ _ _ _ _ after X Y Z A B C L St').
  destruct (sv_empty r) eqn:E. { rewrite sv_empty_nil in E. destruct r; [cbn in CO; lia | discriminate]. }
  destruct (split_char_spec 43 r) as (qs & EQ & S).
  { unfold sv_ok. unfold t in L. rewrite !size_app, !size_cons, !size_app, !size_cons, !size_app in L. lia. }
  rewrite EQ. cbn [bind fst]. destruct (ver_tags_count alloc qs T 0 [] []) as (p & b' & ->). cbn [bind].
  apply splits_char_count in S. destruct (Nat.ltb_spec 2 (0 + length qs)); [reflexivity | lia].
Qed.
Print Assumptions C66_plus_partial.
(** Other malformed texts are accepted: "a.b.c", "1.2.3.4", "4294967296.0.0" and "-1.0.0". *)
Theorem C66_reject_refuted :
  ver_parse junk_heap [97; 46; 98; 46; 99] [0] = Ret (Ok (mkVersion 0 0 0 [99] [])) /\
  ver_parse junk_heap [49; 46; 50; 46; 51; 46; 52] [0] = Ret (Ok (mkVersion 1 2 3 [46; 52] [])) /\
  ver_parse junk_heap [52; 50; 57; 52; 57; 54; 55; 50; 57; 54; 46; 48; 46; 48] [0] = Ret (Ok (mkVersion 0 0 0 [] [])) /\
  ver_parse junk_heap [45; 49; 46; 48; 46; 48] [0] = Ret (Ok (mkVersion 4294967295 0 0 [] [])).
Proof. repeat (split; [vm_compute; reflexivity|]). vm_compute; reflexivity. Qed.
Print Assumptions C66_reject_refuted.
Example C66_ok : (count_occ N.eq_dec [49; 46; 50]%N 46%N < 2)%nat /\ ver_parse junk_heap [49; 46; 50] [0] = Ret (Err E_InvalidInput) /\
  ver_parse junk_heap [49; 46; 50; 46; 51; 43; 97; 43; 98] [0] = Ret (Err E_InvalidInput).
Proof. split; [cbn; lia|]. split; vm_compute; reflexivity. Qed.
