From Verif Require Import Base BaseLemmas LexSpec StringSpec StringViewModel StringViewProofs StringModel StringProofs StringProps PathModel PathSpec PathProofs.

(** Heaps that hand out every block asked for. *)
Definition heap_full (alloc : heap) : Prop := heap_ok alloc /\ forall n, exists b, alloc n = Ok b.
Lemma junk_heap_full : heap_full junk_heap.
Proof. split; [exact junk_heap_ok|]. intros n. eexists. reflexivity. Qed.

(** ** C29 *)
(** parse: the pieces between delimiters, without an empty last one. *)
Theorem C29_parse_partial : forall fuel d s, sv_ok s -> d <> [] -> (length s < fuel)%nat ->
  exists ps, splits d s ps /\
    (size ps < 2 ^ 16 -> exists p, path_parse fuel d s = Ret p /\ components ps (p_comps p)).
Proof.
  intros fuel d s Hs Hd Hf. destruct (parse_spec fuel d s Hs Hd Hf) as (ps & S & H). exists ps. split; [exact S|].
  intros L. destruct (H L) as (cs & C & E). exists (mkPath cs (size ps)). auto.
Qed.
Print Assumptions C29_parse_partial.

Lemma splits_last_piece d s ps : d <> [] -> splits d s ps -> last ps [] = [] -> s = [] \/ exists r, s = r ++ d.
Proof.
  intros Hd S L. pose proof (splits_nonempty _ _ _ S) as NE. destruct (exists_last NE) as (qs & x & ->). rewrite last_last in L. subst x.
  rewrite <- (splits_glue _ _ _ S). destruct qs as [|q qs]; [now left|]. right. rewrite glue_snoc by discriminate.
  rewrite app_nil_r. eauto.
Qed.

Lemma Forall_sv_ok_glue d cs : size (glue d cs) < 2 ^ 16 -> Forall sv_ok cs.
Proof.
  induction cs as [|c cs IH]; intros H; [constructor|]. destruct cs as [|c2 cs].
  - constructor; [exact H|constructor].
  - change (glue d (c :: c2 :: cs)) with (c ++ d ++ glue d (c2 :: cs)) in H. rewrite !size_app in H.
    constructor; [unfold sv_ok; lia|apply IH; lia].
Qed.

(** toString(parse(s)) = s for every non-empty text without a trailing delimiter. *)
Theorem C29_text_round_trip_partial : forall alloc fuel d s, heap_full alloc -> sv_ok s -> sv_ok d -> d <> [] -> (length s < fuel)%nat ->
  s <> [] -> ~ (exists r, s = r ++ d) ->
  exists p st, path_parse fuel d s = Ret p /\ path_toString alloc d p = Ret st /\ str_view st = s.
Proof.
  intros alloc fuel d s (H & A) Hs Hdo Hd Hf NE NT. destruct (parse_spec fuel d s Hs Hd Hf) as (ps & S & P).
  pose proof (splits_nonempty _ _ _ S) as PN.
  assert (L : size ps < 2 ^ 16).
  { destruct (N.lt_ge_cases (size ps) (2 ^ 16)) as [|G]; [assumption|]. exfalso. apply NT.
    destruct (splits_many _ _ _ Hs Hd S G) as (E & D1 & _). destruct d as [|c d]; [congruence|]. rewrite size_cons in D1.
    assert (d = []) as -> by (apply size_0_nil; lia). cbn [hd] in E. rewrite E. exists (repeat c (N.to_nat 65534)).
    rewrite <- repeat_cons. reflexivity. }
  destruct (P L) as (cs & C & E). assert (LP : last ps [] <> []).
  { intros X. destruct (splits_last_piece _ _ _ Hd S X); [congruence|auto]. }
  assert (cs = ps) as ->.
  { destruct C as [(qs & -> & _)|(_ & ->)]; [rewrite last_last in LP; congruence|reflexivity]. }
  pose proof (splits_glue _ _ _ S) as G.
  assert (T : path_text d ps = s).
  { destruct ps as [|[|c0 c] [|c2 cs]]; try assumption. cbn in LP. congruence. }
  assert (SP : 0 < size ps) by (destruct ps; [congruence|rewrite size_cons; lia]).
  destruct (toString_spec alloc d (mkPath ps (size ps)) H Hdo) as (st & TS & V & _); cbn [p_comps p_cap]; auto; try lia.
  { apply (Forall_sv_ok_glue d). now rewrite G. }
  { rewrite T. exact Hs. }
  cbn [p_comps] in V. rewrite T in V. eauto.
Qed.
Print Assumptions C29_text_round_trip_partial.
Example C29_ok : exists p st, path_parse 9 [47] [47;97;47;98] = Ret p /\ p_comps p = [[];[97];[98]] /\
  path_toString junk_heap [47] p = Ret st /\ str_view st = [47;97;47;98].
Proof. eexists. eexists. repeat (split; [vm_compute; reflexivity|]); vm_compute; reflexivity. Qed.

(** The empty text comes back as the delimiter. *)
Theorem C29_empty_text_refuted : forall alloc d fuel, heap_full alloc -> sv_ok d -> d <> [] ->
  exists p st, path_parse (S fuel) d [] = Ret p /\ path_toString alloc d p = Ret st /\ str_view st = d.
Proof.
  intros alloc d fuel (H & A) Hdo Hd. destruct (parse_spec (S fuel) d [] ltac:(reflexivity) Hd ltac:(cbn; lia)) as (ps & SP & P).
  assert (ps = [[]]) as ->.
  { apply (splits_det d [] ps [[]] Hd SP). apply splits_last. intros i. rewrite occurs_alt, (@size_nil N). pose proof (size_pos d Hd). lia. }
  destruct (P ltac:(reflexivity)) as (cs & C & E).
  assert (cs = [[]]) as ->.
  { apply (components_det _ _ _ C). left. exists []. auto. }
  destruct (toString_spec alloc d (mkPath [[]] (size [@nil N])) H Hdo) as (st & TS & V & _); cbn [p_comps p_cap]; auto; try discriminate.
  all: try (repeat constructor; fail); try exact Hdo; try reflexivity.
  eauto.
Qed.
Print Assumptions C29_empty_text_refuted.

Lemma splits_delim d : d <> [] -> splits d d [[]; []].
Proof.
  intros Hd. pose proof (size_pos d Hd). replace d with ([] ++ d ++ []) at 2 by apply app_nil_r.
  apply splits_first; [cbn [length]; intros i Hi; lia|]. apply splits_last. intros i. rewrite occurs_alt, (@size_nil N). lia.
Qed.

(** For a path [p] that parse produced, writing it out and parsing again gives [p]
    exactly when [p] is the root or its last component is not empty. *)
Theorem C29_path_round_trip_partial : forall alloc fuel fuel' d s p, heap_full alloc -> sv_ok s -> sv_ok d -> d <> [] ->
  (length s < fuel)%nat -> path_parse fuel d s = Ret p -> p_comps p <> [] -> (length s < fuel')%nat -> (length d < fuel')%nat ->
  exists st p', path_toString alloc d p = Ret st /\ path_parse fuel' d (str_view st) = Ret p' /\
    (p_comps p' = p_comps p <-> p_comps p = [[]] \/ last (p_comps p) [] <> []).
Proof.
  intros alloc fuel fuel' d s p (H & A) Hs Hdo Hd Hf E NEp Hf' Hfd. destruct (parse_spec fuel d s Hs Hd Hf) as (ps & S & P).
  pose proof (splits_nonempty _ _ _ S) as PN. assert (SPP : 0 < size ps) by (destruct ps; [congruence|rewrite size_cons; lia]).
  destruct (N.lt_ge_cases (size ps) (2 ^ 16)) as [L|G].
  2:{ exfalso. apply NEp. destruct (split3_spec fuel d s Hs Hd Hf) as (ps' & E3 & S3).
      assert (ps' = ps) as -> by exact (splits_det d s ps' ps Hd S3 S). destruct (splits_many _ _ _ Hs Hd S G) as (_ & _ & SZ).
      unfold path_parse in E. rewrite E3 in E. cbn [bind fst] in E. change (N.of_nat (length ps)) with (size ps) in E. rewrite SZ in E.
      change (u16 (2 ^ 16)) with 0 in E.
      assert (Z : forall qs i, fold_left parse_step (indexed i 0 qs) path_none = path_none).
      { induction qs as [|q qs IH]; intros i; [reflexivity|]. cbn [indexed fold_left]. unfold parse_step at 2.
        change (0 =? 0) with true. rewrite Bool.andb_false_r. destruct (N.eqb_spec (i + 1) 0); [lia|]. apply IH. }
      rewrite Z in E. cbn in E. now injection E as <-. }
  destruct (P L) as (cs & C & E'). rewrite E' in E. injection E as <-. cbn [p_comps] in *.
  destruct C as [(qs & EP & [(-> & ->)|(QN & ->)])|(LP & ->)].
  - (* the root *)
    destruct (toString_spec alloc d (mkPath [[]] (size ps)) H Hdo) as (st & TS & V & _); cbn [p_comps p_cap]; auto; try discriminate; try lia.
    all: try (repeat constructor; fail); try exact Hdo; try reflexivity.
    cbn [p_comps] in V. destruct (parse_spec fuel' d d Hdo Hd Hfd) as (pd & SD & PD).
    assert (pd = [[]; []]) as -> by exact (splits_det d d _ _ Hd SD (splits_delim d Hd)).
    destruct (PD ltac:(reflexivity)) as (cs' & C' & E'').
    assert (cs' = [[]]) as ->. { apply (components_det _ _ _ C'). left. exists [[]]. split; [reflexivity|]. right. split; [discriminate|reflexivity]. }
    exists st. eexists. split; [exact TS|]. split; [rewrite V; exact E''|]. cbn. tauto.
  - (* an empty last piece was dropped *)
    subst ps. pose proof (splits_drop d s _ Hd S qs eq_refl QN) as SQ. pose proof (splits_glue _ _ _ S) as G. rewrite glue_snoc, app_nil_r in G by exact QN.
    assert (LG : size (glue d qs) + size d = size s) by (rewrite <- G, size_app; reflexivity). unfold sv_ok in Hs.
    assert (QQ : 0 < size qs < 2 ^ 16). { rewrite size_app in L. destruct qs; [congruence|]. rewrite size_cons in *. lia. }
    destruct (list_eq_dec (list_eq_dec N.eq_dec) qs [[]]) as [->|NR].
    + destruct (toString_spec alloc d (mkPath [[]] (size ([[]] ++ [@nil N]))) H Hdo) as (st & TS & V & _); cbn [p_comps p_cap]; auto; try discriminate.
      all: try (repeat constructor; fail); try exact Hdo; try reflexivity.
      cbn [p_comps] in V. destruct (parse_spec fuel' d d Hdo Hd Hfd) as (pd & SD & PD).
      assert (pd = [[]; []]) as -> by exact (splits_det d d _ _ Hd SD (splits_delim d Hd)).
      destruct (PD ltac:(reflexivity)) as (cs' & C' & E'').
      assert (cs' = [[]]) as ->. { apply (components_det _ _ _ C'). left. exists [[]]. split; [reflexivity|]. right. split; [discriminate|reflexivity]. }
      exists st. eexists. split; [exact TS|]. split; [rewrite V; exact E''|]. cbn. tauto.
    + assert (T : path_text d qs = glue d qs).
      { destruct qs as [|[|c0 c] [|c2 cs]]; try reflexivity. congruence. }
      destruct (toString_spec alloc d (mkPath qs (size (qs ++ [@nil N]))) H Hdo) as (st & TS & V & _); cbn [p_comps p_cap]; auto; try lia.
      { apply (Forall_sv_ok_glue d). lia. }
      { rewrite T. lia. }
      cbn [p_comps] in V. rewrite T in V.
      destruct (parse_spec fuel' d (glue d qs)) as (pq & S' & PQ); [unfold sv_ok; lia|exact Hd|unfold size in LG; lia|].
      assert (pq = qs) as -> by exact (splits_det d _ _ _ Hd S' SQ).
      destruct (PQ ltac:(lia)) as (cs' & C' & E''). exists st. eexists. split; [exact TS|]. split; [rewrite V; exact E''|]. cbn [p_comps].
      destruct C' as [(qs' & EQ & [(-> & ->)|(QN' & ->)])|(LP' & ->)].
      * rewrite EQ in *. cbn. tauto.
      * rewrite EQ, last_last. split; [|intros [X|X]; [rewrite EQ in NR; tauto|congruence]].
        intros X. apply (f_equal (@length _)) in X. rewrite app_length in X. cbn in X. lia.
      * tauto.
  - (* nothing dropped *)
    assert (T : path_text d ps = s).
    { rewrite <- (splits_glue _ _ _ S). destruct ps as [|[|c0 c] [|c2 cs]]; try reflexivity. cbn in LP. congruence. }
    destruct (toString_spec alloc d (mkPath ps (size ps)) H Hdo) as (st & TS & V & _); cbn [p_comps p_cap]; auto; try lia.
    { apply (Forall_sv_ok_glue d). rewrite (splits_glue _ _ _ S). exact Hs. }
    { rewrite T. exact Hs. }
    cbn [p_comps] in V. rewrite T in V. destruct (parse_spec fuel' d s Hs Hd Hf') as (ps' & S' & P').
    assert (ps' = ps) as -> by exact (splits_det d _ _ _ Hd S' S). destruct (P' L) as (cs' & C' & E'').
    assert (cs' = ps) as ->. { apply (components_det _ _ _ C'). right. auto. }
    exists st. eexists. split; [exact TS|]. split; [rewrite V; exact E''|]. cbn [p_comps]. tauto.
Qed.
Print Assumptions C29_path_round_trip_partial.
(** A path that does not come back: "a//" parses as (a, ""), is written as "a/" and read
    as (a). *)
Theorem C29_path_round_trip_refuted : exists p st p',
  path_parse 5 [47] [97;47;47] = Ret p /\ p_comps p = [[97];[]] /\
  path_toString junk_heap [47] p = Ret st /\ path_parse 5 [47] (str_view st) = Ret p' /\ p_comps p' = [[97]].
Proof. eexists. eexists. eexists. repeat (split; [vm_compute; reflexivity|]); vm_compute; reflexivity. Qed.
Print Assumptions C29_path_round_trip_refuted.
(** A text of 65535 delimiters has 65536 pieces, the count wraps to 0 and the parsed
    path has no component at all. *)
Theorem C29_many_delimiters_refuted : forall c fuel, (N.to_nat 65535 < fuel)%nat ->
  exists p, path_parse fuel [c] (repeat c (N.to_nat 65535)) = Ret p /\ p_comps p = [].
Proof.
  intros c fuel Hf. set (s := repeat c (N.to_nat 65535)).
  assert (LS : length s = N.to_nat 65535) by apply repeat_length.
  assert (SS : size s = 65535) by (unfold size; rewrite LS; lia).
  destruct (split3_spec fuel [c] s) as (ps & E & S); [unfold sv_ok; rewrite SS; lia|discriminate|rewrite LS; exact Hf|].
  assert (LP : length ps = Datatypes.S (N.to_nat 65535)).
  { rewrite (splits_det [c] s ps _ ltac:(discriminate) S (splits_repeat c (N.to_nat 65535))). apply repeat_length. }
  unfold path_parse. rewrite E. cbn [bind fst]. rewrite LP, Nat2N.inj_succ, N2Nat.id. change (u16 (N.succ 65535)) with 0.
  assert (Z : forall qs i, fold_left parse_step (indexed i 0 qs) path_none = path_none).
  { induction qs as [|q qs IH]; intros i; [reflexivity|]. cbn [indexed fold_left]. unfold parse_step at 2.
    change (0 =? 0) with true. rewrite Bool.andb_false_r. destruct (N.eqb_spec (i + 1) 0); [lia|]. apply IH. }
  rewrite Z. eexists. split; reflexivity.
Qed.
Print Assumptions C29_many_delimiters_refuted.

(** ** C30 *)
Theorem C30_idempotent : forall p, p_comps (path_normalize (path_normalize p)) = p_comps (path_normalize p).
Proof.
  intros p. rewrite (normalize_spec (path_normalize p)). cbn [p_comps]. rewrite (normalize_spec p). cbn [p_comps].
  apply nfold_id. now apply nfold_normal.
Qed.
Print Assumptions C30_idempotent.
(** No "." is left, and ".." at most as the first component. *)
Theorem C30_no_dots_partial : forall p i c, nth_error (p_comps (path_normalize p)) i = Some c ->
  c <> [46] /\ (c = [46; 46] -> i = 0%nat).
Proof.
  intros p i c H. rewrite normalize_spec in H. cbn [p_comps] in H.
  pose proof (nfold_normal (p_comps p) [] I) as NM. destruct (fold_left nstep (p_comps p) []) as [|x r]; [destruct i; discriminate H|].
  destruct NM as (N1 & N2). destruct i as [|i]; cbn in H.
  - injection H as <-. auto.
  - apply nth_error_In in H. rewrite Forall_forall in N2. destruct (N2 c H) as (A & B). split; [exact A|]. intros ->. now destruct B.
Qed.
Print Assumptions C30_no_dots_partial.
(** When the part after a leading root or ".." never climbs above its start, the result
    denotes the same location, keeps exactly that leading component, and has no dots
    after it. *)
Theorem C30_location_partial : forall p pre rest, p_comps p = pre ++ rest -> In pre [[]; [[]]; [[46; 46]]] -> stays 0 rest ->
  exists names, p_comps (path_normalize p) = pre ++ names /\
    Forall (fun c => c <> [] /\ c <> [46] /\ c <> [46; 46]) names /\
    (forall cwd, locate cwd (p_comps (path_normalize p)) = locate cwd (p_comps p)).
Proof.
  intros p pre rest E IN ST. rewrite normalize_spec, E. cbn [p_comps]. rewrite fold_left_app.
  assert (FP : fold_left nstep pre [] = pre) by (cbn in IN; destruct IN as [<-|[<-|[<-|[]]]]; reflexivity). rewrite FP.
  destruct (stays_fold pre rest [] ST (Forall_nil _)) as (names & H1 & H2 & H3). rewrite app_nil_r in H1. rewrite H1.
  exists names. split; [reflexivity|]. split; [exact H2|]. intros cwd.
  pose proof (fun l => eq_trans (f_equal (fold_left walk rest) (eq_sym (app_nil_r l))) (H3 l)) as W.
  assert (WN : forall l, fold_left walk names l = l ++ names) by (now apply walk_all).
  cbn in IN. destruct IN as [<-|[<-|[<-|[]]]]; cbn [app].
  - assert (HN : forall cs, (match cs with [] :: _ => False | _ => True end) -> locate cwd cs = fold_left walk cs cwd).
    { intros [|[|c0 c] cs] X; try reflexivity. destruct X. }
    rewrite !HN; [now rewrite WN, W| |].
    + destruct rest as [|[|c0 c] rest]; auto. cbn in ST. tauto.
    + destruct names as [|[|c0 c] names]; auto. inversion H2 as [|? ? (X & _) ?]; subst. congruence.
  - cbn [locate]. now rewrite WN, W.
  - cbn [locate fold_left]. now rewrite WN, W.
Qed.
Print Assumptions C30_location_partial.
(** An absolute path of that kind stays absolute; a relative one stays relative unless
    nothing is left of it. *)
Theorem C30_absolute_partial : forall p pre rest, p_comps p = pre ++ rest -> In pre [[]; [[]]; [[46; 46]]] -> stays 0 rest ->
  p_comps (path_normalize p) <> [] ->
  path_isAbsolute (path_normalize p) = Ret (match pre with [[]] => true | _ => false end).
Proof.
  intros p pre rest E IN ST NE. destruct (C30_location_partial p pre rest E IN ST) as (names & H & F & _).
  unfold path_isAbsolute, path_empty, path_at. rewrite H in *. rewrite normalize_spec. cbn [p_cap].
  assert (p_comps p <> []). { intros X. apply NE. rewrite <- H, normalize_spec, X. reflexivity. }
  destruct (p_comps p) as [|x cs]; [congruence|]. rewrite size_cons. destruct (N.eqb_spec (size cs + 1) 0); [lia|].
  cbn in IN. destruct IN as [<-|[<-|[<-|[]]]]; try reflexivity. cbn [app] in *.
  destruct names as [|c names]; [congruence|]. cbn. inversion F as [|? ? (X & _) ?]; subst. destruct c; [congruence|reflexivity].
Qed.
Print Assumptions C30_absolute_partial.
Example C30_ok : stays 0 [[97];[46];[98];[46;46];[99]] /\
  p_comps (path_normalize (mkPath ([[]] ++ [[97];[46];[98];[46;46];[99]]) 6)) = [[];[97];[99]].
Proof. split; [cbn; repeat split; try discriminate; lia|reflexivity]. Qed.
(** When everything cancels out the result is a path whose buffer is not empty but that
    has no component: asking whether it is absolute ends the program. *)
Theorem C30_nothing_left_refuted : forall p, p_comps p <> [] -> p_comps (path_normalize p) = [] ->
  path_isAbsolute (path_normalize p) = Terminates /\ forall alloc d, path_toString alloc d (path_normalize p) = Terminates.
Proof.
  intros p NE E. assert (X : path_isAbsolute (path_normalize p) = Terminates).
  { unfold path_isAbsolute, path_empty, path_at. rewrite E. rewrite normalize_spec. cbn [p_cap].
    destruct (p_comps p) as [|x cs]; [congruence|]. rewrite size_cons. destruct (N.eqb_spec (size cs + 1) 0); [lia|reflexivity]. }
  split; [exact X|]. intros alloc d. unfold path_toString. now rewrite X.
Qed.
Print Assumptions C30_nothing_left_refuted.
Example C30_nothing_left_ok : exists p, path_parse 5 [47] [97;47;46;46] = Ret p /\ p_comps p <> [] /\ p_comps (path_normalize p) = [].
Proof. eexists. split; [vm_compute; reflexivity|]. split; [discriminate|reflexivity]. Qed.
(** "/../a" becomes the relative path "a"; "../.." becomes the empty path; "a//.." becomes
    "a": all three denote another location. *)
Theorem C30_location_refuted :
  (p_comps (path_normalize (mkPath [[];[46;46];[97]] 3)) = [[97]] /\
     locate [[120]] [[];[46;46];[97]] = [[97]] /\ locate [[120]] [[97]] = [[120];[97]]) /\
  (p_comps (path_normalize (mkPath [[46;46];[46;46]] 2)) = [] /\
     locate [[120];[121]] [[46;46];[46;46]] = [] /\ locate [[120];[121]] [] = [[120];[121]]) /\
  (p_comps (path_normalize (mkPath [[97];[];[46;46]] 3)) = [[97]] /\
     locate [] [[97];[];[46;46]] = [] /\ locate [] [[97]] = [[97]]).
Proof. repeat split. Qed.
Print Assumptions C30_location_refuted.

(** ** C31 *)
(** getParent and getBasename split at the last component. *)
Theorem C31_parent_basename : forall p, (2 <= length (p_comps p))%nat ->
  exists q b, path_getParent p = Ret q /\ path_getBasename p = Ret b /\ p_comps p = p_comps q ++ [b].
Proof.
  intros p H. unfold path_getParent, path_getBasename. set (n := size (p_comps p)).
  assert (Hn : 2 <= n) by (unfold n, size; lia). destruct (N.ltb_spec n 2); [lia|]. destruct (N.eqb_spec n 1); [lia|].
  cbn [bind]. destruct (N.eqb_spec n 0); [lia|].
  rewrite copy_spec; [|lia|cbn [p_comps p_cap]; rewrite (@size_nil (list N)); lia]. cbn [p_comps p_cap app].
  destruct (nnth_lt_Some (p_comps p) (n - 1)) as (b & Hb); [fold n; lia|]. unfold path_at. rewrite Hb.
  eexists. exists b. split; [reflexivity|]. split; [reflexivity|]. cbn [p_comps]. rewrite N2Nat.id, ndrop_0.
  rewrite <- (ntake_ndrop (n - 1) (p_comps p)) at 1. f_equal. rewrite (ndrop_cons _ _ _ Hb). f_equal. apply ndrop_all. fold n. lia.
Qed.
Print Assumptions C31_parent_basename.
(** One component: the parent is the path itself, the name is the component, "/" for the
    root. *)
Theorem C31_parent_basename_single : forall c cap,
  path_getParent (mkPath [c] cap) = Ret (mkPath [c] 1) /\
  path_getBasename (mkPath [c] cap) = Ret (match c with [] => [47] | _ => c end) /\
  path_getParent (mkPath [] cap) = Ret (mkPath [] 0) /\ path_getBasename (mkPath [] cap) = Ret [].
Proof. intros [|x c] cap; repeat split. Qed.
Print Assumptions C31_parent_basename_single.
Theorem C31_subpath : forall p from to,
  exists q, path_subpath p from to = Ret q /\
    p_comps q = skipn (N.to_nat from) (firstn (N.to_nat to) (p_comps p)).
Proof.
  intros p from to. unfold path_subpath. set (n := size (p_comps p)).
  destruct (N.ltb_spec (N.max (N.min from n) (N.min to n)) (N.min from n)); [lia|].
  rewrite copy_spec; [|fold n; lia|cbn [p_comps p_cap]; rewrite (@size_nil (list N)); lia]. cbn [noexcept].
  eexists. split; [reflexivity|]. cbn [p_comps p_cap app]. rewrite N2Nat.id, <- ntake_firstn, <- ndrop_skipn, ndrop_ntake.
  destruct (N.le_gt_cases n from) as [L|L].
  - rewrite (ndrop_all from) by (fold n; lia). rewrite ndrop_all by (fold n; lia). reflexivity.
  - rewrite (N.min_l from) by lia. destruct (N.le_gt_cases to n) as [L2|L2].
    + f_equal. lia.
    + rewrite !ntake_all; [reflexivity| |]; rewrite size_ndrop; fold n; lia.
Qed.
Print Assumptions C31_subpath.
Theorem C31_getComponent : forall p i,
  path_getComponent p i = match nth_error (p_comps p) (N.to_nat i) with Some c => Ret c | None => Throws IndexOutOfRange end.
Proof. intros p i. unfold path_getComponent, path_at. now rewrite nnth_nth_error. Qed.
Print Assumptions C31_getComponent.
Theorem C31_equals : forall a b, path_equals a b = true <-> p_comps a = p_comps b.
Proof.
  intros a b. unfold path_equals. destruct (N.eqb_spec (size (p_comps a)) (size (p_comps b))) as [E|E]; cbn [negb].
  - rewrite comps_eq_spec by (unfold size in E; lia). split; congruence.
  - split; [discriminate|]. intros X. rewrite X in E. congruence.
Qed.
Print Assumptions C31_equals.
Theorem C31_contains_partial : forall p o, p_comps o <> [] ->
  exists b, path_contains p o = Ret b /\ (b = true <-> exists x z, p_comps p = x ++ p_comps o ++ z).
Proof.
  intros p o NE. unfold path_contains. assert (IX : (exists x z, p_comps p = x ++ p_comps o ++ z) <->
    exists j, 0 <= j /\ j + size (p_comps o) <= size (p_comps p) /\ ntake (size (p_comps o)) (ndrop j (p_comps p)) = p_comps o).
  { split.
    - intros (x & z & ->). exists (size x). rewrite !size_app. split; [lia|]. split; [lia|]. now rewrite ndrop_app_exact, ntake_app_exact.
    - intros (j & _ & J2 & J3). exists (ntake j (p_comps p)), (ndrop (size (p_comps o)) (ndrop j (p_comps p))).
      rewrite <- J3 at 1. now rewrite !ntake_ndrop. }
  destruct (N.ltb_spec (size (p_comps p)) (size (p_comps o))) as [L|L].
  - exists false. split; [reflexivity|]. split; [discriminate|]. intros (x & z & E). rewrite E, !size_app in L. lia.
  - setoid_rewrite IX. apply contains_loop_spec; [exact NE|]. unfold size in *. lia.
Qed.
Print Assumptions C31_contains_partial.
(** Asking whether a path contains the path without components raises an exception. *)
Theorem C31_contains_refuted : forall p o, p_comps o = [] -> path_contains p o = Throws IndexOutOfRange.
Proof.
  intros p o E. unfold path_contains. rewrite E. rewrite (@size_nil (list N)). destruct (N.ltb_spec (size (p_comps p)) 0); [lia|].
  cbn [length]. rewrite Nat.sub_0_r, Nat.add_1_r. cbn [contains_loop]. unfold path_at at 1. destruct (nnth (p_comps p) 0); [|reflexivity].
  cbn [bind]. unfold path_at. rewrite E. reflexivity.
Qed.
Print Assumptions C31_contains_refuted.

(** The text of a path, as toString writes it with the default delimiter. *)
Definition text (cs : list (list N)) : list N := match cs with [[]] => [47] | _ => glue [47] cs end.

(** startsWith: [o] is a component prefix of [p], except that its last component may
    be a mere textual prefix of the corresponding one. *)
Theorem C31_startsWith_partial : forall p o, p_comps p <> [] -> p_comps o <> [] -> p_cap p <> 0 -> p_cap o <> 0 ->
  size (text (p_comps p)) < 2 ^ 16 -> size (text (p_comps o)) < 2 ^ 16 ->
  ~ (p_comps p = [[]] /\ p_comps o = [[]; []]) ->
  exists b, path_startsWith p o = Ret b /\
    (b = true <-> exists init c t r, p_comps o = init ++ [c] /\ p_comps p = init ++ (c ++ t) :: r).
Proof.
  intros p o Np No Cp Co Lp Lo EX. unfold path_startsWith, path_empty.
  destruct (N.eqb_spec (p_cap p) 0); [congruence|]. destruct (N.eqb_spec (p_cap o) 0); [congruence|].
  change (text (p_comps p)) with (path_text Delimiter (p_comps p)) in Lp. change (text (p_comps o)) with (path_text Delimiter (p_comps o)) in Lo.
  rewrite !length_spec by (assumption || reflexivity). rewrite starts_scan by (unfold size; lia). rewrite !ndrop_0.
  assert (EQ : (exists init c t r, p_comps o = init ++ [c] /\ p_comps p = init ++ (c ++ t) :: r) <-> scans sv_startsWith (p_comps p) (p_comps o)).
  { split.
    - intros (i & c & t & r & E1 & E2). exists i, c, (c ++ t), r. split; [exact E1|]. split; [exact E2|].
      unfold sv_startsWith. rewrite size_app. destruct (N.ltb_spec (size c + size t) (size c)); [lia|]. rewrite sv_equals_spec, substring_spec.
      rewrite N.sub_0_r, ndrop_0. symmetry. apply ntake_app_exact.
    - intros (i & c & c' & r & E1 & E2 & T). unfold sv_startsWith in T. destruct (N.ltb_spec (size c') (size c)); [discriminate T|].
      rewrite sv_equals_spec, substring_spec, N.sub_0_r, ndrop_0 in T. exists i, c, (ndrop (size c) c'), r. split; [exact E1|].
      rewrite T at 1. now rewrite ntake_ndrop. }
  setoid_rewrite EQ. destruct (N.ltb_spec (size (path_text Delimiter (p_comps p))) (size (path_text Delimiter (p_comps o)))) as [L|L].
  - exists false. split; [reflexivity|]. split; [discriminate|]. intros (i & c & c' & r & E1 & E2 & T). exfalso.
    assert (size c <= size c'). { unfold sv_startsWith in T. destruct (N.ltb_spec (size c') (size c)); [discriminate T|assumption]. }
    assert (size (path_text Delimiter (p_comps o)) <= size (path_text Delimiter (p_comps p))); [|lia].
    apply text_mono; auto; rewrite E1, E2, ?size_app, ?total_app, ?total_cons, ?size_cons; cbn; lia.
  - destruct (N.le_gt_cases (size (p_comps o)) (size (p_comps p))) as [LE|GT].
    + apply scan_spec; auto. intros x. unfold sv_startsWith. destruct (N.ltb_spec (size x) (size x)); [lia|].
      rewrite sv_equals_spec, substring_spec, N.sub_0_r, ndrop_0. symmetry. apply ntake_all. lia.
    + destruct (scan_long sv_startsWith _ _ GT) as [(x & X & E)|E].
      * exfalso. pose proof (text_longer (p_comps p) x X (p_comps o) Np (or_introl E) EX). lia.
      * exists false. split; [exact E|]. split; [discriminate|]. intros (i & c & c' & r & E1 & E2 & _).
        rewrite E1, E2, !size_app, size_cons in GT. change (size [c]) with 1 in GT. lia.
Qed.
Print Assumptions C31_startsWith_partial.
(** endsWith: the same with suffixes. *)
Theorem C31_endsWith_partial : forall p o, p_comps p <> [] -> p_comps o <> [] -> p_cap p <> 0 -> p_cap o <> 0 ->
  size (text (p_comps p)) < 2 ^ 16 -> size (text (p_comps o)) < 2 ^ 16 -> size (p_comps p) < 2 ^ 64 ->
  size (p_comps o) <= size (p_comps p) ->
  exists b, path_endsWith p o = Ret b /\
    (b = true <-> exists fin c t r, p_comps o = c :: fin /\ p_comps p = r ++ (t ++ c) :: fin).
Proof.
  intros p o Np No Cp Co Lp Lo L64 LE. unfold path_endsWith, path_empty.
  destruct (N.eqb_spec (p_cap p) 0); [congruence|]. destruct (N.eqb_spec (p_cap o) 0); [congruence|].
  change (text (p_comps p)) with (path_text Delimiter (p_comps p)) in Lp. change (text (p_comps o)) with (path_text Delimiter (p_comps o)) in Lo.
  rewrite !length_spec by (assumption || reflexivity). rewrite ends_scan by (unfold size in *; lia). rewrite !ndrop_0.
  assert (ET : forall c' c, sv_endsWith c' c = true <-> exists t, c' = t ++ c).
  { intros c' c. unfold sv_endsWith. destruct (N.ltb_spec (size c') (size c)) as [L|L].
    - split; [discriminate|]. intros (t & ->). rewrite size_app in L. lia.
    - rewrite sv_equals_spec, substring_from_spec. split.
      + intros E. exists (ntake (size c' - size c) c'). rewrite E at 2. now rewrite ntake_ndrop.
      + intros (t & ->). rewrite size_app. replace (size t + size c - size c) with (size t) by lia. symmetry. apply ndrop_app_exact. }
  assert (EQ : (exists fin c t r, p_comps o = c :: fin /\ p_comps p = r ++ (t ++ c) :: fin) <-> scans sv_endsWith (rev (p_comps p)) (rev (p_comps o))).
  { split.
    - intros (f & c & t & r & -> & ->). exists (rev f), c, (t ++ c), (rev r). cbn [rev]. split; [reflexivity|]. split.
      + rewrite rev_app_distr. cbn [rev]. now rewrite <- app_assoc.
      + apply ET. eauto.
    - intros (i & c & c' & r & E1 & E2 & T). apply ET in T as (t & ->). exists (rev i), c, t, (rev r).
      apply (f_equal (@rev _)) in E1, E2. rewrite rev_involutive in E1, E2. rewrite rev_app_distr in E1, E2. cbn [rev app] in E1, E2.
      rewrite <- app_assoc in E2. auto. }
  setoid_rewrite EQ. destruct (N.ltb_spec (size (path_text Delimiter (p_comps p))) (size (path_text Delimiter (p_comps o)))) as [L|L].
  - exists false. split; [reflexivity|]. split; [discriminate|]. intros (i & c & c' & r & E1 & E2 & T). exfalso.
    apply ET in T as (t & ->).
    assert (size (path_text Delimiter (p_comps o)) <= size (path_text Delimiter (p_comps p))); [|lia].
    apply text_mono; auto. rewrite <- (total_rev (p_comps o)), <- (total_rev (p_comps p)).
    rewrite E1, E2, ?total_app, ?total_cons, ?size_app. cbn. lia.
  - apply scan_spec; [|intros X; apply No; rewrite <- (rev_involutive (p_comps o)), X; reflexivity|rewrite !size_rev; exact LE].
    intros x. apply ET. exists []. reflexivity.
Qed.
Print Assumptions C31_endsWith_partial.
Example C31_ok : path_startsWith (mkPath [[];[97];[98]] 3) (mkPath [[];[97]] 2) = Ret true /\
  path_endsWith (mkPath [[];[97];[98]] 3) (mkPath [[98]] 2) = Ret true /\
  path_contains (mkPath [[];[97];[98]] 3) (mkPath [[97]] 1) = Ret true.
Proof. repeat split. Qed.
(** "/ab" starts with "/a" and ends with "b"; every path starts with the root path when
    it has a text; no non-empty path starts with the empty path; comparing the root with
    "//" raises an exception. *)
Theorem C31_startsWith_refuted :
  path_startsWith (mkPath [[];[97;98]] 2) (mkPath [[];[97]] 2) = Ret true /\
  path_endsWith (mkPath [[];[97;98]] 2) (mkPath [[98]] 1) = Ret true /\
  path_startsWith (mkPath [[97]] 1) (mkPath [[]] 1) = Ret true /\
  (forall p, p_cap p <> 0 -> path_startsWith p path_none = Ret false /\ path_endsWith p path_none = Ret false) /\
  path_startsWith (mkPath [[]] 1) (mkPath [[];[]] 2) = Throws IndexOutOfRange /\
  path_endsWith (mkPath [[]] 1) (mkPath [[];[]] 2) = Throws IndexOutOfRange.
Proof.
  do 3 (split; [reflexivity|]). split; [|split; reflexivity]. intros p H.
  unfold path_startsWith, path_endsWith, path_empty. destruct (N.eqb_spec (p_cap p) 0); [congruence|]. split; reflexivity.
Qed.
Print Assumptions C31_startsWith_refuted.

(** ** C59 *)
(** compareTo orders paths component by component (shorter text first, then
    dictionary order) and shorter paths before their extensions.  [root] is an
    optional common empty first component; the others are non-empty 7-bit texts. *)
Theorem C59_compareTo_partial : forall p q root a b, p_comps p = root ++ a -> p_comps q = root ++ b -> In root [[]; [[]]] ->
  Forall (fun c => c <> [] /\ sv_ok c /\ plain c) a -> Forall (fun c => c <> [] /\ sv_ok c /\ plain c) b ->
  exists z, path_compareTo p q = Ret z /\ ((z < 0)%Z <-> comps_lt a b) /\ (z = 0%Z <-> a = b) /\ ((0 < z)%Z <-> comps_lt b a).
Proof.
  intros p q root a b Ep Eq IN Fa Fb. unfold path_compareTo. cbn in IN. destruct IN as [<-|[<-|[]]].
  - cbn [app] in *. subst a b. pose proof (compare_spec p q (N.to_nat (N.min (size (p_comps p)) (size (p_comps q)))) 0) as C.
    rewrite !ndrop_0 in C. apply C; auto. lia.
  - rewrite Ep, Eq. cbn [app]. rewrite !size_cons. replace (N.to_nat (N.min (size a + 1) (size b + 1))) with (S (N.to_nat (N.min (size a) (size b)))) by lia.
    cbn [compare_loop]. unfold path_at. rewrite Ep, Eq. cbn [app nnth N.eqb bind]. change (sv_compareTo [] []) with (Ret 0%Z : outcome Z). cbn [bind Z.eqb].
    pose proof (compare_spec p q (N.to_nat (N.min (size a) (size b))) 1) as C. rewrite Ep, Eq in C. cbn [app] in C.
    assert (D : forall l : list (list N), ndrop 1 ([] :: l) = l) by (intros l; cbn; now rewrite ndrop_0). rewrite !D, !size_cons in C.
    apply C; auto. lia.
Qed.
Print Assumptions C59_compareTo_partial.
Theorem C59_strict_order : (forall a, ~ comps_lt a a) /\ (forall a b, comps_lt a b -> ~ comps_lt b a) /\
  (forall a b c, comps_lt a b -> comps_lt b c -> comps_lt a c) /\ (forall a b, comps_lt a b \/ a = b \/ comps_lt b a).
Proof.
  split; [exact comps_lt_irrefl|]. split; [intros a b H G; exact (comps_lt_asym a b H G)|]. split.
  - intros a b c H. revert c. induction H as [y b|x y a b H|x a b H IH]; intros c G; inversion G; subst; eauto using comps_lt, shortlex_trans.
  - induction a as [|x a IH]; intros [|y b]; [auto|left; constructor|right; right; constructor|].
    destruct (shortlex_total x y) as [H|[->|H]]; [left; now constructor| |right; right; now constructor].
    destruct (IH b) as [H|[->|H]]; [left; now constructor|auto|right; right; now constructor].
Qed.
Print Assumptions C59_strict_order.
Example C59_ok : path_compareTo (mkPath [[];[97];[98]] 3) (mkPath [[];[97]] 2) = Ret 1%Z /\
  Forall (fun c => c <> [] /\ sv_ok c /\ plain c) [[97];[98]].
Proof. split; [reflexivity|]. repeat constructor; discriminate. Qed.
(** Comparing a relative path with an absolute one ends the program. *)
Theorem C59_compareTo_refuted : forall c a b cap cap', c <> [] -> sv_ok c ->
  path_compareTo (mkPath (c :: a) cap) (mkPath ([] :: b) cap') = Terminates.
Proof.
  intros c a b cap cap' NE Hc. unfold path_compareTo. cbn [p_comps]. rewrite !size_cons.
  replace (N.to_nat (N.min (size a + 1) (size b + 1))) with (S (N.to_nat (N.min (size a) (size b)))) by lia.
  cbn [compare_loop]. unfold path_at. cbn [p_comps nnth N.eqb bind].
  unfold sv_compareTo. rewrite (@size_nil N). pose proof (size_pos c NE). destruct (N.ltb_spec 0 (size c)); [|lia].
  unfold sv_charAt. change (sub16 0 1) with 65535. unfold sv_ok in Hc. destruct (N.leb_spec (size c) 65535); [reflexivity|lia].
Qed.
Print Assumptions C59_compareTo_refuted.

(** ** C60 *)
Theorem C60_length_is_text_length_partial : forall alloc d p, heap_full alloc -> sv_ok d -> p_comps p <> [] -> p_cap p <> 0 ->
  Forall sv_ok (p_comps p) -> size (p_comps p) < 2 ^ 64 ->
  size (match p_comps p with [[]] => d | _ => glue d (p_comps p) end) < 2 ^ 16 ->
  exists st, path_toString alloc d p = Ret st /\ path_length d p = size (str_view st) /\
    str_view st = match p_comps p with [[]] => d | _ => glue d (p_comps p) end.
Proof.
  intros alloc d p (H & A) Hd NE HC F L64 L. destruct (toString_spec alloc d p H Hd F NE HC L64 L A) as (st & E & V & _).
  exists st. split; [exact E|]. rewrite V. split; [|reflexivity]. now apply length_spec.
Qed.
Print Assumptions C60_length_is_text_length_partial.
Example C60_ok : path_length [47] (mkPath [[];[97];[98;99]] 3) = 5.
Proof. reflexivity. Qed.
(** Two components of 40000 characters: the length wraps, the text is empty. *)
Theorem C60_length_refuted : forall c d,
  let s := repeat c (N.to_nat 40000) in
  path_length [d] (mkPath [s; s] 2) = 14465 /\
  exists st, path_toString junk_heap [d] (mkPath [s; s] 2) = Ret st /\ str_view st = [].
Proof.
  intros c d s. assert (S : size s = 40000) by (unfold s, size; rewrite repeat_length; lia).
  assert (NE : s <> []) by (intros X; rewrite X in S; discriminate S). clearbody s. split.
  - unfold path_length. cbn [p_comps fold_left]. rewrite S. reflexivity.
  - unfold path_toString, path_isAbsolute, path_empty, path_at. cbn [p_cap p_comps nnth N.eqb bind noexcept].
    assert (sv_empty s = false) as -> by (unfold sv_empty; rewrite S; reflexivity). cbn [andb].
    destruct (C27_join_error_partial junk_heap [d] [s; s] junk_heap_ok) as (e & E); auto; try discriminate; try reflexivity.
    + repeat constructor; unfold sv_ok; rewrite S; reflexivity.
    + cbn [glue]. rewrite !size_app, S. change (size [d]) with 1. lia.
    + rewrite E. cbn [bind]. eexists. split; reflexivity.
Qed.
Print Assumptions C60_length_refuted.

(** ** C61 *)
(** makePath(a, b, ...): the components of the arguments in order, a text counting as one
    component. *)
Theorem C61_makePath : forall args,
  p_comps (path_make args) = concat (map (fun a => match a with PText s => [s] | PPath p => p_comps p end) args).
Proof.
  intros args. unfold path_make. rewrite make_fold; [reflexivity|]. cbn [p_comps p_cap]. rewrite (@size_nil (list N)). lia.
Qed.
Print Assumptions C61_makePath.
Example C61_ok : p_comps (path_make [PPath (mkPath [[];[97]] 2); PText [98]; PPath (mkPath [[99]] 5)]) = [[];[97];[98];[99]].
Proof. reflexivity. Qed.
