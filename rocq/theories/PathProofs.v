From Verif Require Import Base BaseLemmas LexSpec LexProofs StringSpec StringViewModel StringViewProofs StringModel StringProofs PathModel PathSpec.

Lemma size_removelast {A} (l : list A) : l <> [] -> size (removelast l) + 1 = size l.
Proof. intros H. destruct (exists_last H) as (q & x & ->). rewrite removelast_last, size_app. reflexivity. Qed.

(** ** parse *)
Definition kept (ps : list (list N)) : list (list N) := if sv_empty (last ps []) then removelast ps else ps.

Lemma sv_empty_spec s : sv_empty s = true <-> s = [].
Proof. unfold sv_empty. rewrite N.eqb_eq. split; [apply size_0_nil|intros ->; reflexivity]. Qed.

Lemma kept_cons p q ps : kept (p :: q :: ps) = p :: kept (q :: ps).
Proof. unfold kept. change (last (p :: q :: ps) []) with (last (q :: ps) []). destruct (sv_empty _); reflexivity. Qed.

Lemma parse_fold ps : forall items n, n <> 0 -> ps <> [] -> size items + size ps = n ->
  fold_left parse_step (indexed (size items) n ps) (mkPath items n) = mkPath (items ++ kept ps) n.
Proof.
  induction ps as [|p ps IH]; intros items n Hn NE H; [congruence|]. rewrite size_cons in H.
  cbn [indexed fold_left]. unfold parse_step at 2. cbn [p_cap].
  destruct (N.eqb_spec n 0); [congruence|]. cbn [andb].
  destruct ps as [|q ps].
  - rewrite (@size_nil (list N)) in H. destruct (N.eqb_spec (size items + 1) n); [|lia]. cbn [andb indexed fold_left].
    unfold kept. cbn [last removelast]. destruct (sv_empty p); [now rewrite app_nil_r|].
    unfold vpush. cbn [p_cap p_comps]. destruct (N.leb_spec n (size items)); [lia|reflexivity].
  - rewrite size_cons in H. destruct (N.eqb_spec (size items + 1) n); [lia|]. cbn [andb].
    unfold vpush. cbn [p_cap p_comps]. destruct (N.leb_spec n (size items)); [lia|].
    replace (size items + 1) with (size (items ++ [p])) by (rewrite size_app; reflexivity).
    rewrite IH; [|assumption|discriminate|rewrite size_app; change (size [p]) with 1; rewrite size_cons; lia].
    rewrite kept_cons, <- app_assoc. reflexivity.
Qed.

Lemma parse_fold_none ps n : n <> 0 -> ps <> [] -> size ps = n ->
  fold_left parse_step (indexed 0 n ps) path_none = mkPath (kept ps) n.
Proof.
  intros Hn NE H. pose proof (parse_fold ps [] n Hn NE ltac:(rewrite (@size_nil (list N)); lia)) as E.
  rewrite app_nil_l in E. rewrite <- E.
  destruct ps as [|p ps]; [congruence|]. cbn [indexed fold_left]. f_equal.
  unfold parse_step. cbn [p_cap path_none]. destruct (N.eqb_spec n 0); [congruence|]. reflexivity.
Qed.

Lemma components_kept ps : ps <> [] -> components ps (match kept ps with [] => [[]] | l => l end).
Proof.
  intros H. unfold kept, components. destruct (sv_empty (last ps [])) eqn:E.
  - apply sv_empty_spec in E. destruct (exists_last H) as (qs & x & ->). rewrite last_last in E. subst x.
    rewrite removelast_last. left. exists qs. split; [reflexivity|]. destruct qs; [auto|right; split; [discriminate|reflexivity]].
  - right. assert (L : last ps [] <> []) by (intros X; apply sv_empty_spec in X; congruence). split; [exact L|]. now destruct ps.
Qed.
Lemma components_det ps cs cs' : components ps cs -> components ps cs' -> cs = cs'.
Proof.
  intros [(q & -> & H)|(H & ->)] [(q' & E & H')|(H' & ->)].
  - apply app_inj_tail in E as (<- & _). destruct H as [(H & ->)|(H & ->)], H' as [(H' & ->)|(H' & ->)]; congruence.
  - rewrite last_last in H'. congruence.
  - rewrite E, last_last in H. congruence.
  - reflexivity.
Qed.

(** [parse] with pieces [ps], fewer than 2^16 *)
Lemma parse_spec fuel d s : sv_ok s -> d <> [] -> (length s < fuel)%nat ->
  exists ps, splits d s ps /\
    (size ps < 2 ^ 16 -> exists cs, components ps cs /\ path_parse fuel d s = Ret (mkPath cs (size ps))).
Proof.
  intros Hs Hd Hf. destruct (split3_spec fuel d s Hs Hd Hf) as (ps & E & S). exists ps. split; [exact S|]. intros L.
  pose proof (splits_nonempty _ _ _ S) as NE.
  assert (0 < size ps) by (destruct ps; [congruence|rewrite size_cons; lia]).
  exists (match kept ps with [] => [[]] | l => l end). split; [now apply components_kept|].
  unfold path_parse. rewrite E. cbn [bind fst]. change (N.of_nat (length ps)) with (size ps). rewrite u16_small by exact L.
  rewrite parse_fold_none by (lia || auto). cbn [p_comps]. destruct (kept ps) as [|c cs] eqn:K.
  - rewrite (@size_nil (list N)). cbn [N.eqb]. unfold vpush. cbn [p_cap p_comps]. rewrite (@size_nil (list N)).
    destruct (N.leb_spec (size ps) 0); [lia|reflexivity].
  - rewrite size_cons. destruct (N.eqb_spec (size cs + 1) 0); [lia|reflexivity].
Qed.

Lemma splits_many d s ps : sv_ok s -> d <> [] -> splits d s ps -> 2 ^ 16 <= size ps -> s = repeat (hd 0 d) (N.to_nat 65535) /\ size d = 1 /\ size ps = 2 ^ 16.
Proof.
  intros Hs Hd S L. pose proof (size_pos d Hd). pose proof (splits_length _ _ _ S) as B. unfold sv_ok in Hs.
  change (N.of_nat (length ps)) with (size ps) in B.
  assert (size d = 1) by nia. assert (size ps = 2 ^ 16) by nia. assert (size s = 65535) by nia.
  split; [|auto]. destruct d as [|c d]; [congruence|]. rewrite size_cons in *. assert (d = []) as -> by (apply size_0_nil; lia).
  cbn [hd]. pose proof (splits_nonempty _ _ _ S) as NE. pose proof (splits_glue _ _ _ S) as G.
  pose proof (size_glue [c] ps NE) as A. rewrite G in A. change (size [c]) with 1 in A. assert (T : total ps = 0) by lia.
  replace (N.to_nat 65535) with (length ps - 1)%nat by (unfold size in *; lia). rewrite <- G. clear - T NE.
  induction ps as [|p ps IH]; [congruence|]. cbn [total fold_right] in T. fold (total ps) in T.
  assert (p = []) as -> by (apply size_0_nil; lia). destruct ps as [|q ps]; [reflexivity|].
  change (glue [c] ([] :: q :: ps)) with (c :: glue [c] (q :: ps)). rewrite IH by (lia || discriminate). cbn [length].
  replace (S (S (length ps)) - 1)%nat with (S (S (length ps) - 1)) by lia. reflexivity.
Qed.

(** ** dropping an empty last piece *)
Lemma glue_snoc d qs x : qs <> [] -> glue d (qs ++ [x]) = glue d qs ++ d ++ x.
Proof.
  induction qs as [|q qs IH]; intros H; [congruence|]. destruct qs as [|q2 qs]; [reflexivity|].
  change ((q :: q2 :: qs) ++ [x]) with (q :: (q2 :: qs) ++ [x]).
  change (glue d (q :: (q2 :: qs) ++ [x])) with (q ++ d ++ glue d ((q2 :: qs) ++ [x])).
  rewrite IH by discriminate. change (glue d (q :: q2 :: qs)) with (q ++ d ++ glue d (q2 :: qs)). now rewrite !app_assoc.
Qed.
Lemma occurs_app_l d a b i : occurs d a i -> occurs d (a ++ b) i.
Proof. intros (p & r & -> & <-). exists p, (r ++ b). now rewrite <- !app_assoc. Qed.

Lemma splits_drop d s ps : d <> [] -> splits d s ps -> forall qs, ps = qs ++ [[]] -> qs <> [] -> splits d (glue d qs) qs.
Proof.
  intros Hd. pose proof (size_pos d Hd). induction 1 as [s H0|p r ps H0 S IH]; intros qs E NE.
  - destruct qs as [|q qs]; [congruence|]. destruct qs; discriminate E.
  - destruct qs as [|q qs]; [congruence|]. injection E as <- E. destruct qs as [|q2 qs].
    + cbn [glue]. apply splits_last. intros i O. cbn in E. subst ps. pose proof O as O'.
      apply occurs_alt in O' as (L & _). apply (H0 i); [fold (size p); lia|]. now apply occurs_app_l.
    + change (glue d (p :: q2 :: qs)) with (p ++ d ++ glue d (q2 :: qs)). apply splits_first.
      * intros i Hi O. apply (H0 i Hi). rewrite <- (splits_glue _ _ _ S), E, glue_snoc by discriminate.
        rewrite app_nil_r, !app_assoc. apply occurs_app_l. now rewrite <- !app_assoc.
      * now apply IH; [|discriminate].
Qed.

(** ** toString *)
Definition path_text (d : list N) (cs : list (list N)) : list N := match cs with [[]] => d | _ => glue d cs end.
Lemma toString_spec alloc d p : heap_ok alloc -> sv_ok d -> Forall sv_ok (p_comps p) -> p_comps p <> [] -> p_cap p <> 0 ->
  size (p_comps p) < 2 ^ 64 ->
  let text := path_text d (p_comps p) in
  size text < 2 ^ 16 -> (forall n, exists b, alloc n = Ok b) ->
  exists st, path_toString alloc d p = Ret st /\ str_view st = text /\ st_size st = size text.
Proof.
  intros H Hd F NE HC HL text L A. unfold path_toString, path_isAbsolute, path_empty.
  destruct (N.eqb_spec (p_cap p) 0); [congruence|]. destruct p as [cs cap]. cbn [p_comps p_cap] in *.
  destruct cs as [|c cs]; [congruence|]. unfold path_at. cbn [p_comps nnth N.eqb bind noexcept].
  assert (SJ : forall l, l <> [] -> Forall sv_ok l -> size l < 2 ^ 64 -> size (glue d l) < 2 ^ 16 ->
    exists st, (let! r := str_join alloc d l in match r with Ok s => Ret s | Err _ => Ret (mkStr [] 0) end) = Ret st /\
      str_view st = glue d l /\ st_size st = size (glue d l)).
  { intros l NL FL LL SL. unfold str_join. rewrite join_total by assumption. rewrite N.mod_small by exact SL.
    destruct (A (size (glue d l))) as (b & E). rewrite E. apply H in E.
    pose proof (join_loop_spec d l Hd (ByteIOModel.writer_make b) ltac:(apply ByteIOProofs.writer_make_inv; lia) eq_refl FL LL) as J.
    change (ByteIOModel.w_pos (ByteIOModel.writer_make b)) with 0 in J. change (ByteIOModel.w_lim (ByteIOModel.writer_make b)) with (size b) in J.
    destruct (N.leb_spec (0 + size (glue d l)) (size b)); [|lia]. rewrite J. cbn [bind fst snd]. eexists. split; [reflexivity|].
    rewrite append_make by exact E. split; [|reflexivity]. now apply str_view_exact. }
  destruct (sv_empty c) eqn:EC.
  - apply sv_empty_spec in EC. subst c. destruct cs as [|c2 cs].
    + change (size [@nil N] =? 1) with true. cbn [andb]. cbn in text. unfold str_make. destruct (A (size d)) as (b & E). rewrite E.
      apply H in E. destruct (N.ltb_spec (size b) (size d)); [lia|]. cbn [bind]. eexists. split; [reflexivity|].
      rewrite overwrite_all by assumption. split; [|reflexivity]. now apply str_view_exact.
    + rewrite !size_cons. destruct (N.eqb_spec (size cs + 1 + 1) 1); [lia|]. cbn [andb]. now apply SJ.
  - cbn [andb]. assert (text = glue d (c :: cs)) as T. { unfold text. destruct c; [discriminate EC|]. reflexivity. }
    clearbody text. subst text. now apply SJ.
Qed.

(** ** length *)

Lemma length_fold (d : list N) cs : forall n, n < 2 ^ 16 ->
  fold_left (fun len (s : list N) => u16 (len + (size d + size s))) cs n = (n + size d * size cs + total cs) mod 2 ^ 16.
Proof.
  induction cs as [|s cs IH]; intros n H; cbn [fold_left total fold_right].
  - rewrite (@size_nil (list N)), N.mul_0_r, !N.add_0_r. symmetry. now apply N.mod_small.
  - rewrite IH by (unfold u16; lia). fold (total cs). rewrite size_cons. unfold u16.
    replace (size d * (size cs + 1)) with (size d * size cs + size d) by lia. generalize (size d * size cs). intros x. lia.
Qed.

Lemma length_spec d p : p_comps p <> [] -> sv_ok d -> size (path_text d (p_comps p)) < 2 ^ 16 ->
  path_length d p = size (path_text d (p_comps p)).
Proof.
  intros NE Hd L. unfold path_length. destruct p as [cs cap]. cbn [p_comps] in *.
  destruct cs as [|c [|c2 cs]]; [congruence| |].
  - destruct c; reflexivity.
  - set (l := c :: c2 :: cs) in *. assert (T : path_text d l = glue d l) by (unfold l; destruct c; reflexivity).
    rewrite T in *. rewrite length_fold by lia. rewrite size_glue by discriminate.
    rewrite size_glue in L by discriminate. unfold sv_ok in Hd.
    assert (size l = (size l - 1) + 1) as E by (unfold l; rewrite size_cons; lia).
    rewrite E at 1. rewrite N.mul_add_distr_l, N.mul_1_r. revert L. generalize (size d * (size l - 1)). intros x L.
    unfold sub16, sub_wrap. lia.
Qed.

(** ** normalize on component lists *)
Definition nstep (st : list (list N)) (c : list N) : list (list N) :=
  if sv_equals c SelfRef then st
  else if sv_equals c ParentRef && (0 <? size st) then removelast st else st ++ [c].

Lemma normalize_fold cs : forall st n, size st + size cs <= n ->
  fold_left normalize_step cs (mkPath st n) = mkPath (fold_left nstep cs st) n.
Proof.
  induction cs as [|c cs IH]; intros st n H; [reflexivity|]. rewrite size_cons in H. cbn [fold_left].
  unfold normalize_step at 2, nstep at 2. cbn [p_comps].
  destruct (sv_equals c SelfRef); [apply IH; lia|].
  destruct (sv_equals c ParentRef && (0 <? size st)) eqn:E.
  - unfold vpop. cbn [p_comps p_cap]. apply andb_prop in E as (_ & E). apply N.ltb_lt in E.
    destruct (N.ltb_spec (size st) 1); [lia|]. apply IH.
    pose proof (size_removelast st ltac:(intros ->; rewrite (@size_nil (list N)) in E; lia)). lia.
  - unfold vpush. cbn [p_comps p_cap]. destruct (N.leb_spec n (size st)); [lia|]. apply IH.
    rewrite size_app. change (size [c]) with 1. lia.
Qed.
Lemma normalize_spec p : path_normalize p = mkPath (fold_left nstep (p_comps p) []) (size (p_comps p)).
Proof. apply normalize_fold. rewrite (@size_nil (list N)). lia. Qed.

Definition normal (st : list (list N)) : Prop :=
  match st with [] => True | c :: r => c <> SelfRef /\ Forall (fun x => x <> SelfRef /\ x <> ParentRef) r end.

Lemma sv_equals_false a b : sv_equals a b = false <-> a <> b.
Proof. rewrite <- sv_equals_spec. destruct (sv_equals a b); split; congruence. Qed.

Lemma nstep_normal st c : normal st -> normal (nstep st c).
Proof.
  intros H. unfold nstep. destruct (sv_equals c SelfRef) eqn:E1; [exact H|]. apply sv_equals_false in E1.
  destruct (sv_equals c ParentRef && (0 <? size st)) eqn:E2.
  - destruct st as [|x st]; [exact I|]. destruct H as (H1 & H2). destruct st as [|y st]; [exact I|].
    change (removelast (x :: y :: st)) with (x :: removelast (y :: st)). split; [exact H1|].
    destruct (exists_last (l := y :: st)) as (q & z & E); [discriminate|]. rewrite E in *. rewrite removelast_last.
    now apply Forall_app in H2.
  - destruct st as [|x st]; [cbn; auto|]. destruct H as (H1 & H2). cbn. split; [exact H1|]. apply Forall_app. split; [exact H2|].
    constructor; [|constructor]. split; [exact E1|]. rewrite size_cons in E2.
    destruct (N.ltb_spec 0 (size st + 1)); [|lia]. rewrite Bool.andb_true_r in E2. now apply sv_equals_false in E2.
Qed.
Lemma nfold_normal cs : forall st, normal st -> normal (fold_left nstep cs st).
Proof. induction cs; intros st H; cbn [fold_left]; auto using nstep_normal. Qed.
Lemma nfold_plain r : Forall (fun x => x <> SelfRef /\ x <> ParentRef) r -> forall st, fold_left nstep r st = st ++ r.
Proof.
  induction 1 as [|c r (H1 & H2) F IH]; intros st; cbn [fold_left]; [now rewrite app_nil_r|].
  rewrite IH. unfold nstep. apply sv_equals_false in H1, H2. rewrite H1, H2. cbn [andb]. now rewrite <- app_assoc.
Qed.
Lemma nfold_id st : normal st -> fold_left nstep st [] = st.
Proof.
  destruct st as [|c r]; [reflexivity|]. intros (H1 & H2). cbn [fold_left]. rewrite nfold_plain by exact H2.
  unfold nstep. apply sv_equals_false in H1. rewrite H1. rewrite (@size_nil (list N)). cbn [N.ltb]. rewrite Bool.andb_false_r. reflexivity.
Qed.

Lemma same_spec a b : same a b = true <-> a = b.
Proof. unfold same. destruct (list_eq_dec N.eq_dec a b); split; congruence. Qed.
Lemma same_equals a b : same a b = sv_equals a b.
Proof.
  destruct (sv_equals a b) eqn:E.
  - apply sv_equals_spec in E. now apply same_spec.
  - apply sv_equals_false in E. unfold same. destruct (list_eq_dec N.eq_dec a b); congruence.
Qed.

Definition proper (c : list N) : Prop := c <> [] /\ c <> SelfRef /\ c <> ParentRef.
Lemma walk_proper c l : proper c -> walk l c = l ++ [c].
Proof.
  intros (H0 & H1 & H2). unfold walk. rewrite !same_equals. apply sv_equals_false in H0, H1, H2.
  unfold SelfRef, ParentRef in *. now rewrite H0, H1, H2.
Qed.
Lemma walk_all names : Forall proper names -> forall l, fold_left walk names l = l ++ names.
Proof.
  induction 1 as [|c r H F IH]; intros l; cbn [fold_left]; [now rewrite app_nil_r|].
  rewrite IH, walk_proper by exact H. now rewrite <- app_assoc.
Qed.

Lemma removelast_app1 {A} (a b : list A) : b <> [] -> removelast (a ++ b) = a ++ removelast b.
Proof. intros H. now apply removelast_app. Qed.

Lemma stays_fold base rest : forall names, stays (length names) rest -> Forall proper names ->
  exists names', fold_left nstep rest (base ++ names) = base ++ names' /\ Forall proper names' /\
    forall l, fold_left walk rest (l ++ names) = l ++ names'.
Proof.
  induction rest as [|c rest IH]; intros names S F; cbn [fold_left].
  - exists names. auto.
  - cbn [stays] in S. destruct S as (S0 & S). rewrite !same_equals in S.
    change [46; 46] with ParentRef in S. change [46] with SelfRef in S.
    destruct (sv_equals c SelfRef) eqn:E1.
    + destruct (IH names S F) as (n' & H1 & H2 & H3). exists n'. unfold nstep at 2. rewrite E1.
      apply sv_equals_spec in E1. subst c. auto.
    + destruct (sv_equals c ParentRef) eqn:E2.
      * destruct S as (D & S). destruct (exists_last (l := names)) as (ns & x & E); [intros ->; cbn in D; lia|]. subst names. rename ns into names.
        rewrite app_length in S. cbn [length] in S. replace (Nat.pred (length names + 1)) with (length names) in S by lia.
        apply Forall_app in F as (F & _). destruct (IH names S F) as (n' & H1 & H2 & H3). exists n'.
        unfold nstep at 2. rewrite E1, E2. rewrite app_assoc, removelast_last.
        rewrite size_app. change (size [x]) with 1. destruct (N.ltb_spec 0 (size (base ++ names) + 1)); [|lia]. cbn [andb].
        split; [exact H1|]. split; [exact H2|]. intros l. rewrite <- H3. f_equal. apply sv_equals_spec in E2. subst c.
        unfold walk. rewrite !same_equals. cbn [sv_equals]. change (sv_equals ParentRef [] || sv_equals ParentRef [46]) with false.
        change (sv_equals ParentRef [46; 46]) with true. cbn iota. now rewrite app_assoc, removelast_last.
      * assert (P : proper c). { split; [exact S0|]. split; now apply sv_equals_false. }
        destruct (IH (names ++ [c])) as (n' & H1 & H2 & H3).
        { rewrite app_length. cbn [length]. replace (length names + 1)%nat with (Datatypes.S (length names)) by lia. exact S. }
        { apply Forall_app. auto. }
        exists n'. unfold nstep at 2. rewrite E1, E2. cbn [andb]. rewrite <- app_assoc. split; [exact H1|]. split; [exact H2|].
        intros l. rewrite <- H3. f_equal. rewrite walk_proper by exact P. now rewrite <- app_assoc.
Qed.

(** ** copying component ranges *)
Lemma copy_spec k p : forall v i, i + N.of_nat k <= size (p_comps p) -> size (p_comps v) + N.of_nat k <= p_cap v ->
  copy_loop k p v i = Ret (mkPath (p_comps v ++ ntake (N.of_nat k) (ndrop i (p_comps p))) (p_cap v)).
Proof.
  induction k as [|k IH]; intros v i H1 H2; cbn [copy_loop].
  - rewrite ntake_0, app_nil_r. now destruct v.
  - destruct (nnth_lt_Some (p_comps p) i) as (c & Hc); [lia|]. unfold path_at. rewrite Hc. cbn [bind].
    unfold vpush. destruct (N.leb_spec (p_cap v) (size (p_comps v))); [lia|].
    rewrite IH; cbn [p_comps p_cap]; [|lia|rewrite size_app; change (size [c]) with 1; lia].
    rewrite <- app_assoc. do 3 f_equal.
    rewrite <- (ndrop_ndrop (p_comps p) 1 i).
    assert (E : ndrop i (p_comps p) = c :: ndrop 1 (ndrop i (p_comps p))).
    { rewrite <- (ntake_ndrop 1 (ndrop i (p_comps p))) at 1.
      assert (ntake 1 (ndrop i (p_comps p)) = [c]) as ->; [|reflexivity].
      pose proof (nnth_ndrop (p_comps p) i 0) as X. rewrite N.add_0_r, Hc in X.
      destruct (ndrop i (p_comps p)) as [|y t]; [discriminate X|]. cbn in X. injection X as ->. cbn. now rewrite ntake_0. }
    rewrite E at 2. replace (N.of_nat (S k)) with (N.succ (N.of_nat k)) by lia. cbn [ntake].
    destruct (N.eqb_spec (N.succ (N.of_nat k)) 0); [lia|]. now rewrite N.pred_succ.
Qed.

(** ** equals *)
Lemma comps_eq_spec a b : length a = length b -> comps_eq_loop a b = true <-> a = b.
Proof.
  revert b. induction a as [|x a IH]; intros [|y b] H; try discriminate H; cbn [comps_eq_loop]; [tauto|].
  injection H as H. destruct (sv_equals x y) eqn:E; cbn [negb].
  - apply sv_equals_spec in E. subst y. rewrite IH by exact H. split; congruence.
  - apply sv_equals_false in E. split; congruence.
Qed.

(** ** startsWith, endsWith *)
Lemma ndrop_cons {A} (l : list A) i x : nnth l i = Some x -> ndrop i l = x :: ndrop (i + 1) l.
Proof.
  intros H. rewrite <- (ndrop_ndrop l 1 i). pose proof (nnth_ndrop l i 0) as X. rewrite N.add_0_r, H in X.
  destruct (ndrop i l) as [|y t]; [discriminate X|]. cbn in X. injection X as ->. cbn. now rewrite ndrop_0.
Qed.
Lemma ndrop_none {A} (l : list A) i : nnth l i = None -> ndrop i l = [].
Proof. intros H. apply ndrop_all. destruct (N.le_gt_cases (size l) i); [lia|]. apply nnth_lt_Some in H0 as (x & E). congruence. Qed.

(** Comparing two component sequences from the left with [test] allowed on the last one *)
Fixpoint scan (test : list N -> list N -> bool) (P O : list (list N)) {struct O} : outcome bool :=
  match O, P with
  | [], _ => Ret true
  | y :: O', x :: P' =>
      if negb (sv_equals x y) then Ret (test x y && match O' with [] => true | _ => false end) else scan test P' O'
  | _, [] => Throws IndexOutOfRange
  end.

Lemma starts_scan p o k : forall i, N.of_nat k + i = size (p_comps o) ->
  starts_loop k p o i = scan sv_startsWith (ndrop i (p_comps p)) (ndrop i (p_comps o)).
Proof.
  induction k as [|k IH]; intros i H; cbn [starts_loop].
  - rewrite (ndrop_all i (p_comps o)) by lia. reflexivity.
  - destruct (nnth_lt_Some (p_comps o) i) as (y & Hy); [lia|]. unfold path_at at 1. rewrite Hy. cbn [bind].
    rewrite (ndrop_cons _ _ _ Hy). cbn [scan]. unfold path_at. destruct (nnth (p_comps p) i) as [x|] eqn:Hx; cbn [bind].
    + rewrite (ndrop_cons _ _ _ Hx). rewrite IH by lia. destruct (sv_equals x y); [reflexivity|]. cbn [negb]. do 2 f_equal.
      destruct (N.eqb_spec (i + 1) (size (p_comps o))).
      * now rewrite ndrop_all by lia.
      * destruct (nnth_lt_Some (p_comps o) (i + 1)) as (z & Hz); [lia|]. now rewrite (ndrop_cons _ _ _ Hz).
    + now rewrite (ndrop_none _ _ Hx).
Qed.

Lemma nnth_rev {A} (l : list A) i : i < size l -> nnth (rev l) i = nnth l (size l - 1 - i).
Proof.
  revert i. induction l as [|x l IH]; intros i H; [rewrite size_nil in H; lia|]. cbn [rev]. rewrite nnth_app, size_rev.
  rewrite size_cons in *. destruct (N.ltb_spec i (size l)).
  - rewrite IH by assumption. replace (size l + 1 - 1 - i) with (N.succ (size l - 1 - i)) by lia. cbn [nnth].
    destruct (N.eqb_spec (N.succ (size l - 1 - i)) 0); [lia|]. now rewrite N.pred_succ.
  - replace (i - size l) with 0 by lia. replace (size l + 1 - 1 - i) with 0 by lia. reflexivity.
Qed.

Lemma ends_scan p o k : size (p_comps p) < 2 ^ 64 -> size (p_comps o) < 2 ^ 64 -> size (p_comps o) <= size (p_comps p) ->
  forall i, N.of_nat k + i = size (p_comps o) ->
  ends_loop k p o i = scan sv_endsWith (ndrop i (rev (p_comps p))) (ndrop i (rev (p_comps o))).
Proof.
  intros Lp Lo LE. induction k as [|k IH]; intros i H; cbn [ends_loop].
  - rewrite (ndrop_all i (rev (p_comps o))) by (rewrite size_rev; lia). reflexivity.
  - rewrite !(ByteIOProofs.sub64_le) by (rewrite ?ByteIOProofs.sub64_le by lia; lia).
    unfold path_at. rewrite <- !nnth_rev by lia.
    destruct (nnth_lt_Some (rev (p_comps o)) i) as (y & Hy); [rewrite size_rev; lia|].
    destruct (nnth_lt_Some (rev (p_comps p)) i) as (x & Hx); [rewrite size_rev; lia|].
    rewrite Hx, Hy. cbn [bind]. rewrite (ndrop_cons _ _ _ Hy), (ndrop_cons _ _ _ Hx). cbn [scan]. rewrite IH by lia.
    destruct (sv_equals x y); [reflexivity|]. cbn [negb]. do 2 f_equal.
    destruct (N.eqb_spec (i + 1) (size (p_comps o))).
    + now rewrite ndrop_all by (rewrite size_rev; lia).
    + destruct (nnth_lt_Some (rev (p_comps o)) (i + 1)) as (z & Hz); [rewrite size_rev; lia|]. now rewrite (ndrop_cons _ _ _ Hz).
Qed.

(** The sequence [O] is a prefix of [P], except that its last component only has to
    pass [test]. *)
Definition scans (test : list N -> list N -> bool) (P O : list (list N)) : Prop :=
  exists init c c' r, O = init ++ [c] /\ P = init ++ c' :: r /\ test c' c = true.

Lemma scan_spec test P O : (forall x, test x x = true) -> O <> [] -> size O <= size P ->
  exists b, scan test P O = Ret b /\ (b = true <-> scans test P O).
Proof.
  intros TR. revert P. induction O as [|y O IH]; intros [|x P] NE L; [congruence|congruence|rewrite size_cons, size_nil in L; lia|].
  rewrite !size_cons in L. cbn [scan]. destruct (sv_equals x y) eqn:E; cbn [negb].
  - apply sv_equals_spec in E. subst y. destruct O as [|y2 O].
    + exists true. split; [reflexivity|]. split; [|reflexivity]. intros _. exists [], x, x, P. auto.
    + destruct (IH P ltac:(discriminate) ltac:(lia)) as (b & -> & Hb). exists b. split; [reflexivity|]. rewrite Hb. split.
      * intros (i & c & c' & r & -> & -> & T). exists (x :: i), c, c', r. auto.
      * intros (i & c & c' & r & E1 & E2 & T). destruct i as [|z i]; [discriminate E1|].
        injection E1 as <- E1. injection E2 as E2. exists i, c, c', r. auto.
  - apply sv_equals_false in E. eexists. split; [reflexivity|]. rewrite Bool.andb_true_iff. split.
    + intros (T & O0). destruct O; [|discriminate O0]. exists [], y, x, P. auto.
    + intros (i & c & c' & r & E1 & E2 & T). destruct i as [|z i].
      * injection E1 as -> ->. injection E2 as -> ->. auto.
      * injection E1 as <- E1. injection E2 as <- E2. congruence.
Qed.
(** The other sequence is longer: the answer is no, unless all of [P] was matched. *)
Lemma scan_long test P O : size P < size O -> (exists x X, O = P ++ x :: X) \/ scan test P O = Ret false.
Proof.
  revert O. induction P as [|x P IH]; intros [|y O] L; rewrite ?size_cons, ?size_nil in L; try lia.
  - left. exists y, O. reflexivity.
  - cbn [scan]. destruct (sv_equals x y) eqn:E; cbn [negb].
    + apply sv_equals_spec in E. subst y. destruct (IH O ltac:(lia)) as [(z & X & ->)|H]; [|auto]. left. exists z, X. reflexivity.
    + right. destruct O; [rewrite size_nil in L; lia|]. now rewrite Bool.andb_false_r.
Qed.

Lemma total_app a b : total (a ++ b) = total a + total b.
Proof. unfold total. induction a as [|x a IH]; cbn [app fold_right]; [reflexivity|]. rewrite IH. lia. Qed.
Lemma total_cons x b : total (x :: b) = size x + total b.
Proof. reflexivity. Qed.
Lemma total_rev a : total (rev a) = total a.
Proof. induction a as [|x a IH]; [reflexivity|]. cbn [rev]. rewrite total_app, IH, !total_cons. cbn. lia. Qed.

(** Size of a path's text with a one-character delimiter *)
Lemma size_text cs : cs <> [] -> size (path_text Delimiter cs) = match cs with [[]] => 1 | _ => size cs - 1 + total cs end.
Proof.
  intros H. destruct cs as [|[|c0 c] [|c2 cs]]; [congruence|reflexivity| | |].
  all: unfold path_text; rewrite size_glue by discriminate; change (size Delimiter) with 1; rewrite N.mul_1_l; reflexivity.
Qed.

Lemma text_mono a b : a <> [] -> b <> [] -> size a <= size b -> total a <= total b ->
  size (path_text Delimiter a) <= size (path_text Delimiter b).
Proof.
  intros Na Nb L T. rewrite !size_text by assumption.
  destruct a as [|[|a0 a1] [|a2 a]]; [congruence| | | |]; destruct b as [|[|b0 b1] [|b2 b]]; try congruence; try lia;
    rewrite ?size_cons, ?total_cons, ?size_cons, ?(@size_nil N), ?(@size_nil (list N)) in *; change (total []) with 0 in *; lia.
Qed.
Lemma text_longer P x X O : P <> [] -> (O = P ++ x :: X \/ O = rev (rev P ++ x :: X)) -> ~ (P = [[]] /\ O = [[]; []]) ->
  size (path_text Delimiter P) < size (path_text Delimiter O).
Proof.
  intros NP HO EX. assert (S : size O = size P + 1 + size X).
  { destruct HO as [-> | ->]; rewrite ?size_rev, size_app, ?size_rev, size_cons; lia. }
  assert (T : total O = total P + size x + total X).
  { destruct HO as [-> | ->]; rewrite ?total_rev, total_app, ?total_rev, total_cons; lia. }
  assert (TO : size (path_text Delimiter O) = size O - 1 + total O).
  { rewrite size_text by (intros ->; rewrite size_nil in S; lia).
    destruct O as [|[|o0 o1] [|o2 O']]; rewrite ?size_cons, ?size_nil in S; try lia. destruct P; [congruence|rewrite size_cons in S; lia]. }
  rewrite TO, size_text by assumption.
  destruct P as [|[|p0 p1] [|p2 P']]; [congruence| | | |]; try (rewrite ?size_cons, ?size_nil in *; lia).
  change (size [@nil N]) with 1 in S. change (total [@nil N]) with 0 in T.
  destruct (N.eq_0_gt_0_cases (size x + size X)) as [Z|Z]; [|lia]. exfalso. apply EX. split; [reflexivity|].
  assert (x = []) as -> by (apply size_0_nil; lia). assert (X = []) as -> by (apply size_0_nil; lia).
  destruct HO as [-> | ->]; reflexivity.
Qed.

(** ** contains *)
Lemma ntake_succ {A} (k : N) (x : A) l : ntake (k + 1) (x :: l) = x :: ntake k l.
Proof. cbn [ntake]. destruct (N.eqb_spec (k + 1) 0); [lia|]. do 2 f_equal. lia. Qed.

Lemma match_spec k p o first : forall i, first + i + N.of_nat k <= size (p_comps p) -> i + N.of_nat k = size (p_comps o) ->
  exists b, match_loop k p o first i = Ret b /\
    (b = true <-> ntake (N.of_nat k) (ndrop (first + i) (p_comps p)) = ndrop i (p_comps o)).
Proof.
  induction k as [|k IH]; intros i H1 H2; cbn [match_loop].
  - exists true. split; [reflexivity|]. rewrite ntake_0, ndrop_all by lia. tauto.
  - destruct (nnth_lt_Some (p_comps p) (first + i)) as (x & Hx); [lia|].
    destruct (nnth_lt_Some (p_comps o) i) as (y & Hy); [lia|].
    unfold path_at. rewrite Hx, Hy. cbn [bind]. rewrite (ndrop_cons _ _ _ Hx), (ndrop_cons _ _ _ Hy).
    replace (N.of_nat (S k)) with (N.of_nat k + 1) by lia. rewrite ntake_succ. destruct (sv_equals x y) eqn:E.
    + apply sv_equals_spec in E. subst y. destruct (IH (i + 1) ltac:(lia) ltac:(lia)) as (b & -> & Hb). exists b. split; [reflexivity|].
      rewrite Hb. rewrite N.add_assoc. split; [intros ->; reflexivity|intros X; now injection X].
    + apply sv_equals_false in E. exists false. split; [reflexivity|]. split; congruence.
Qed.

Lemma contains_loop_spec k p o : p_comps o <> [] -> forall first,
  first + N.of_nat k + size (p_comps o) = size (p_comps p) + 1 ->
  exists b, contains_loop k p o first = Ret b /\
    (b = true <-> exists j, first <= j /\ j + size (p_comps o) <= size (p_comps p) /\
                     ntake (size (p_comps o)) (ndrop j (p_comps p)) = p_comps o).
Proof.
  intros NE. assert (SO : 0 < size (p_comps o)) by (destruct (p_comps o); [congruence|rewrite size_cons; lia]).
  induction k as [|k IH]; intros first H; cbn [contains_loop].
  - exists false. split; [reflexivity|]. split; [discriminate|]. intros (j & J1 & J2 & _). lia.
  - destruct (nnth_lt_Some (p_comps p) first) as (x & Hx); [lia|].
    destruct (nnth_lt_Some (p_comps o) 0) as (y & Hy); [lia|].
    assert (STEP : forall b, (b = true <-> ntake (size (p_comps o)) (ndrop first (p_comps p)) = p_comps o) ->
      exists r, (if b : bool then Ret true else contains_loop k p o (first + 1)) = Ret r /\
       (r = true <-> exists j, first <= j /\ j + size (p_comps o) <= size (p_comps p) /\
                     ntake (size (p_comps o)) (ndrop j (p_comps p)) = p_comps o)).
    { intros b Hb. destruct b.
      - exists true. split; [reflexivity|]. split; [|reflexivity]. intros _. exists first. split; [lia|]. split; [lia|now apply Hb].
      - destruct (IH (first + 1) ltac:(lia)) as (r & -> & Hr). exists r. split; [reflexivity|]. rewrite Hr. split.
        + intros (j & J1 & J2 & J3). exists j. split; [lia|auto].
        + intros (j & J1 & J2 & J3). destruct (N.eq_dec j first) as [->|Nj]; [apply Hb in J3; discriminate J3|].
          exists j. split; [lia|auto]. }
    pose proof (ndrop_cons _ _ _ Hy) as DY. rewrite ndrop_0 in DY.
    assert (SZ : size (p_comps o) = N.of_nat (length (p_comps o) - 1) + 1) by (unfold size in *; lia).
    pose proof (ndrop_cons _ _ _ Hx) as DX.
    assert (EQ : ntake (size (p_comps o)) (ndrop first (p_comps p)) = p_comps o <->
      x = y /\ ntake (N.of_nat (length (p_comps o) - 1)) (ndrop (first + 1) (p_comps p)) = ndrop 1 (p_comps o)).
    { rewrite SZ, DX, ntake_succ. rewrite DY at 2. cbn [N.add]. split; [intros X; now injection X|intros (-> & ->); reflexivity]. }
    unfold path_at. rewrite Hx, Hy. cbn [bind]. destruct (sv_equals x y) eqn:E.
    + apply sv_equals_spec in E. subst y.
      destruct (match_spec (length (p_comps o) - 1) p o first 1) as (b & -> & Hb); [lia|lia|]. cbn [bind].
      apply STEP. rewrite EQ, Hb. tauto.
    + apply sv_equals_false in E. apply (STEP false). rewrite EQ. split; [discriminate|]. intros (X & _). congruence.
Qed.

(** ** compareTo *)
Definition ordinary (c : list N) : Prop := c <> [] /\ sv_ok c /\ plain c.

Lemma comps_lt_irrefl a : ~ comps_lt a a.
Proof. induction a as [|x a IH]; intros H; inversion H; subst; [now apply shortlex_irrefl in H1|auto]. Qed.
Lemma comps_lt_asym a b : comps_lt a b -> comps_lt b a -> False.
Proof.
  intros H. induction H as [y b|x y a b H|x a b H IH]; intros G; inversion G; subst.
  - eapply shortlex_irrefl, shortlex_trans; eassumption.
  - now apply shortlex_irrefl in H.
  - now apply shortlex_irrefl in H1.
  - auto.
Qed.

Lemma compare_spec p q k : forall i,
  let a := ndrop i (p_comps p) in let b := ndrop i (p_comps q) in
  N.of_nat k + i = N.min (size (p_comps p)) (size (p_comps q)) ->
  Forall ordinary a -> Forall ordinary b ->
  exists z, compare_loop k p q i = Ret z /\ ((z < 0)%Z <-> comps_lt a b) /\ (z = 0%Z <-> a = b) /\ ((0 < z)%Z <-> comps_lt b a).
Proof.
  induction k as [|k IH]; intros i a b H Fa Fb; cbn [compare_loop].
  - eexists. split; [reflexivity|].
    assert (Sa : size a = size (p_comps p) - i) by apply size_ndrop. assert (Sb : size b = size (p_comps q) - i) by apply size_ndrop.
    assert (a = [] \/ b = []) as Z.
    { destruct (N.le_gt_cases (size (p_comps p)) (size (p_comps q))); [left|right]; apply size_0_nil; lia. }
    clearbody a b. destruct a as [|x a], b as [|y b]; unfold size in *; cbn [length] in *.
    1-3: repeat split; intros X; first [lia | constructor | congruence | solve [inversion X] | exfalso; lia].
    destruct Z; discriminate.
  - destruct (nnth_lt_Some (p_comps p) i) as (x & Hx); [lia|]. destruct (nnth_lt_Some (p_comps q) i) as (y & Hy); [lia|].
    unfold path_at. rewrite Hx, Hy. cbn [bind]. unfold a, b in *. rewrite (ndrop_cons _ _ _ Hx), (ndrop_cons _ _ _ Hy) in *.
    inversion Fa as [|? ? (X1 & X2 & X3) Fa']; subst. inversion Fb as [|? ? (Y1 & Y2 & Y3) Fb']; subst.
    destruct (compareTo_plain x y X2 Y2 X3 Y3 Y1) as (z & -> & Z1 & Z2 & Z3). cbn [bind].
    destruct (Z.eqb_spec z 0) as [E|E].
    + apply Z2 in E. subst y. destruct (IH (i + 1) ltac:(lia) Fa' Fb') as (w & -> & W1 & W2 & W3). exists w. split; [reflexivity|].
      rewrite W1, W2, W3. repeat split; intros G; try (now constructor); try congruence; inversion G; subst; auto;
        exfalso; match goal with H : shortlex_lt ?x ?x |- _ => exact (shortlex_irrefl _ H) end.
    + exists z. split; [reflexivity|]. split; [|split].
      * rewrite Z1. split; [now constructor|]. intros G. inversion G; subst; auto. exfalso. apply E, Z2. reflexivity.
      * rewrite Z2. split; [intros ->; exfalso; apply E, Z2; reflexivity|congruence].
      * rewrite Z3. split; [now constructor|]. intros G. inversion G; subst; auto. exfalso. apply E, Z2. reflexivity.
Qed.

(** ** makePath *)
Lemma push_all xs : forall v, size (p_comps v) + size xs <= p_cap v -> fold_left vpush xs v = mkPath (p_comps v ++ xs) (p_cap v).
Proof.
  induction xs as [|x xs IH]; intros v H; cbn [fold_left].
  - rewrite app_nil_r. now destruct v.
  - rewrite size_cons in H. unfold vpush at 2. destruct (N.leb_spec (p_cap v) (size (p_comps v))); [lia|].
    rewrite IH; cbn [p_comps p_cap]; [now rewrite <- app_assoc|rewrite size_app; change (size [x]) with 1; lia].
Qed.
Definition parg_comps (a : parg) : list (list N) := match a with PText s => [s] | PPath p => p_comps p end.
Lemma make_fold args : forall v, size (p_comps v) + fold_right (fun a n => parg_count a + n) 0 args <= p_cap v ->
  fold_left join_arg args v = mkPath (p_comps v ++ concat (map parg_comps args)) (p_cap v).
Proof.
  induction args as [|a args IH]; intros v H; cbn [fold_left map concat].
  - rewrite app_nil_r. now destruct v.
  - cbn [fold_right] in H. assert (J : join_arg v a = mkPath (p_comps v ++ parg_comps a) (p_cap v)).
    { destruct a as [s|p]; cbn [join_arg parg_comps parg_count] in *; [|apply push_all; lia].
      unfold vpush. destruct (N.leb_spec (p_cap v) (size (p_comps v))); [lia|reflexivity]. }
    rewrite J, IH; cbn [p_comps p_cap]; [now rewrite <- app_assoc|]. rewrite size_app.
    assert (size (parg_comps a) = parg_count a) as -> by (destruct a; reflexivity). lia.
Qed.
