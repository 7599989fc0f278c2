From Verif Require Import Base BaseLemmas StringSpec StringViewModel StringViewProofs StringViewProps StringModel StringProofs StringProps PathModel PathSpec PathProofs PathProps PathAllocModel.

Definition all_granted (m : answers) : Prop := ~ In false m.
Lemma ask_spec m b m' : ask m = (b, m') -> (b = false -> In false m) /\ (In false m' -> In false m) /\ (all_granted m -> b = true /\ all_granted m').
Proof.
  unfold all_granted. destruct m as [|x m]; cbn; intros E; injection E as <- <-; cbn; [repeat split; auto; discriminate|].
  destruct x; repeat split; tauto.
Qed.
(** An answer that is right: the good value, or an error for lack of memory. *)
Definition right_or_refused {A} (m : answers) (good : A) (r : result A) : Prop :=
  (r = Ok good \/ r = Err E_NOMEM) /\ (r = Err E_NOMEM -> In false m) /\ (all_granted m -> r = Ok good).

Lemma string_spec m s r m' : a_string m s = (r, m') ->
  (r = Ok s \/ (r = Err E_NOMEM /\ In false m)) /\ (In false m' -> In false m) /\ (all_granted m -> r = Ok s /\ all_granted m').
Proof.
  unfold a_string. destruct (ask m) as [b k] eqn:E. apply ask_spec in E. intros X. assert (r = if b then Ok s else Err E_NOMEM) as -> by congruence.
  assert (k = m') as -> by congruence. destruct E as (E1 & E2 & E3). split; [destruct b; auto|]. split; [exact E2|].
  intros A. destruct (E3 A) as [-> B]. auto.
Qed.
Lemma vector_spec m n r m' : a_vector m n = (r, m') ->
  (r = Ok (mkPath [] n) \/ (r = Err E_NOMEM /\ In false m)) /\ (In false m' -> In false m) /\ (all_granted m -> r = Ok (mkPath [] n) /\ all_granted m').
Proof.
  unfold a_vector. destruct (ask m) as [b k] eqn:E. apply ask_spec in E. intros X. assert (r = if b then Ok (mkPath [] n) else Err E_NOMEM) as -> by congruence.
  assert (k = m') as -> by congruence. destruct E as (E1 & E2 & E3). split; [destruct b; auto|]. split; [exact E2|].
  intros A. destruct (E3 A) as [-> B]. auto.
Qed.

(** ** C96: parse and makePath report every failure and never give a wrong path *)
Definition parse_ok (m0 : answers) (v : path) (st : option error * path * answers) : Prop :=
  let '(err, v', m) := st in
  match err with Some e => e = E_NOMEM /\ In false m0 | None => v' = v end /\ (In false m -> In false m0) /\ (all_granted m0 -> err = None /\ all_granted m).
Lemma parse_step_ok m0 v st a : parse_ok m0 v st -> parse_ok m0 (parse_step v a) (a_parse_step st a).
Proof.
  destruct st as [[err u] m]. destruct a as [[c i] count]. intros (E & M & G). unfold a_parse_step.
  destruct err as [e|]; [split; [exact E|]; split; [exact M|]; intros A; destruct (G A); discriminate|]. subst u.
  unfold parse_step. set (v1 := if (p_cap v =? 0) && negb (count =? 0) then mkPath [] count else v).
  set (z := if (p_cap v =? 0) && negb (count =? 0) then
      match a_vector m count with (Ok v', m') => (None, v', m') | (Err e, m') => (Some e, v, m') end else (None, v, m)).
  assert (V : parse_ok m0 v1 z).
  { unfold v1, z. destruct ((p_cap v =? 0) && negb (count =? 0)); [|split; [reflexivity|]; split; auto].
    destruct (a_vector m count) as [r k] eqn:Q. apply vector_spec in Q. destruct Q as (Q1 & Q2 & Q3).
    destruct Q1 as [-> |[-> F]].
    - split; [reflexivity|]. split; [auto|]. intros A. split; [reflexivity|]. destruct (G A) as [_ A']. now destruct (Q3 A').
    - split; [split; [reflexivity|auto]|]. split; [auto|]. intros A. destruct (G A) as [_ A']. destruct (Q3 A'). discriminate. }
  clearbody z v1. destruct z as [[err u] k]. destruct V as (E1 & M1 & G1).
  destruct ((i + 1 =? count) && sv_empty c); [split; auto|].
  destruct (a_string k c) as [r k'] eqn:Q. apply string_spec in Q. destruct Q as (Q1 & Q2 & Q3).
  destruct Q1 as [-> |[-> F]].
  - split; [destruct err; [exact E1 | now subst u]|]. split; [auto|]. intros A. destruct (G1 A) as [-> A']. now destruct (Q3 A').
  - split; [auto|]. split; [auto|]. intros A. destruct (G1 A) as [_ A']. destruct (Q3 A'). discriminate.
Qed.
Theorem C96_parse : forall fuel m d s p, path_parse fuel d s = Ret p -> exists r, a_parse fuel m d s = Ret r /\ right_or_refused m p r.
Proof.
  intros fuel m d s p H. unfold path_parse in H. unfold a_parse. destruct (sv_split3 fuel d s) as [q| | | |]; try discriminate. cbn in *.
  assert (R : parse_ok m (fold_left parse_step (fst q) path_none) (fold_left a_parse_step (fst q) (None, path_none, m))).
  { assert (I : parse_ok m path_none (None, path_none, m)) by (split; auto; split; auto).
    revert I. clear H. generalize path_none (None (A := error), path_none, m). induction (fst q) as [|a l IH]; intros v st I; cbn [fold_left]; [exact I|].
    apply IH. now apply parse_step_ok. }
  destruct (fold_left a_parse_step (fst q) (None, path_none, m)) as [[err v] k]. destruct R as (R1 & _ & R3).
  destruct err as [e|].
  - destruct R1 as [-> F]. eexists. split; [reflexivity|]. split; [now right|]. split; [auto|]. intros A. destruct (R3 A). discriminate.
  - subst v. eexists. split; [reflexivity|]. assert (X : p = (if size (p_comps (fold_left parse_step (fst q) path_none)) =? 0 then vpush (fold_left parse_step (fst q) path_none) [] else fold_left parse_step (fst q) path_none)) by congruence.
    rewrite <- X. split; [now left|]. split; [discriminate|reflexivity].
Qed.
Print Assumptions C96_parse.

Lemma copy_all_spec cs : forall m v r m', a_copy_all m v cs = (r, m') ->
  (r = Ok (fold_left vpush cs v) \/ (r = Err E_NOMEM /\ In false m)) /\ (In false m' -> In false m) /\ (all_granted m -> r = Ok (fold_left vpush cs v) /\ all_granted m').
Proof.
  induction cs as [|c cs IH]; intros m v r m' H; cbn [a_copy_all fold_left] in *.
  - injection H as <- <-. auto.
  - destruct (a_string m c) as [q k] eqn:Q. apply string_spec in Q. destruct Q as (Q1 & Q2 & Q3). destruct Q1 as [-> |[-> F]].
    + apply IH in H. destruct H as (H1 & H2 & H3). split; [destruct H1 as [? |[? ?]]; auto|]. split; [auto|].
      intros A. destruct (Q3 A). auto.
    + injection H as <- <-. split; [auto|]. split; [auto|]. intros A. destruct (Q3 A). discriminate.
Qed.
Lemma join_spec args : forall m v r m', a_join m v args = (r, m') ->
  (r = Ok (fold_left join_arg (map arg_of args) v) \/ (r = Err E_NOMEM /\ In false m)) /\ (all_granted m -> r = Ok (fold_left join_arg (map arg_of args) v)).
Proof.
  induction args as [|a args IH]; intros m v r m' H; cbn [a_join map fold_left] in *.
  - injection H as <- <-. auto.
  - destruct (a_join_arg m v a) as [q k] eqn:Q.
    assert (P : (q = Ok (join_arg v (arg_of a)) \/ (q = Err E_NOMEM /\ In false m)) /\ (In false k -> In false m) /\ (all_granted m -> q = Ok (join_arg v (arg_of a)) /\ all_granted k)).
    { destruct a as [s|p|p]; cbn [a_join_arg arg_of join_arg] in *.
      - apply (copy_all_spec [s]) in Q. exact Q.
      - apply copy_all_spec in Q. exact Q.
      - injection Q as <- <-. auto. }
    destruct P as (P1 & P2 & P3). destruct P1 as [-> |[-> F]].
    + apply IH in H. destruct H as (H1 & H3). split; [destruct H1 as [? |[? ?]]; auto|].
      intros A. destruct (P3 A). auto.
    + injection H as <- <-. split; [auto|]. intros A. destruct (P3 A). discriminate.
Qed.
Theorem C96_make : forall m args, right_or_refused m (path_make (map arg_of args)) (a_make m args).
Proof.
  intros m args. unfold a_make, path_make.
  replace (fold_right (fun a n => parg_count (arg_of a) + n) 0 args) with (fold_right (fun a n => parg_count a + n) 0 (map arg_of args)).
  2:{ induction args as [|a args IH]; cbn; [reflexivity|]. now rewrite IH. }
  destruct (a_vector m _) as [r k] eqn:Q. apply vector_spec in Q. destruct Q as (Q1 & Q2 & Q3). destruct Q1 as [-> |[-> F]].
  - destruct (a_join k _ args) as [r k'] eqn:J. apply join_spec in J. destruct J as (J1 & J2). cbn [fst].
    split; [destruct J1 as [? |[? ?]]; auto|]. split; [|intros A; destruct (Q3 A); auto].
    destruct J1 as [-> |[-> F]]; [discriminate|auto].
  - split; [auto|]. split; [auto|]. intros A. destruct (Q3 A). discriminate.
Qed.
Print Assumptions C96_make.
Theorem C96_single : forall m s, right_or_refused m (path_single s) (fst (a_single m s)).
Proof.
  intros m s. unfold a_single. destruct (a_string m s) as [r k] eqn:Q. apply string_spec in Q. destruct Q as (Q1 & Q2 & Q3). destruct Q1 as [-> |[-> F]].
  - destruct (a_vector k 1) as [r k'] eqn:V. apply vector_spec in V. destruct V as (V1 & V2 & V3). destruct V1 as [-> |[-> F]]; cbn [fst].
    + split; [now left|]. split; [discriminate|reflexivity].
    + split; [auto|]. split; [auto|]. intros A. destruct (Q3 A) as [_ B]. destruct (V3 B). discriminate.
  - cbn. split; [auto|]. split; [auto|]. intros A. destruct (Q3 A). discriminate.
Qed.
Print Assumptions C96_single.
Example C96_case : a_parse 9 [true; true; false] [47] [97; 47; 98] = Ret (Err E_NOMEM) /\ a_parse 9 [true; true] [47] [97; 47; 98] = Ret (Ok (mkPath [[97]; [98]] 2)) /\
  a_make [true; true; true; false] [AText [97]; APath (mkPath [[98]; [99]] 2)] = Err E_NOMEM.
Proof. repeat split. Qed.

(** The operations on a path that give a path are right when nothing fails ... *)
Lemma normalize_granted p : forall m v, all_granted m -> fst (fold_left a_normalize_step (p_comps p) (v, m)) = fold_left normalize_step (p_comps p) v.
Proof.
  induction (p_comps p) as [|c cs IH]; intros m v A; cbn [fold_left]; [reflexivity|].
  unfold a_normalize_step at 2. unfold normalize_step at 2. destruct (sv_equals c SelfRef); [now apply IH|].
  destruct (sv_equals c ParentRef && _); [now apply IH|]. destruct (a_string m c) as [r k] eqn:Q. apply string_spec in Q.
  destruct Q as (_ & _ & Q3). destruct (Q3 A) as [-> B]. now apply IH.
Qed.
Theorem C96_normalize_partial : forall m p, all_granted m -> a_normalize m p = path_normalize p.
Proof.
  intros m p A. unfold a_normalize, path_normalize. destruct (a_vector m _) as [r k] eqn:Q. apply vector_spec in Q.
  destruct Q as (_ & _ & Q3). destruct (Q3 A) as [-> B]. now apply normalize_granted.
Qed.
Print Assumptions C96_normalize_partial.
Lemma copy_granted k : forall m p v i, all_granted m -> a_copy_loop k m p v i = copy_loop k p v i.
Proof.
  induction k as [|k IH]; intros m p v i A; cbn [a_copy_loop copy_loop]; [reflexivity|].
  destruct (path_at p i); [|reflexivity ..]. cbn [bind]. destruct (a_string m a) as [r k'] eqn:Q. apply string_spec in Q.
  destruct Q as (_ & _ & Q3). destruct (Q3 A) as [-> B]. now apply IH.
Qed.
Lemma raise_granted cs : forall m, all_granted m -> a_copy_or_raise m cs = Ret cs.
Proof.
  induction cs as [|c cs IH]; intros m A; cbn [a_copy_or_raise]; [reflexivity|].
  destruct (a_string m c) as [r k] eqn:Q. apply string_spec in Q. destruct Q as (_ & _ & Q3). destruct (Q3 A) as [-> B].
  now rewrite (IH _ B).
Qed.
Theorem C96_subpath_partial : forall m p from to, all_granted m -> a_subpath m p from to = path_subpath p from to /\ a_getParent m p = path_getParent p.
Proof.
  intros m p from to A. split.
  - unfold a_subpath, path_subpath. cbv zeta. destruct (_ <? _); [reflexivity|]. destruct (a_vector m _) as [r k] eqn:Q. apply vector_spec in Q.
    destruct Q as (_ & _ & Q3). destruct (Q3 A) as [-> B]. now rewrite copy_granted.
  - unfold a_getParent, path_getParent. cbv zeta. destruct (_ <? 2); destruct (a_vector m _) as [r k] eqn:Q; apply vector_spec in Q;
      destruct Q as (_ & _ & Q3); destruct (Q3 A) as [-> B].
    + now rewrite raise_granted.
    + now rewrite copy_granted.
Qed.
Print Assumptions C96_subpath_partial.

(** ... but a component whose copy fails is left out without a word: the result is the path of the
    components that were copied. *)
Fixpoint survivors (m : answers) (cs : list (list N)) {struct cs} : list (list N) :=
  match cs, m with
  | [], _ => []
  | _, [] => cs
  | c :: t, b :: m' => if b then c :: survivors m' t else survivors m' t
  end.
Lemma copy_survivors k : forall m p v i, i + N.of_nat k <= size (p_comps p) -> size (p_comps v) + N.of_nat k <= p_cap v ->
  a_copy_loop k m p v i = Ret (mkPath (p_comps v ++ survivors m (ntake (N.of_nat k) (ndrop i (p_comps p)))) (p_cap v)).
Proof.
  induction k as [|k IH]; intros m p v i H1 H2; cbn [a_copy_loop].
  - rewrite ntake_0. cbn. rewrite app_nil_r. now destruct v.
  - destruct (nnth_lt_Some (p_comps p) i) as (c & Hc); [lia|]. unfold path_at. rewrite Hc. cbn [bind].
    rewrite (ndrop_cons _ _ _ Hc). replace (N.of_nat (S k)) with (N.of_nat k + 1) by lia. rewrite ntake_succ.
    unfold a_string, ask. destruct m as [|b m].
    + rewrite IH; [|lia|unfold vpush; destruct (N.leb_spec (p_cap v) (size (p_comps v))); cbn [p_comps p_cap]; rewrite ?size_app; change (size [c]) with 1; lia].
      unfold vpush. destruct (N.leb_spec (p_cap v) (size (p_comps v))); [lia|]. cbn [p_comps p_cap]. rewrite <- app_assoc. do 2 f_equal. cbn [app survivors].
      f_equal. f_equal. now destruct (ntake (N.of_nat k) _).
    + destruct b.
      * rewrite IH; [|lia|unfold vpush; destruct (N.leb_spec (p_cap v) (size (p_comps v))); cbn [p_comps p_cap]; rewrite ?size_app; change (size [c]) with 1; lia].
        unfold vpush. destruct (N.leb_spec (p_cap v) (size (p_comps v))); [lia|]. cbn [p_comps p_cap]. now rewrite <- app_assoc.
      * rewrite IH by lia. reflexivity.
Qed.
Theorem C96_copies : forall m p, (2 <= length (p_comps p))%nat ->
  exists q, a_getParent (true :: m) p = Ret q /\ p_comps q = survivors m (removelast (p_comps p)).
Proof.
  intros m p L. unfold a_getParent. cbv zeta. cbn [a_vector ask]. destruct (N.ltb_spec (size (p_comps p)) 2) as [G|G]; [unfold size in G; lia|].
  cbn. rewrite copy_survivors; cbn [p_comps p_cap]; [|lia|rewrite size_nil; lia]. eexists. split; [reflexivity|]. cbn [p_comps app].
  f_equal. rewrite N2Nat.id, ndrop_0. destruct (exists_last (l := p_comps p)) as (l & x & E); [intros E; rewrite E in L; cbn in L; lia|].
  rewrite E, removelast_last, size_app. change (size [x]) with 1. replace (size l + 1 - 1) with (size l) by lia. apply ntake_app_exact.
Qed.
Print Assumptions C96_copies.
Theorem C96_parent_refuted : forall c d e r cap, p_comps (mkPath (c :: d :: e :: r) cap) = c :: d :: e :: r /\
  exists q, a_getParent [true; false] (mkPath (c :: d :: e :: r) cap) = Ret q /\ p_comps q = removelast (d :: e :: r).
Proof.
  intros c d e r cap. split; [reflexivity|]. destruct (C96_copies [false] (mkPath (c :: d :: e :: r) cap)) as (q & A & B); [cbn; lia|].
  exists q. split; [exact A|]. rewrite B. cbn [p_comps]. cbn [removelast survivors]. now destruct (removelast _).
Qed.
Print Assumptions C96_parent_refuted.
(** normalize: with the copy of the first name lost, the ".." that follows climbs out. *)
Theorem C96_normalize_refuted : forall c r cap, c <> SelfRef -> c <> ParentRef -> Forall (fun x => x <> SelfRef /\ x <> ParentRef) r ->
  p_comps (path_normalize (mkPath (c :: ParentRef :: r) cap)) = r /\
  p_comps (a_normalize [true; false] (mkPath (c :: ParentRef :: r) cap)) = ParentRef :: r.
Proof.
  intros c r cap C1 C2 F. split.
  - rewrite normalize_spec. cbn [p_comps fold_left]. unfold nstep at 2 3.
    rewrite (proj2 (sv_equals_false c SelfRef) C1), (proj2 (sv_equals_false c ParentRef) C2). cbn [andb app].
    change (sv_equals ParentRef SelfRef) with false. change (sv_equals ParentRef ParentRef && (0 <? size [c])) with true. cbn [removelast].
    now rewrite (nfold_plain r F).
  - unfold a_normalize. cbn [a_vector ask p_comps fold_left]. unfold a_normalize_step at 2 3.
    rewrite (proj2 (sv_equals_false c SelfRef) C1), (proj2 (sv_equals_false c ParentRef) C2). cbn [andb a_string ask].
    change (sv_equals ParentRef SelfRef) with false. change (sv_equals ParentRef ParentRef && (0 <? size (p_comps (mkPath [] (size (c :: ParentRef :: r)))))) with false.
    cbn [a_string ask]. unfold vpush at 1. cbn [p_comps p_cap]. rewrite !size_cons, size_nil. destruct (N.leb_spec (size r + 1 + 1) 0); [lia|]. cbn [app].
    assert (P : forall l st n, Forall (fun x => x <> SelfRef /\ x <> ParentRef) l -> size st + size l <= n ->
      p_comps (fst (fold_left a_normalize_step l (mkPath st n, []))) = st ++ l).
    { induction l as [|x l IH]; intros st n Fl Hn; cbn [fold_left]; [now rewrite app_nil_r|]. inversion Fl as [|? ? [X1 X2] Fl']; subst.
      rewrite size_cons in Hn. unfold a_normalize_step at 2. rewrite (proj2 (sv_equals_false x SelfRef) X1), (proj2 (sv_equals_false x ParentRef) X2).
      cbn [andb a_string ask]. unfold vpush. cbn [p_comps p_cap]. destruct (N.leb_spec n (size st)); [lia|]. rewrite IH; auto; [now rewrite <- app_assoc|].
      rewrite size_app. change (size [x]) with 1. lia. }
    rewrite P; auto. change (size [ParentRef]) with 1. lia.
Qed.
Print Assumptions C96_normalize_refuted.
(** subpath ends the program when the vector is refused; getParent of a path of one component raises. *)
Theorem C96_subpath_refuted : forall m p from to, a_subpath (false :: m) p from to = Terminates.
Proof. intros m p from to. unfold a_subpath. cbv zeta. destruct (_ <? _); reflexivity. Qed.
Print Assumptions C96_subpath_refuted.
Theorem C96_single_parent_refuted : forall m c cap, a_getParent (true :: false :: m) (mkPath [c] cap) = Throws InvalidState.
Proof. reflexivity. Qed.
Print Assumptions C96_single_parent_refuted.
(** The text of a path that cannot get memory is empty, and checks against a text then fail. *)
Theorem C96_text_refuted : forall c r cap x s, cap <> 0 ->
  (exists t, path_toString (fun _ => Err E_NOMEM) Delimiter (mkPath (c :: r) cap) = Ret t /\ str_view t = []) /\
  path_startsText (fun _ => Err E_NOMEM) (mkPath (c :: r) cap) (x :: s) = Ret false.
Proof.
  intros c r cap x s H. assert (T : path_toString (fun _ => Err E_NOMEM) Delimiter (mkPath (c :: r) cap) = Ret (mkStr [] 0)).
  { unfold path_toString, path_isAbsolute, path_empty. cbn [p_cap]. destruct (N.eqb_spec cap 0); [contradiction|]. cbn.
    destruct (sv_empty c && _); reflexivity. }
  split; [exists (mkStr [] 0); split; [exact T|reflexivity]|]. unfold path_startsText. rewrite T. cbn [bind]. f_equal.
Qed.
Print Assumptions C96_text_refuted.
Example C96_case_lost : a_subpath [true; true; false] (mkPath [[]; [97]; [98]] 3) 0 3 = Ret (mkPath [[]; [98]] 3) /\
  a_normalize [true; false] (mkPath [[97]; [46; 46]; [98]] 3) = mkPath [[46; 46]; [98]] 3.
Proof. split; reflexivity. Qed.

(** ** C97: walking over a path *)
Lemma piter_loop_spec {S} (body : S -> list N -> S) p n : n = size (p_comps p) -> n < 2 ^ 64 -> forall cs i fuel s,
  ndrop i (p_comps p) = cs -> i <= n -> (length cs <= fuel)%nat ->
  piter_loop fuel body (mkPIter i p) (mkPIter n p) s = Ret (fold_left body cs s).
Proof.
  intros Hn Ln. induction cs as [|c cs IH]; intros i fuel s D I F.
  - assert (i = n). { apply (f_equal size) in D. rewrite size_ndrop, size_nil in D. lia. } subst i.
    destruct fuel; cbn [piter_loop]; unfold piter_neq; cbn [pi_index]; rewrite N.eqb_refl; reflexivity.
  - assert (i < n). { apply (f_equal size) in D. rewrite size_ndrop, size_cons in D. lia. }
    destruct fuel as [|fuel]; [cbn in F; lia|]. cbn [piter_loop]. unfold piter_neq. cbn [pi_index]. destruct (N.eqb_spec i n); [lia|]. cbn [negb].
    unfold piter_deref, path_at. cbn [pi_path pi_index].
    destruct (nnth (p_comps p) i) as [x|] eqn:X; [|apply ndrop_none in X; congruence].
    pose proof (ndrop_cons _ _ _ X) as Y. rewrite D in Y. injection Y as <- Y. cbn [bind fold_left].
    unfold piter_next. cbn [pi_index pi_path]. assert (u64 (i + 1) = i + 1) as -> by (unfold u64; apply N.mod_small; lia).
    apply IH; [congruence|lia|cbn in F; lia].
Qed.
(** A loop over a path runs its body on the components from first to last, once each, and ends; forEach
    does the same, and of a path handed over it leaves as many empty components. *)
Theorem C97_for : forall (S : Type) (body : S -> list N -> S) p s fuel, size (p_comps p) < 2 ^ 64 -> (length (p_comps p) <= fuel)%nat ->
  path_for fuel body p s = Ret (fold_left body (p_comps p) s) /\ path_forEach body p s = fold_left body (p_comps p) s.
Proof. intros S body p s fuel L F. split; [|reflexivity]. unfold path_for, path_begin, path_end. apply piter_loop_spec; auto; [apply ndrop_0|lia]. Qed.
Print Assumptions C97_for.
Theorem C97_collect : forall p fuel, size (p_comps p) < 2 ^ 64 -> (length (p_comps p) <= fuel)%nat ->
  path_for fuel (fun l c => l ++ [c]) p [] = Ret (p_comps p) /\
  fst (path_forEach_move (fun l c => l ++ [c]) p []) = p_comps p /\
  p_comps (snd (path_forEach_move (fun l c => l ++ [c]) p [])) = repeat [] (length (p_comps p)).
Proof.
  intros p fuel L F. assert (G : forall (l : list (list N)) a, fold_left (fun l c => l ++ [c]) l a = a ++ l).
  { induction l as [|x l IH]; intros a; cbn [fold_left]; [now rewrite app_nil_r|]. rewrite IH. now rewrite <- app_assoc. }
  split; [|split].
  - rewrite (proj1 (C97_for _ _ p [] fuel L F)), G. reflexivity.
  - cbn. now rewrite G.
  - cbn. generalize (p_comps p). induction l; cbn; congruence.
Qed.
Print Assumptions C97_collect.
(** Looking at the component of an iterator: the one at its index, an exception from the end on. *)
Theorem C97_deref : forall p k, N.of_nat k < 2 ^ 64 ->
  let it := Nat.iter k piter_next (path_begin p) in
  piter_deref it = match nth_error (p_comps p) k with Some c => Ret c | None => Throws IndexOutOfRange end /\
  (size (p_comps p) < 2 ^ 64 -> (piter_neq it (path_end p) = false <-> k = length (p_comps p))).
Proof.
  intros p k L. assert (E : Nat.iter k piter_next (path_begin p) = mkPIter (N.of_nat k) p).
  { clear - L. induction k as [|k IH]; [reflexivity|]. change (Nat.iter (S k) piter_next (path_begin p)) with (piter_next (Nat.iter k piter_next (path_begin p))). rewrite IH by lia. unfold piter_next. cbn [pi_index pi_path].
    f_equal. unfold u64. rewrite N.mod_small by lia. lia. }
  cbv zeta. rewrite E. split.
  - unfold piter_deref, path_at. cbn [pi_path pi_index]. rewrite nnth_nth_error, Nat2N.id. reflexivity.
  - intros _. unfold piter_neq, path_end. cbn [pi_index]. destruct (N.eqb_spec (N.of_nat k) (size (p_comps p))) as [Q|Q]; cbn [negb]; unfold size in Q; split; try lia; congruence.
Qed.
Print Assumptions C97_deref.
(** Path::Root, made when there is memory, is the root: absolute, and printed as the delimiter. *)
Theorem C97_root : forall m alloc, all_granted m -> heap_ok alloc -> (forall n, exists b, alloc n = Ok b) ->
  let root := fst (a_root m) in
  path_isAbsolute root = Ret true /\ path_isRelative root = Ret false /\ path_equals root (path_single []) = true /\
  exists st, path_toString alloc Delimiter root = Ret st /\ str_view st = Delimiter.
Proof.
  intros m alloc A H1 H2. destruct (C96_single m []) as (_ & _ & G). specialize (G A). unfold a_root.
  destruct (a_single m []) as [r k]. cbn [fst] in *. subst r. cbn [fst]. repeat split.
  assert (X : exists st, path_toString alloc Delimiter (path_single []) = Ret st /\ str_view st = path_text Delimiter (p_comps (path_single [])) /\
    st_size st = size (path_text Delimiter (p_comps (path_single [])))).
  { apply toString_spec; auto; try discriminate; try (now vm_compute). repeat constructor. }
  destruct X as (st & X & Y & _). exists st. auto.
Qed.
Print Assumptions C97_root.
Example C97_case : path_for 5 (fun l c => l ++ [c]) (mkPath [[]; [97]; [98; 99]] 4) [] = Ret [[]; [97]; [98; 99]] /\ piter_deref (path_end (mkPath [[97]] 1)) = Throws IndexOutOfRange.
Proof. split; reflexivity. Qed.

(** ** C98: checks against a text *)
Lemma toString_small alloc p t : path_toString alloc Delimiter p = Ret t -> sv_ok (str_view t).
Proof.
  intros H. unfold path_toString in H. destruct (path_isAbsolute p) as [b| | | |]; try discriminate. cbn [bind] in H.
  assert (B : forall s : str, st_size s < 2 ^ 16 -> sv_ok (str_view s)).
  { intros s L. unfold sv_ok, str_view. rewrite size_ntake. lia. }
  destruct (b && _).
  - unfold str_make in H. destruct (alloc _); cbn [bind] in H; [|injection H as <-; now vm_compute].
    destruct (_ <? _); cbn [bind] in H; injection H as <-; [now vm_compute|]. apply B. now vm_compute.
  - unfold str_join in H. destruct (alloc _); cbn [bind] in H; [|injection H as <-; now vm_compute].
    destruct (join_loop _ _ _ _) as [q| | | |]; try discriminate. cbn [bind] in H.
    destruct (fst q); cbn [bind] in H; injection H as <-; [|now vm_compute]. apply B. cbn [st_size].
    generalize (p_comps p). clear. intros l. change (2 ^ 16) with 65536.
    assert (Z : forall (l : list (list N)) n, n < 65536 -> fold_left (fun n s => u16 (n + size s)) l n < 65536).
    { induction l0 as [|x l0 IH]; intros n L; cbn [fold_left]; [exact L|]. apply IH. unfold u16. now apply N.mod_lt. }
    apply Z. unfold u16. now apply N.mod_lt.
Qed.
Theorem C98_starts_ends : forall alloc p t s, path_toString alloc Delimiter p = Ret t ->
  (exists b, path_startsText alloc p s = Ret b /\ (b = true <-> exists r, str_view t = s ++ r)) /\
  (exists b, path_endsText alloc p s = Ret b /\ (b = true <-> exists r, str_view t = r ++ s)).
Proof.
  intros alloc p t s H. unfold path_startsText, path_endsText. rewrite H. cbn [bind]. split; eexists; (split; [reflexivity|]).
  - apply C19_startsWith.
  - apply C19_endsWith.
Qed.
Print Assumptions C98_starts_ends.
Theorem C98_contains_partial : forall alloc p t after s sAfter, path_toString alloc Delimiter p = Ret t -> s <> [] ->
  exists b, path_containsText alloc p after s sAfter = Ret b /\ (b = true <-> exists l r, str_view t = l ++ s ++ r).
Proof.
  intros alloc p t after s sAfter H NE. unfold path_containsText. rewrite H. cbn [bind].
  destruct (C21_contains (str_view t) after s sAfter 0 (toString_small _ _ _ H) NE) as [(b & E & Q) _].
  exists b. split; [exact E|]. rewrite Q. unfold occurs. split.
  - intros (i & O). destruct O as (l & r & -> & _). eauto.
  - intros (l & r & E2). exists (size l). exists l, r. auto.
Qed.
Print Assumptions C98_contains_partial.
(** The empty text is contained in every text, but what lies behind the empty view decides. *)
Theorem C98_contains_refuted : path_containsText junk_heap (mkPath [[97]] 1) [0] [] [98] = Ret false.
Proof. vm_compute. reflexivity. Qed.
Print Assumptions C98_contains_refuted.
Example C98_case : path_startsText junk_heap (mkPath [[]; [97]; [98; 99]] 4) [47; 97; 47] = Ret true /\ path_endsText junk_heap (mkPath [[]; [97]; [98; 99]] 4) [47; 97; 47] = Ret false /\
  path_containsText junk_heap (mkPath [[]; [97]; [98; 99]] 4) [0] [97; 47; 98] [0] = Ret true.
Proof. vm_compute. repeat split. Qed.
