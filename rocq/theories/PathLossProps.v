(** C151: exactly what getParent, subpath and normalize give when any of their requests for
    memory is refused. *)
From Verif Require Import Base BaseLemmas StringSpec StringViewModel StringViewProofs StringModel StringProofs PathModel PathSpec PathProofs PathProps PathAllocModel PathAllocProps.

(** [granted m cs]: the components whose copy was granted, the copies being asked for in order
    and [m] the answers; requests after the end of [m] are granted. *)
Inductive granted : list bool -> list (list N) -> list (list N) -> Prop :=
| granted_none m : granted m [] []
| granted_rest cs : granted [] cs cs
| granted_yes m c cs l : granted m cs l -> granted (true :: m) (c :: cs) (c :: l)
| granted_no m c cs l : granted m cs l -> granted (false :: m) (c :: cs) l.
(** Some of the components, in order. *)
Inductive some_of : list (list N) -> list (list N) -> Prop :=
| some_none : some_of [] []
| some_kept c cs l : some_of cs l -> some_of (c :: cs) (c :: l)
| some_lost c cs l : some_of cs l -> some_of (c :: cs) l.

Lemma survivors_granted cs : forall m, granted m cs (survivors m cs).
Proof.
  induction cs as [|c cs IH]; intros m; [destruct m; constructor|]. destruct m as [|[] m]; cbn [survivors]; constructor; apply IH.
Qed.
Lemma granted_survivors m cs l : granted m cs l -> l = survivors m cs.
Proof. intros G. induction G as [m|cs|m c cs l G IH|m c cs l G IH]; cbn [survivors]; [now destruct m|now destruct cs|congruence|exact IH]. Qed.
(** The answers that tell which components are kept. *)
Lemma some_granted cs l : some_of cs l <-> exists m, granted m cs l.
Proof.
  split.
  - intros H. induction H as [|c cs l H (m & IH)|c cs l H (m & IH)]; [exists []; constructor|exists (true :: m)|exists (false :: m)]; now constructor.
  - intros (m & G). induction G as [m|cs|m c cs l G IH|m c cs l G IH]; try (constructor; assumption). induction cs; now constructor.
Qed.

(** [subpath]: a refused vector ends the program; otherwise the range without the components
    that were refused. *)
Theorem C151_subpath : forall m p from to,
  match m with
  | false :: _ => a_subpath m p from to = Terminates
  | _ => exists q, a_subpath m p from to = Ret q /\
           granted (tl m) (firstn (N.to_nat (to - from)) (skipn (N.to_nat from) (p_comps p))) (p_comps q)
  end.
Proof.
  intros m p from to.
  assert (forall k, exists q, noexcept (a_copy_loop (N.to_nat (N.max (N.min from (size (p_comps p))) (N.min to (size (p_comps p))) - N.min from (size (p_comps p)))) k p
            (mkPath [] (N.max (N.min from (size (p_comps p))) (N.min to (size (p_comps p))) - N.min from (size (p_comps p)))) (N.min from (size (p_comps p)))) = Ret q /\
            granted k (firstn (N.to_nat (to - from)) (skipn (N.to_nat from) (p_comps p))) (p_comps q)) as H.
  { intros k. set (n := size (p_comps p)). rewrite copy_survivors; cbn [p_comps p_cap]; [|fold n; lia|rewrite size_nil; lia]. cbn [noexcept].
    eexists. split; [reflexivity|]. cbn [p_comps app]. rewrite N2Nat.id, ntake_firstn, ndrop_skipn.
    replace (firstn (N.to_nat (N.max (N.min from n) (N.min to n) - N.min from n)) (skipn (N.to_nat (N.min from n)) (p_comps p)))
      with (firstn (N.to_nat (to - from)) (skipn (N.to_nat from) (p_comps p))); [apply survivors_granted|].
    assert (length (p_comps p) = N.to_nat n) as L by (unfold n, size; lia). destruct (N.le_gt_cases n from) as [G|G].
    - rewrite N.min_r by exact G. rewrite !skipn_all2 by lia. now rewrite !firstn_nil.
    - rewrite (N.min_l from) by lia. destruct (N.le_gt_cases to n) as [K|K].
      + f_equal. lia.
      + rewrite !firstn_all2; [reflexivity|rewrite skipn_length; lia|rewrite skipn_length; lia]. }
  unfold a_subpath. cbv zeta. destruct (N.ltb_spec (N.max (N.min from (size (p_comps p))) (N.min to (size (p_comps p)))) (N.min from (size (p_comps p)))); [lia|].
  destruct m as [|[] m]; cbn [a_vector ask tl]; [apply H|apply H|reflexivity].
Qed.
Print Assumptions C151_subpath.

(** [getParent]: a refused array gives the empty path; otherwise all components but the last
    without those that were refused; but a path of one component raises if that is refused. *)
Theorem C151_parent : forall m p,
  match m with
  | false :: _ => a_getParent m p = Ret path_none
  | _ => match p_comps p, tl m with
         | [], _ => a_getParent m p = Ret path_none
         | [c], false :: _ => a_getParent m p = Throws InvalidState
         | [c], _ => a_getParent m p = Ret (mkPath [c] 1)
         | cs, k => exists q, a_getParent m p = Ret q /\ granted k (removelast cs) (p_comps q)
         end
  end.
Proof.
  intros m [cs cap]. cbn [p_comps]. unfold a_getParent. cbv zeta. cbn [p_comps]. destruct cs as [|c [|d cs]].
  - change (size (@nil (list N)) <? 2) with true. cbn iota. destruct m as [|[] m]; reflexivity.
  - change (size [c] <? 2) with true. cbn iota. destruct m as [|[] m]; [reflexivity| |reflexivity]. destruct m as [|[] m]; reflexivity.
  - assert ((size (c :: d :: cs) <? 2) = false) as -> by (apply N.ltb_ge; rewrite !size_cons; lia).
    destruct m as [|[] m]; cbn [a_vector ask tl]; [| |reflexivity].
    all: rewrite copy_survivors; cbn [p_comps p_cap]; [|rewrite !size_cons; lia|rewrite size_nil; lia]; eexists; (split; [reflexivity|]); cbn [p_comps app];
      rewrite N2Nat.id, ndrop_0; replace (ntake (size (c :: d :: cs) - 1) (c :: d :: cs)) with (removelast (c :: d :: cs)); [apply survivors_granted|];
      destruct (exists_last (l := c :: d :: cs)) as (l & x & E); [discriminate|]; rewrite E, removelast_last, size_app; change (size [x]) with 1;
      replace (size l + 1 - 1) with (size l) by lia; symmetry; apply ntake_app_exact.
Qed.
Print Assumptions C151_parent.

(** So what these two can give is exactly: any choice of the components they should give. *)
Theorem C151_any_choice : forall p l,
  (forall from to, (exists m q, a_subpath m p from to = Ret q /\ p_comps q = l) <-> some_of (firstn (N.to_nat (to - from)) (skipn (N.to_nat from) (p_comps p))) l) /\
  ((2 <= length (p_comps p))%nat -> (exists m q, a_getParent m p = Ret q /\ p_comps q = l) <-> some_of (removelast (p_comps p)) l).
Proof.
  intros p l. split.
  - intros from to. rewrite some_granted. split.
    + intros (m & q & E & <-). pose proof (C151_subpath m p from to) as H. exists (tl m).
      destruct m as [|[] m]; [destruct H as (q' & E' & G)|destruct H as (q' & E' & G)|congruence]; congruence.
    + intros (m & G). exists (true :: m). destruct (C151_subpath (true :: m) p from to) as (q & E & G'). cbn [tl] in G'. exists q. split; [exact E|].
      apply granted_survivors in G, G'. congruence.
  - intros L. destruct p as [[|c [|d cs]] cap]; cbn [p_comps length] in L; try lia. cbn [p_comps]. split.
    + intros (m & q & E & <-). pose proof (C151_parent m (mkPath (c :: d :: cs) cap)) as H. cbn [p_comps] in H.
      assert (some_of (removelast (c :: d :: cs)) []) as Z by (clear; induction (removelast (c :: d :: cs)); constructor; assumption).
      destruct m as [|[] m]; cbn [tl] in H; [destruct H as (q' & E' & G)|destruct H as (q' & E' & G)|].
      * apply some_granted. exists []. rewrite E' in E. injection E as <-. exact G.
      * apply some_granted. exists m. rewrite E' in E. injection E as <-. exact G.
      * rewrite H in E. injection E as <-. exact Z.
    + rewrite some_granted. intros (m & G). exists (true :: m). pose proof (C151_parent (true :: m) (mkPath (c :: d :: cs) cap)) as (q & E & G'). exists q. split; [exact E|].
      apply granted_survivors in G, G'. now rewrite G', G.
Qed.
Print Assumptions C151_any_choice.

(** ** normalize *)
(** What can be lost on the way: a name, or a ".." met where there is nothing to climb out of. *)
Inductive losing : list (list N) -> list (list N) -> Prop :=
| losing_none : losing [] []
| losing_kept cs l c : losing cs l -> losing (cs ++ [c]) (l ++ [c])
| losing_lost cs l c : losing cs l -> c <> [46] -> (c = [46; 46] -> forall cap, p_comps (path_normalize (mkPath l cap)) = []) -> losing (cs ++ [c]) l.

Definition lstep (st : list (list N) * answers) (c : list N) : list (list N) * answers :=
  let (v, m) := st in
  if sv_equals c SelfRef then (v, m)
  else if sv_equals c ParentRef && (0 <? size v) then (removelast v, m)
  else let (b, m') := ask m in (if b then v ++ [c] else v, m').
Lemma lfold cs : forall st m n, size st + size cs <= n ->
  fold_left a_normalize_step cs (mkPath st n, m) = (mkPath (fst (fold_left lstep cs (st, m))) n, snd (fold_left lstep cs (st, m))).
Proof.
  induction cs as [|c cs IH]; intros st m n L; cbn [fold_left]; [reflexivity|]. rewrite size_cons in L.
  unfold a_normalize_step at 2, lstep at 2 4. cbn [p_comps]. destruct (sv_equals c SelfRef); [apply IH; lia|].
  destruct (sv_equals c ParentRef && (0 <? size st)) eqn:E.
  - apply andb_prop in E. destruct E as [_ E]. apply N.ltb_lt in E. unfold vpop. cbn [p_comps p_cap]. destruct (N.ltb_spec (size st) 1); [lia|].
    apply IH. destruct (exists_last (l := st)) as (l & x & ->); [intros ->; cbn in E; lia|]. rewrite removelast_last. rewrite size_app in L. lia.
  - unfold a_string. destruct (ask m) as [[] k]; [|apply IH; lia]. unfold vpush. cbn [p_comps p_cap]. destruct (N.leb_spec n (size st)); [lia|].
    apply IH. rewrite size_app. change (size [c]) with 1. lia.
Qed.
Lemma normalize_lfold m p : a_normalize m p = match m with false :: _ => path_none | _ => mkPath (fst (fold_left lstep (p_comps p) ([], tl m))) (size (p_comps p)) end.
Proof. unfold a_normalize. destruct m as [|[] m]; cbn [a_vector ask tl]; [| |reflexivity]; rewrite lfold by (rewrite size_nil; lia); reflexivity. Qed.
Lemma lstep_lost v m c : c <> SelfRef -> (c = ParentRef -> v = []) -> lstep (v, false :: m) c = (v, m).
Proof.
  intros A B. unfold lstep. rewrite (proj2 (sv_equals_false c SelfRef) A). destruct (sv_equals c ParentRef) eqn:E; cbn [andb]; [|reflexivity].
  apply sv_equals_spec in E. now rewrite (B E).
Qed.
Lemma lstep_kept v c : (forall m, lstep (v, m) c = (nstep v c, m)) \/ (forall m, lstep (v, true :: m) c = (nstep v c, m)).
Proof. unfold lstep, nstep. destruct (sv_equals c SelfRef); [now left|]. destruct (sv_equals c ParentRef && _); [now left|now right]. Qed.

(** normalize: a refused vector gives the empty path; otherwise the result is the normal form of
    what is left after such losses, and each of these is possible. *)
Theorem C151_normalize : forall p,
  (forall m, match m with
             | false :: _ => a_normalize m p = path_none
             | _ => exists l, losing (p_comps p) l /\ forall cap, p_comps (a_normalize m p) = p_comps (path_normalize (mkPath l cap))
             end) /\
  (forall l, losing (p_comps p) l -> exists m, forall cap, p_comps (a_normalize m p) = p_comps (path_normalize (mkPath l cap))).
Proof.
  intros p. split.
  - intros m. assert (forall k, exists l, losing (p_comps p) l /\ fst (fold_left lstep (p_comps p) ([], k)) = fold_left nstep l []) as H.
    { intros k. destruct p as [cs cap]. cbn [p_comps]. induction cs as [|c cs (l & L & E)] using rev_ind; [exists []; split; [constructor|reflexivity]|].
      rewrite fold_left_app. destruct (fold_left lstep cs ([], k)) as [v a] eqn:Q. cbn [fst] in E. subst v. cbn [fold_left].
      assert (lstep (fold_left nstep l [], a) c = (nstep (fold_left nstep l []) c, snd (lstep (fold_left nstep l [], a) c)) \/
              (c <> SelfRef /\ (c = ParentRef -> fold_left nstep l [] = []) /\ fst (lstep (fold_left nstep l [], a) c) = fold_left nstep l [])) as [X|(X1 & X2 & X3)].
      { clear. generalize (fold_left nstep l []). intros v. unfold lstep, nstep. destruct (sv_equals c SelfRef) eqn:E1; [now left|]. apply sv_equals_false in E1. destruct (sv_equals c ParentRef) eqn:E2; cbn [andb].
        - destruct (N.ltb_spec 0 (size v)) as [G|G]; [now left|]. assert (v = []) as -> by (apply size_0_nil; lia).
          destruct (ask a) as [[] k']; [now left|]. right. auto.
        - destruct (ask a) as [[] k']; [now left|]. right. split; [exact E1|]. split; [|reflexivity]. apply sv_equals_false in E2. congruence. }
      - exists (l ++ [c]). split; [now constructor|]. rewrite X. cbn [fst]. now rewrite fold_left_app.
      - exists l. split; [|exact X3]. constructor; [exact L|exact X1|]. intros Z cap'. rewrite normalize_spec. cbn [p_comps]. now apply X2. }
    rewrite normalize_lfold. destruct m as [|[] m]; cbn [tl]; [| |reflexivity].
    all: match goal with |- context [([], ?k)] => destruct (H k) as (l & L & E) end; exists l; split; [exact L|]; intros cap; rewrite normalize_spec; exact E.
  - intros l L. assert (exists k, forall m, fold_left lstep (p_comps p) ([], k ++ m) = (fold_left nstep l [], m)) as (k & K).
    { induction L as [|cs l c L (k & K)|cs l c L (k & K) N1 N2].
      - exists []. reflexivity.
      - destruct (lstep_kept (fold_left nstep l []) c) as [X|X].
        + exists k. intros m. rewrite !fold_left_app, K. cbn [fold_left]. apply X.
        + exists (k ++ [true]). intros m. rewrite !fold_left_app, <- app_assoc, K. cbn [fold_left app]. apply X.
      - exists (k ++ [false]). intros m. rewrite fold_left_app, <- app_assoc, K. cbn [fold_left app]. apply lstep_lost; [exact N1|].
        intros Z. specialize (N2 Z 0). rewrite normalize_spec in N2. exact N2. }
    exists (true :: k). intros cap. rewrite normalize_lfold, normalize_spec. cbn [tl p_comps]. specialize (K []). rewrite app_nil_r in K. now rewrite K.
Qed.
Print Assumptions C151_normalize.

(** "a/../b" can become "b", "../b", "..", or nothing. *)
Example C151_case : let p := mkPath [[97]; [46; 46]; [98]] 3 in
  p_comps (a_normalize [] p) = [[98]] /\ p_comps (a_normalize [true; false] p) = [[46; 46]; [98]] /\
  p_comps (a_normalize [true; false; true; false] p) = [[46; 46]] /\ p_comps (a_normalize [true; true; false] p) = [] /\
  losing (p_comps p) [[46; 46]] /\
  a_subpath [true; false] p 0 2 = Ret (mkPath [[46; 46]] 2) /\ granted [false] [[97]; [46; 46]] [[46; 46]].
Proof.
  do 4 (split; [reflexivity|]). split; [|split; [reflexivity|constructor; constructor]].
  apply (losing_lost [[97]; [46; 46]] [[46; 46]] [98]); [|discriminate|discriminate].
  apply (losing_kept [[97]] [] [46; 46]). apply (losing_lost [] [] [97]); [constructor|discriminate|discriminate].
Qed.
