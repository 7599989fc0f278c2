(** C127, C128: what normalisation does to every path, and laws between the path operations. *)
From Verif Require Import Base BaseLemmas StringSpec StringModel StringViewModel StringViewProofs PathModel PathSpec PathProofs PathProps PathLawSpec.

(** ** C127 *)
Lemma dot_other c : same c [46; 46] = true -> same c [46] = false.
Proof. intros E. apply same_spec in E. subst c. reflexivity. Qed.
Lemma follow_proper cs : forall k ns, no_empty cs -> Forall proper ns -> Forall proper (snd (fold_left follow cs (k, ns))).
Proof.
  induction cs as [|c cs IH]; intros k ns E F; cbn [fold_left]; [exact F|]. inversion E as [|? ? E1 E2]; subst. unfold follow at 2.
  destruct (same c [46]) eqn:A; [now apply IH|]. destruct (same c [46; 46]) eqn:B.
  - destruct ns as [|n ns]; [now apply IH|]. apply IH; [assumption|]. destruct (exists_last (l := n :: ns)) as (q & x & Q); [discriminate|]. rewrite Q in *. rewrite removelast_last. now apply Forall_app in F.
  - apply IH; [assumption|]. apply Forall_app. split; [assumption|]. constructor; [|constructor]. split; [assumption|].
    rewrite same_equals in A, B. apply sv_equals_false in A, B. auto.
Qed.
(** The state of normalize that belongs to having climbed [k] levels above where [base] was
    started with *)
Definition shape (base : list (list N)) (k : nat) (ns : list (list N)) : list (list N) :=
  match base with
  | [] => (if Nat.odd k then [ParentRef] else []) ++ ns
  | _ => match k with O => base ++ ns | S k' => (if Nat.odd k' then [ParentRef] else []) ++ ns end
  end.
Lemma nstep_shape base k ns c : In base [[]; [[]]] -> nstep (shape base k ns) c = (let (k', ns') := follow (k, ns) c in shape base k' ns').
Proof.
  intros IN. unfold nstep, follow. rewrite !same_equals. change [46; 46] with ParentRef. change [46] with SelfRef.
  destruct (sv_equals c SelfRef) eqn:A; [reflexivity|]. destruct (sv_equals c ParentRef) eqn:B.
  - apply sv_equals_spec in B. subst c. destruct ns as [|n ns].
    + unfold shape. cbn in IN. destruct IN as [<-|[<-|[]]].
      * cbv beta iota zeta. rewrite Nat.odd_succ, <- Nat.negb_odd. destruct (Nat.odd k); reflexivity.
      * destruct k as [|k]; [reflexivity|]. cbv beta iota zeta. rewrite Nat.odd_succ, <- Nat.negb_odd. destruct (Nat.odd k); reflexivity.
    + assert (P : exists pre, shape base k (n :: ns) = pre ++ (n :: ns) /\ shape base k (removelast (n :: ns)) = pre ++ removelast (n :: ns)).
      { unfold shape. destruct base; [eauto|]. destruct k; eauto. }
      destruct P as (pre & -> & ->). rewrite size_app, size_cons. destruct (N.ltb_spec 0 (size pre + (size ns + 1))); [|lia]. cbn [andb].
      apply removelast_app. discriminate.
  - cbn [andb]. unfold shape. destruct base; [now rewrite <- app_assoc|]. destruct k; [cbn [app]; now rewrite <- app_assoc|now rewrite <- app_assoc].
Qed.
Lemma nfold_shape base cs : In base [[]; [[]]] -> forall k ns, fold_left nstep cs (shape base k ns) = (let (k', ns') := fold_left follow cs (k, ns) in shape base k' ns').
Proof.
  intros IN. induction cs as [|c cs IH]; intros k ns; cbn [fold_left]; [reflexivity|]. rewrite nstep_shape by exact IN. destruct (follow (k, ns) c) as (k', ns'). apply IH.
Qed.
Lemma follow_fst cs : forall k ns, (k <= fst (fold_left follow cs (k, ns)))%nat.
Proof.
  induction cs as [|c cs IH]; intros k ns; cbn [fold_left]; [reflexivity|]. unfold follow at 2. destruct (same c [46]); [apply IH|]. destruct (same c [46; 46]); [|apply IH].
  destruct ns as [|n ns]; [|apply IH]. eapply Nat.le_trans; [|apply IH]. lia.
Qed.
Lemma firstn_minus {A} (l : list A) k : firstn (length l - S k) l = removelast (firstn (length l - k) l).
Proof.
  destruct (Nat.le_gt_cases (length l) k) as [L|L].
  - replace (length l - S k)%nat with 0%nat by lia. replace (length l - k)%nat with 0%nat by lia. reflexivity.
  - replace (length l - k)%nat with (S (length l - S k)) by lia. symmetry. apply removelast_firstn. lia.
Qed.
Lemma walk_follow cs cwd : no_empty cs -> forall k ns, fold_left walk cs (firstn (length cwd - k) cwd ++ ns) =
  (let (k', ns') := fold_left follow cs (k, ns) in firstn (length cwd - k') cwd ++ ns').
Proof.
  induction cs as [|c cs IH]; intros E k ns; cbn [fold_left]; [reflexivity|]. inversion E as [|? ? E1 E2]; subst. unfold walk at 2, follow at 2.
  assert (X : same c [] = false) by (rewrite same_equals; now apply sv_equals_false). rewrite X. cbn [orb].
  destruct (same c [46]); [now apply IH|]. destruct (same c [46; 46]).
  - destruct ns as [|n ns].
    + rewrite app_nil_r, <- firstn_minus, <- (app_nil_r (firstn _ _)). now apply IH.
    + rewrite removelast_app by discriminate. now apply IH.
  - rewrite <- app_assoc. now apply IH.
Qed.
(** What following a relative path means: go up [climbs], then down the [names]. *)
Theorem C127_meaning : forall cs cwd, no_empty cs -> locate cwd cs = firstn (length cwd - climbs cs) cwd ++ names cs.
Proof.
  intros cs cwd E. unfold climbs, names, followed. pose proof (walk_follow cs cwd E 0 []) as W. rewrite Nat.sub_0_r, firstn_all, app_nil_r in W.
  destruct (fold_left follow cs (O, [])) as (k, ns). cbn [fst snd]. rewrite <- W. destruct cs as [|[|c0 c] cs]; try reflexivity. inversion E; congruence.
Qed.
Print Assumptions C127_meaning.
(** And an absolute one: the names, from the root. *)
Lemma root_follow cs : no_empty cs -> fold_left walk cs [] = snd (fold_left follow cs (O, [])).
Proof.
  intros E. pose proof (walk_follow cs [] E 0 []) as W. cbn [length Nat.sub firstn app] in W. rewrite W. destruct (fold_left follow cs (O, [])) as (k, ns). cbn [snd]. rewrite ?firstn_nil. reflexivity.
Qed.
(** The components of a normalised path, for every path (where an empty component counts as a
    name): the names, after ".." if the number of levels climbed is odd. *)
Theorem C127_relative : forall p,
  p_comps (path_normalize p) = (if Nat.odd (climbs (p_comps p)) then [[46; 46]] else []) ++ names (p_comps p).
Proof.
  intros p. rewrite normalize_spec. cbn [p_comps]. pose proof (nfold_shape [] (p_comps p) (or_introl eq_refl) 0 []) as W.
  change (shape [] 0 []) with (@nil (list N)) in W. rewrite W. unfold climbs, names, followed. destruct (fold_left follow (p_comps p) (O, [])) as (k, ns). reflexivity.
Qed.
Print Assumptions C127_relative.
(** Of an absolute path: the root and the names if it never climbs above the root.  The first
    such climb removes the root, after that every second one is lost. *)
Theorem C127_absolute : forall p cs, p_comps p = [] :: cs ->
  p_comps (path_normalize p) = match climbs cs with
                               | O => [[]]
                               | S k => if Nat.odd k then [[46; 46]] else []
                               end ++ names cs.
Proof.
  intros p cs E. rewrite normalize_spec, E. cbn [p_comps fold_left]. pose proof (nfold_shape [[]] cs (or_intror (or_introl eq_refl)) 0 []) as W.
  change (shape [[]] 0 []) with [@nil N] in W. change (nstep [] []) with [@nil N]. rewrite W. unfold climbs, names, followed. destruct (fold_left follow cs (O, [])) as ([|k], ns); reflexivity.
Qed.
Print Assumptions C127_absolute.
Lemma locate_relative cs cwd : Forall proper cs -> locate cwd cs = cwd ++ cs.
Proof. intros F. destruct cs as [|[|c0 c] cs]; [now rewrite app_nil_r|inversion F as [|? ? (X & _) _]; congruence|]. cbn [locate]. now apply walk_all. Qed.
Lemma locate_up cs cwd : Forall proper cs -> locate cwd ([46; 46] :: cs) = removelast cwd ++ cs.
Proof. intros F. cbn [locate fold_left]. change (walk cwd [46; 46]) with (removelast cwd). now apply walk_all. Qed.
Lemma names_proper cs : no_empty cs -> Forall proper (names cs).
Proof. intros E. unfold names, followed. apply follow_proper; [exact E|constructor]. Qed.
(** A relative path keeps its location, wherever one starts, if and only if it climbs at most
    one level above the start. *)
Theorem C127_relative_location : forall p, no_empty (p_comps p) ->
  (forall cwd, locate cwd (p_comps (path_normalize p)) = locate cwd (p_comps p)) <-> (climbs (p_comps p) <= 1)%nat.
Proof.
  intros p E. pose proof (names_proper _ E) as PR. rewrite C127_relative. split.
  - intros H. set (k := climbs (p_comps p)) in *. specialize (H (repeat [97] k)). rewrite (C127_meaning (p_comps p)) in H by exact E. fold k in H. rewrite repeat_length, Nat.sub_diag in H. cbn [firstn app] in H.
    destruct (Nat.odd k) eqn:O; cbn [app] in H.
    + rewrite locate_up in H by exact PR. apply (f_equal (@length _)) in H. rewrite app_length in H.
      destruct k as [|[|k]]; [lia..|]. exfalso. cbn [repeat] in H. change (removelast ([97] :: [97] :: repeat [97] k)) with ([97] :: removelast ([97] :: repeat [97] k)) in H. cbn [length] in H. lia.
    + rewrite locate_relative in H by exact PR. apply (f_equal (@length _)) in H. rewrite app_length, repeat_length in H. lia.
  - intros L cwd. rewrite (C127_meaning (p_comps p)) by exact E. destruct (climbs (p_comps p)) as [|[|k]]; [| |lia]; cbn [Nat.odd Nat.even negb app].
    + rewrite Nat.sub_0_r, firstn_all. now apply locate_relative.
    + rewrite locate_up by exact PR. f_equal. rewrite firstn_minus, Nat.sub_0_r, firstn_all. reflexivity.
Qed.
Print Assumptions C127_relative_location.
(** An absolute one if and only if it never climbs above the root. *)
Theorem C127_absolute_location : forall p cs, p_comps p = [] :: cs -> no_empty cs ->
  (forall cwd, locate cwd (p_comps (path_normalize p)) = locate cwd (p_comps p)) <-> climbs cs = O.
Proof.
  intros p cs Ep E. pose proof (names_proper _ E) as PR. rewrite (C127_absolute p cs Ep). rewrite Ep. cbn [locate]. rewrite root_follow by exact E.
  change (snd (fold_left follow cs (O, []))) with (names cs). split.
  - intros H. destruct (climbs cs) as [|k]; [reflexivity|]. exfalso. specialize (H [[97]; [97]]). destruct (Nat.odd k); cbn [app] in H.
    + rewrite locate_up in H by exact PR. apply (f_equal (@length _)) in H. rewrite app_length in H. cbn [removelast length] in H. lia.
    + rewrite locate_relative in H by exact PR. apply (f_equal (@length _)) in H. rewrite app_length in H. cbn [length] in H. lia.
  - intros -> cwd. cbn [app locate]. now rewrite walk_all by exact PR.
Qed.
Print Assumptions C127_absolute_location.
(** "a/../../../b" climbs two levels and becomes "b"; "/x/../../y" loses its root. *)
Example C127_ok : let p := [[97]; [46; 46]; [46; 46]; [46; 46]; [98]] in let q := [[120]; [46; 46]; [46; 46]; [121]] in
  no_empty p /\ climbs p = 2%nat /\ names p = [[98]] /\ p_comps (path_normalize (mkPath p 5)) = [[98]] /\
  no_empty q /\ climbs q = 1%nat /\ p_comps (path_normalize (mkPath ([] :: q) 5)) = [[121]] /\ climbs [[97]; [46; 46]; [46; 46]; [98]] = 1%nat.
Proof. cbv zeta. repeat split; try (repeat constructor; discriminate). Qed.

(** ** C128 *)
(** include/solace/path.hpp:536-550: makePath(a, b) of two paths, and of a path and a name *)
Definition join2 (a b : path) : path := path_make [PPath a; PPath b].
Definition child (a : path) (c : list N) : path := path_make [PPath a; PText c].
Lemma join2_comps a b : p_comps (join2 a b) = p_comps a ++ p_comps b.
Proof. unfold join2. rewrite C61_makePath. cbn. now rewrite app_nil_r. Qed.
Lemma child_comps a c : p_comps (child a c) = p_comps a ++ [c].
Proof. unfold child. rewrite C61_makePath. reflexivity. Qed.
(** Normalising the first part of a joined path beforehand changes nothing, for all paths. *)
Theorem C128_normalize_left : forall a b, path_equals (path_normalize (join2 (path_normalize a) b)) (path_normalize (join2 a b)) = true.
Proof.
  intros a b. apply C31_equals. rewrite !normalize_spec. cbn [p_comps]. rewrite !join2_comps. cbn [p_comps]. rewrite !fold_left_app. f_equal.
  apply nfold_id. now apply nfold_normal.
Qed.
Print Assumptions C128_normalize_left.
(** Going up [k] times from the components [st] *)
Fixpoint ups (k : nat) (st : list (list N)) : list (list N) := match k with O => st | S k => ups k (nstep st ParentRef) end.
Lemma nfold_ups cs : forall st k ns, exists j, fst (fold_left follow cs (k, ns)) = (k + j)%nat /\
  fold_left nstep cs (st ++ ns) = ups j st ++ snd (fold_left follow cs (k, ns)).
Proof.
  induction cs as [|c cs IH]; intros st k ns; cbn [fold_left]; [exists O; split; [cbn; lia|reflexivity]|]. unfold follow at 2 4, nstep at 2. rewrite !same_equals. change [46; 46] with ParentRef. change [46] with SelfRef.
  destruct (sv_equals c SelfRef) eqn:A; [apply IH|]. destruct (sv_equals c ParentRef) eqn:B.
  - destruct ns as [|n ns].
    + apply sv_equals_spec in B. subst c. destruct (IH (nstep st ParentRef) (S k) []) as (j & J1 & J2). rewrite app_nil_r in *. exists (S j). split; [lia|].
      cbn [ups]. rewrite <- J2. reflexivity.
    + rewrite size_app, size_cons. destruct (N.ltb_spec 0 (size st + (size ns + 1))); [|lia]. cbn [andb].
      rewrite removelast_app by discriminate. apply IH.
  - cbn [andb]. rewrite <- app_assoc. apply IH.
Qed.
Lemma nfold_any cs st : fold_left nstep cs st = ups (climbs cs) st ++ names cs.
Proof.
  destruct (nfold_ups cs st O []) as (j & J1 & J2). rewrite app_nil_r in J2. unfold climbs, names, followed. rewrite J1. exact J2.
Qed.
Lemma follow_plain cs : forall k ns, Forall (fun x => x <> SelfRef /\ x <> ParentRef) ns -> Forall (fun x => x <> SelfRef /\ x <> ParentRef) (snd (fold_left follow cs (k, ns))).
Proof.
  induction cs as [|c cs IH]; intros k ns F; cbn [fold_left]; [exact F|]. unfold follow at 2.
  destruct (same c [46]) eqn:A; [now apply IH|]. destruct (same c [46; 46]) eqn:B.
  - destruct ns as [|n ns]; [now apply IH|]. apply IH. destruct (exists_last (l := n :: ns)) as (q & x & Q); [discriminate|]. rewrite Q in *. rewrite removelast_last. now apply Forall_app in F.
  - apply IH. apply Forall_app. split; [assumption|]. constructor; [|constructor].
    rewrite same_equals in A, B. apply sv_equals_false in A, B. auto.
Qed.
Lemma right_spec a b : let st := fold_left nstep (p_comps a) [] in
  path_equals (path_normalize (join2 a (path_normalize b))) (path_normalize (join2 a b)) = true <->
  (if Nat.odd (climbs (p_comps b)) then nstep st ParentRef else st) = ups (climbs (p_comps b)) st.
Proof.
  cbv zeta. rewrite C31_equals, (normalize_spec (join2 a (path_normalize b))), (normalize_spec (join2 a b)). cbn [p_comps].
  rewrite !join2_comps, !fold_left_app, C127_relative, (nfold_any (p_comps b)), fold_left_app.
  rewrite (nfold_plain (names (p_comps b))) by (apply follow_plain; constructor).
  change [46; 46] with ParentRef. split; intros H; [apply app_inv_tail in H; rewrite <- H | rewrite <- H]; destruct (Nat.odd _); reflexivity.
Qed.
Lemma up_name st : st <> [] -> nstep st ParentRef = removelast st.
Proof. intros H. unfold nstep. change (sv_equals ParentRef SelfRef) with false. change (sv_equals ParentRef ParentRef) with true. assert (0 < size st) by (destruct st; [congruence|rewrite size_cons; lia]). destruct (N.ltb_spec 0 (size st)); [reflexivity|lia]. Qed.
Lemma ups_out k : forall st, length st = k -> ups k st = [].
Proof.
  induction k as [|k IH]; intros st L; cbn [ups]; [now destruct st|]. apply IH. destruct st as [|x st]; [discriminate|].
  rewrite up_name by discriminate. destruct (exists_last (l := x :: st)) as (q & y & Q); [discriminate|]. rewrite Q in *. rewrite removelast_last. rewrite app_length in L. cbn in L. lia.
Qed.
(** Normalising the second part beforehand changes nothing, whatever the first one is, if and
    only if the second one climbs at most one level above its start. *)
Theorem C128_normalize_right_partial : forall b,
  (forall a, path_equals (path_normalize (join2 a (path_normalize b))) (path_normalize (join2 a b)) = true) <-> (climbs (p_comps b) <= 1)%nat.
Proof.
  intros b. set (k := climbs (p_comps b)). split.
  - intros H. destruct (Nat.leb_spec k 1) as [|G]; [assumption|]. exfalso.
    pose proof (H (mkPath (repeat [97] k) (N.of_nat k))) as E. apply right_spec in E. cbn [p_comps] in E. fold k in E.
    rewrite (nfold_plain (repeat [97] k)) in E by (apply Forall_forall; intros x X; apply repeat_spec in X; subst x; split; discriminate).
    rewrite app_nil_l, ups_out in E by apply repeat_length. destruct k as [|[|k']]; [lia..|].
    destruct (Nat.odd _); [|discriminate]. rewrite up_name in E by discriminate. discriminate.
  - intros L a. apply right_spec. fold k. destruct k as [|[|k']]; [reflexivity..|lia].
Qed.
Print Assumptions C128_normalize_right_partial.
(** Otherwise it does: "x/y" joined with "../..". *)
Theorem C128_normalize_right_refuted : exists a b, no_empty (p_comps b) /\
  path_equals (path_normalize (join2 a (path_normalize b))) (path_normalize (join2 a b)) = false.
Proof. exists (mkPath [[120]; [121]] 2), (mkPath [[46; 46]; [46; 46]] 2). split; [repeat constructor; discriminate|reflexivity]. Qed.
Print Assumptions C128_normalize_right_refuted.
(** Joining is associative. *)
Theorem C128_join_assoc : forall a b c, path_equals (join2 a (join2 b c)) (join2 (join2 a b) c) = true.
Proof. intros a b c. apply C31_equals. rewrite !join2_comps. now rewrite app_assoc. Qed.
Print Assumptions C128_join_assoc.
(** The two parts of a path cut anywhere give the path when joined. *)
Theorem C128_cut : forall p k n, size (p_comps p) <= n -> exists a b, path_subpath p 0 k = Ret a /\ path_subpath p k n = Ret b /\ path_equals (join2 a b) p = true.
Proof.
  intros p k n L. destruct (C31_subpath p 0 k) as (a & Ea & Ca). destruct (C31_subpath p k n) as (b & Eb & Cb). exists a, b. split; [exact Ea|]. split; [exact Eb|].
  apply C31_equals. rewrite join2_comps, Ca, Cb. cbn [N.to_nat skipn]. rewrite (firstn_all2 (n := N.to_nat n)) by (unfold size in L; lia). apply firstn_skipn.
Qed.
Print Assumptions C128_cut.
(** The part of a joined path that came from the first, and from the second operand. *)
Theorem C128_uncut : forall a b n, size (p_comps a) + size (p_comps b) <= n ->
  exists a' b', path_subpath (join2 a b) 0 (size (p_comps a)) = Ret a' /\ path_subpath (join2 a b) (size (p_comps a)) n = Ret b' /\
    path_equals a' a = true /\ path_equals b' b = true.
Proof.
  intros a b n L. destruct (C31_subpath (join2 a b) 0 (size (p_comps a))) as (x & Ex & Cx). destruct (C31_subpath (join2 a b) (size (p_comps a)) n) as (y & Ey & Cy).
  exists x, y. split; [exact Ex|]. split; [exact Ey|]. rewrite !C31_equals, Cx, Cy, join2_comps. unfold size in *. rewrite Nat2N.id. cbn [N.to_nat skipn]. split.
  - now rewrite firstn_app, Nat.sub_diag, firstn_O, app_nil_r, firstn_all.
  - rewrite firstn_all2 by (rewrite app_length; lia). now rewrite skipn_app, Nat.sub_diag, skipn_all.
Qed.
Print Assumptions C128_uncut.
(** The parent of a path with the last name put back is the path; the parent of a child is
    the path, and its name the one given. *)
Theorem C128_parent_child : forall p, (2 <= length (p_comps p))%nat ->
  exists q b, path_getParent p = Ret q /\ path_getBasename p = Ret b /\ path_equals (child q b) p = true.
Proof.
  intros p L. destruct (C31_parent_basename p L) as (q & b & E1 & E2 & E3). exists q, b. split; [exact E1|]. split; [exact E2|]. apply C31_equals. now rewrite child_comps.
Qed.
Print Assumptions C128_parent_child.
Theorem C128_child_parent : forall p c, p_comps p <> [] ->
  exists q, path_getParent (child p c) = Ret q /\ path_equals q p = true /\ path_getBasename (child p c) = Ret c.
Proof.
  intros p c NE. destruct (C31_parent_basename (child p c)) as (q & b & E1 & E2 & E3).
  { rewrite child_comps, app_length. destruct (p_comps p); [congruence|]. cbn [length]. lia. }
  rewrite child_comps in E3. apply app_inj_tail in E3 as (E3 & ->). exists q. split; [exact E1|]. split; [apply C31_equals; congruence|exact E2].
Qed.
Print Assumptions C128_child_parent.
(** A joined path contains both parts, starts with the first and ends with the second. *)
Theorem C128_contains_parts : forall a b, p_comps a <> [] -> p_comps b <> [] ->
  path_contains (join2 a b) a = Ret true /\ path_contains (join2 a b) b = Ret true.
Proof.
  intros a b A B. destruct (C31_contains_partial (join2 a b) a A) as (x & -> & X). destruct (C31_contains_partial (join2 a b) b B) as (y & -> & Y).
  rewrite join2_comps in X, Y. split; f_equal; [apply X; exists [], (p_comps b); reflexivity|apply Y; exists (p_comps a), []; now rewrite app_nil_r].
Qed.
Print Assumptions C128_contains_parts.
Lemma text_le a b : a <> [] -> b <> [] -> size (text a) <= size (text (a ++ b)) /\ size (text b) <= size (text (a ++ b)).
Proof.
  intros A B. assert (AB : a ++ b <> []) by (destruct a; [congruence|discriminate]). change text with (path_text Delimiter). split; apply text_mono; auto; rewrite ?size_app, ?total_app; lia.
Qed.
Theorem C128_starts_ends : forall a b, p_comps a <> [] -> p_comps b <> [] -> p_cap a <> 0 -> p_cap b <> 0 ->
  size (text (p_comps a ++ p_comps b)) < 2 ^ 16 ->
  path_startsWith (join2 a b) a = Ret true /\ path_endsWith (join2 a b) b = Ret true.
Proof.
  intros a b A B CA CB L. destruct (text_le (p_comps a) (p_comps b) A B) as (L1 & L2).
  assert (J : p_comps (join2 a b) <> []) by (rewrite join2_comps; destruct (p_comps a); [congruence|discriminate]).
  assert (JC : p_cap (join2 a b) <> 0).
  { unfold join2, path_make. rewrite make_fold by (cbn [p_comps p_cap]; rewrite (@size_nil (list N)); lia). cbn [p_cap fold_right parg_count]. destruct (p_comps a); [congruence|]. rewrite size_cons. lia. }
  split.
  - destruct (C31_startsWith_partial (join2 a b) a J A JC CA) as (x & -> & X); try (rewrite join2_comps; lia); try lia.
    { rewrite join2_comps. intros (E & _). destruct (p_comps a) as [|u [|v r]], (p_comps b); cbn in *; try congruence. }
    f_equal. apply X. destruct (exists_last A) as (i & c & E). exists i, c, [], (p_comps b). split; [exact E|]. rewrite join2_comps, E, app_nil_r, <- app_assoc. reflexivity.
  - destruct (C31_endsWith_partial (join2 a b) b J B JC CB) as (x & -> & X); try (rewrite join2_comps; lia); try lia.
    { rewrite join2_comps. assert (S : forall cs, cs <> [] -> size cs <= size (text cs) + 1).
      { intros cs N0. change text with (path_text Delimiter). rewrite size_text by exact N0. destruct cs as [|[|u r] [|v s]]; [congruence| | | |]; rewrite ?size_cons, ?(@size_nil (list N)); lia. }
      pose proof (S (p_comps a ++ p_comps b)). rewrite join2_comps in J. specialize (H J). lia. }
    { rewrite join2_comps, size_app. lia. }
    f_equal. apply X. destruct (p_comps b) as [|c f] eqn:E; [congruence|]. exists f, c, [], (p_comps a). split; [reflexivity|]. now rewrite join2_comps, E.
Qed.
Print Assumptions C128_starts_ends.
Example C128_ok : let a := mkPath [[]; [97]; [46]] 3 in let b := mkPath [[98]; [46; 46]; [99]] 4 in
  p_comps a <> [] /\ p_comps b <> [] /\ no_empty (p_comps b) /\ climbs (p_comps b) = O /\
  p_comps (path_normalize (join2 a b)) = [[]; [97]; [99]] /\ size (text (p_comps a ++ p_comps b)) = 11.
Proof. cbv zeta. repeat split; try discriminate. repeat constructor; discriminate. Qed.
