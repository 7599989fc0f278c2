(** C103, C104: vectors and arrays as values. *)
From Verif Require Import Base BaseLemmas MemViewModel MemoryModel MemoryProofs ContainerModel ContainerSpec ContainerProofs
  ContainerValueModel ContainerValueSpec ContainerValueProofs.
From Coq Require Import Permutation.
Local Arguments get : simpl never.

(** C103: every program of the covered operations is defined, and everything it can see of its
    vectors and arrays is what it would see if they were lists. *)
Theorem C103_values_partial : forall A (eqb : A -> A -> bool) sz os, 0 < sz -> Forall (tidy sz) os ->
  exists w log, vc_run eqb sz world0 os = Ret (w, log, snd (val_run eqb sz [] os)).
Proof.
  intros A eqb sz os S F. destruct (run_rel eqb sz S os world0 [] (rel0 sz) F) as (w & ev & E & _). eauto.
Qed.
Print Assumptions C103_values_partial.

(** C103: with copies, too, every element is destroyed once at most, and those that are not
    destroyed are in the containers that are left. *)
Theorem C103_lifetimes_partial : forall A (eqb : A -> A -> bool) sz os w log xs, 0 < sz -> Forall (tidy sz) os ->
  vc_run eqb sz world0 os = Ret (w, log, xs) ->
  NoDup (built log) /\ NoDup (destroyed log) /\ incl (destroyed log) (built log) /\
  (forall x, In x (alive w) <-> In x (built log) /\ ~ In x (destroyed log)).
Proof.
  intros A eqb sz os w log xs S F E.
  pose proof (run_lives eqb sz S os world0 [] [] (rel0 sz) (winv0 sz) F w log xs E) as W. cbn [app] in W. destruct W as [W1 W2 W3 W4].
  assert (ND : NoDup (destroyed log ++ alive w)) by (eapply Permutation_NoDup; [symmetry; exact W2|exact W3]).
  assert (D : NoDup (destroyed log) /\ forall x, In x (destroyed log) -> ~ In x (alive w)).
  { clear - ND. induction (destroyed log) as [|y l IH]; [split; [constructor|intros x []]|]. cbn [app] in ND. inversion ND as [|? ? N1 N2]; subst.
    destruct (IH N2) as (I1 & I2). split; [constructor; [intros Y; apply N1, in_or_app; now left|exact I1]|].
    intros x [<-|X]; [intros Y; apply N1, in_or_app; now right|now apply I2]. }
  destruct D as (D1 & D2). split; [exact W3|]. split; [exact D1|]. split.
  - intros x X. eapply Permutation_in; [exact W2|]. apply in_or_app. now left.
  - intros x. split.
    + intros X. split; [eapply Permutation_in; [exact W2|]; apply in_or_app; now right|]. intros Y. now apply (D2 x).
    + intros (X & Y). eapply Permutation_in in X; [|symmetry; exact W2]. apply in_app_or in X as [X|X]; [contradiction|exact X].
Qed.
Print Assumptions C103_lifetimes_partial.

(** C103: an operation that does not name a variable does not change it. *)
Lemma nth_app_l {B} (l : list (option B)) x i : (i < length l)%nat -> get (l ++ [x]) i = get l i.
Proof. intros H. unfold get. now rewrite app_nth1. Qed.
Theorem C103_others : forall A (eqb : A -> A -> bool) sz w o w' ev (x : cans) i, vc_step eqb sz w o = Ret (w', ev, x) ->
  (i < length (w_objs w))%nat -> ~ names o i -> get (w_objs w') i = get (w_objs w) i.
Proof.
  intros A eqb sz w o w' ev x i E L NM.
  assert (PU : forall j y, j <> i -> get (w_objs (put w j y)) i = get (w_objs w) i).
  { intros j y D. unfold put. cbn [w_objs]. apply get_upd_other. congruence. }
  assert (AD : forall k c nx, get (w_objs (add w k c nx)) i = get (w_objs w) i).
  { intros k c nx. unfold add. cbn [w_objs]. now apply nth_app_l. }
  destruct o as [o|j ok fail|j k|j k|j vs|j|j|j]; cbn [vc_step names] in *.
  - destruct (cstep sz w o) as [[[w1 ev1] a1]| | | |] eqn:E1; try discriminate. cbn [bind] in E. injection E as <- <- <-.
    destruct o as [b|n|args|n f|args|j arg|j|j|j|j|j k|j|j|j k v|j k arg|j]; cbn [cstep] in E1.
    + injection E1 as <- _ _. apply AD.
    + injection E1 as <- _ _. apply AD.
    + unfold added in E1. destruct make_cont as [[[[c|] e1] n1]| | | |]; try discriminate; injection E1 as <- _ _; [apply AD|reflexivity].
    + unfold added in E1. destruct make_cont as [[[[c|] e1] n1]| | | |]; try discriminate; injection E1 as <- _ _; [apply AD|reflexivity].
    + unfold added in E1. destruct make_cont as [[[[c|] e1] n1]| | | |]; try discriminate; injection E1 as <- _ _; [apply AD|reflexivity].
    + destruct (get (w_objs w) j) as [[[] c]|]; try (injection E1 as <- _ _; reflexivity).
      destruct vec_emplace as [[[[c' e1] n1] a]| | | |]; try discriminate. injection E1 as <- _ _. cbn [w_objs]. apply get_upd_other. congruence.
    + destruct (get (w_objs w) j) as [[[] c]|]; try (injection E1 as <- _ _; reflexivity).
      destruct vec_pop as [p| | | |]; try discriminate. injection E1 as <- _ _. apply PU. congruence.
    + destruct (get (w_objs w) j) as [[[] c]|]; try (injection E1 as <- _ _; reflexivity).
      destruct vec_clear as [p| | | |]; try discriminate. injection E1 as <- _ _. apply PU. congruence.
    + destruct (get (w_objs w) j) as [[[] c]|]; try (injection E1 as <- _ _; reflexivity).
      injection E1 as <- _ _. unfold add, put. cbn [w_objs]. rewrite nth_app_l by now rewrite length_upd. apply get_upd_other. congruence.
    + destruct (get (w_objs w) j) as [[k c]|]; try (injection E1 as <- _ _; reflexivity).
      injection E1 as <- _ _. unfold add, put. cbn [w_objs]. rewrite nth_app_l by now rewrite length_upd. apply get_upd_other. congruence.
    + destruct (get (w_objs w) j) as [[kd c]|]; try (injection E1 as <- _ _; reflexivity).
      destruct (get (w_objs w) k) as [[kd' c']|]; try (injection E1 as <- _ _; reflexivity).
      destruct (Bool.eqb _ _); injection E1 as <- _ _; [|reflexivity]. unfold put. cbn [w_objs]. rewrite !get_upd_other by tauto. reflexivity.
    + destruct (get (w_objs w) j) as [[[] c]|]; try (injection E1 as <- _ _; reflexivity).
      destruct vec_dispose as [p| | | |]; try discriminate. injection E1 as <- _ _. apply PU. congruence.
    + destruct (get (w_objs w) j) as [[[] c]|]; try (injection E1 as <- _ _; reflexivity).
      destruct arr_dispose as [p| | | |]; try discriminate. injection E1 as <- _ _. apply PU. congruence.
    + destruct (get (w_objs w) j) as [[kd c]|]; try (injection E1 as <- _ _; reflexivity).
      destruct elem_set as [p| | | |]; try discriminate. injection E1 as <- _ _. apply PU. congruence.
    + destruct (get (w_objs w) j) as [[kd c]|]; try (injection E1 as <- _ _; reflexivity).
      destruct elem_emplace as [[[[c' e1] n1] a]| | | |]; try discriminate. injection E1 as <- _ _. cbn [w_objs]. apply get_upd_other. congruence.
    + destruct (get (w_objs w) j) as [[[] c]|]; try (injection E1 as <- _ _; reflexivity).
      * destruct vec_dispose as [p| | | |]; try discriminate. injection E1 as <- _ _. apply PU. congruence.
      * destruct arr_dispose as [p| | | |]; try discriminate. injection E1 as <- _ _. apply PU. congruence.
  - destruct (get (w_objs w) j) as [[k c]|]; try (injection E as <- _ _; reflexivity).
    destruct ((match k with Vec => vec_copy sz | Arr => arr_copy sz end) ok fail (w_next w) c) as [[[[[c'|] e1] n1] a]| | | |]; try discriminate;
      injection E as <- _ _; [apply AD|reflexivity].
  - unfold compared in E. destruct (get (w_objs w) j) as [[kd c]|]; try (injection E as <- _ _; reflexivity).
    destruct (get (w_objs w) k) as [[kd' c']|]; try (injection E as <- _ _; reflexivity). destruct (Bool.eqb _ _); [|injection E as <- _ _; reflexivity].
    destruct cont_equals; try discriminate. injection E as <- _ _. reflexivity.
  - unfold compared in E. destruct (get (w_objs w) j) as [[kd c]|]; try (injection E as <- _ _; reflexivity).
    destruct (get (w_objs w) k) as [[kd' c']|]; try (injection E as <- _ _; reflexivity). destruct (Bool.eqb _ _); [|injection E as <- _ _; reflexivity].
    destruct cont_equals; try discriminate. injection E as <- _ _. reflexivity.
  - destruct (get (w_objs w) j) as [[[] c]|]; try (injection E as <- _ _; reflexivity). destruct arr_equals_list; try discriminate. injection E as <- _ _. reflexivity.
  - destruct (get (w_objs w) j) as [[k c]|]; injection E as <- _ _; reflexivity.
  - destruct (get (w_objs w) j) as [[k c]|]; injection E as <- _ _; reflexivity.
  - destruct (get (w_objs w) j) as [[k c]|]; try (injection E as <- _ _; reflexivity). destruct contents_of; try discriminate. injection E as <- _ _. reflexivity.
Qed.
Print Assumptions C103_others.
Definition demo : list (vcop (A := N)) :=
  [Plain (MakeVecOf [Some 1; Some 2]); CopyC 0 true None; EqualC 0 1; Plain (Pop 1); Plain (Emplace 1 (Some 7)); LookC 0; LookC 1; EqualC 0 1; DiffersC 0 1;
   CopyC 0 true (Some 1%nat); CopyC 0 false None; Plain (ToArray 0); EqualList 2 [1; 2]; EqualList 2 [1; 3]; EqualList 2 [1; 2; 3]; IsNull 0; IsNull 2; EqualC 1 2; LookC 0].
Example C103_case : Forall (tidy 8) demo /\ snd (val_run N.eqb 8 [] demo) =
  [Answered AOk; Answered AOk; Said true; Answered AOk; Answered AOk; Saw 2 [1; 2]; Saw 2 [1; 7]; Said false; Said true;
   Answered (ARaised UserException); Answered (AError E_NOMEM); Answered AOk; Said true; Said false; Said false; Said true; Said false; NoSuch; Saw 0 []].
Proof. split; [repeat constructor|vm_compute; reflexivity]. Qed.

(** C104: two containers are equal when they have equally many elements that are equal one by
    one; != is the opposite.  The comparison of elements is taken to be reflexive. *)
Definition sees {A} (sz : N) (w : world A) (i : nat) (k : kind) (l : list A) : Prop :=
  exists c, get (w_objs w) i = Some (k, c) /\ forall eqb, vc_step eqb sz w (LookC i) = Ret (w, [], Saw (N.of_nat (length l)) l).
Definition made_by {A} (eqb : A -> A -> bool) (sz : N) (os : list vcop) (w : world A) : Prop :=
  Forall (tidy sz) os /\ exists log xs, vc_run eqb sz world0 os = Ret (w, log, xs).
Lemma made_rel {A} (eqb : A -> A -> bool) sz os (w : world A) : 0 < sz -> made_by eqb sz os w -> exists s, rel sz w s.
Proof.
  intros S (F & log & xs & E). destruct (run_rel eqb sz S os world0 [] (rel0 sz) F) as (w' & ev & E' & R). rewrite E in E'. injection E' as <- _ _. eauto.
Qed.
Lemma sees_val {A} sz (w : world A) s i k l : 0 < sz -> rel sz w s -> sees sz w i k l -> exists b, vget s i = Some (mkVal k b l).
Proof.
  intros S R (c & G & H). pose proof (rel_get sz w s i R) as Ri. rewrite G in Ri. destruct (vget s i) as [x|] eqn:V; [|contradiction].
  destruct Ri as (es & H1 & En & ->). destruct (step_rel (fun _ _ => true) sz S w s (LookC i) R Logic.I) as (w' & ev & E & _).
  rewrite H in E. cbn [val_step] in E. rewrite V in E. cbn [snd v_elems] in E. injection E as _ _ _ <-. eauto.
Qed.
Lemma val_sees {A} sz (w : world A) s i k b l : 0 < sz -> rel sz w s -> vget s i = Some (mkVal k b l) -> sees sz w i k l.
Proof.
  intros S R V. pose proof (rel_get sz w s i R) as Ri. rewrite V in Ri. destruct (get (w_objs w) i) as [[k' c]|] eqn:G; [|contradiction].
  destruct Ri as (es & H1 & En & E). injection E as <- -> ->. exists c. split; [exact G|]. intros eqb. cbn [vc_step]. rewrite G, (contents_spec _ _ _ _ H1). cbn [bind].
  now rewrite En, map_length.
Qed.
(** Every container of the program has elements to see. *)
Theorem C104_seen : forall A (eqb : A -> A -> bool) sz os (w : world A) i k c, 0 < sz -> made_by eqb sz os w -> get (w_objs w) i = Some (k, c) ->
  exists l, sees sz w i k l.
Proof.
  intros A eqb sz os w i k c S M G. destruct (made_rel eqb sz os w S M) as (s & R). pose proof (rel_get sz w s i R) as Ri. rewrite G in Ri.
  destruct (vget s i) as [x|] eqn:V; [|contradiction]. destruct Ri as (es & H1 & En & ->). exists (map snd es). eapply val_sees; eauto.
Qed.
Print Assumptions C104_seen.

Lemma list_eqb_forall2 {A} (eqb : A -> A -> bool) l l' : list_eqb eqb l l' = true <-> Forall2 (fun x y => eqb x y = true) l l'.
Proof.
  revert l'; induction l as [|x l IH]; intros [|y l']; cbn; split; intros H; try discriminate; try (constructor; fail); try (now inversion H).
  - apply andb_prop in H as [H1 H2]. constructor; [exact H1|now apply IH].
  - inversion H; subst. apply andb_true_intro. split; [assumption|now apply IH].
Qed.
Lemma list_eqb_refl {A} (eqb : A -> A -> bool) l : (forall x, eqb x x = true) -> list_eqb eqb l l = true.
Proof. intros R. induction l as [|x l IH]; cbn; [reflexivity|]. now rewrite R, IH. Qed.
Theorem C104_equal_partial : forall A (eqb : A -> A -> bool) sz os (w : world A) i j k l l', 0 < sz -> made_by eqb sz os w ->
  (forall x, eqb x x = true) -> sees sz w i k l -> sees sz w j k l' ->
  exists b, vc_step eqb sz w (EqualC i j) = Ret (w, [], Said b) /\ vc_step eqb sz w (DiffersC i j) = Ret (w, [], Said (negb b)) /\
    (b = true <-> Forall2 (fun x y => eqb x y = true) l l').
Proof.
  intros A eqb sz os w i j k l l' S M RF Hi Hj. destruct (made_rel eqb sz os w S M) as (s & R).
  destruct (sees_val sz w s i k l S R Hi) as (b1 & V1). destruct (sees_val sz w s j k l' S R Hj) as (b2 & V2).
  exists (Nat.eqb i j || list_eqb eqb l l')%bool. cbn [vc_step]. rewrite !(compared_spec eqb sz S _ w s i j R). unfold equal_vals, says. rewrite V1, V2. cbn [v_kind v_elems].
  assert (kind_eqb k k = true) as -> by now destruct k. cbn [option_map snd]. split; [reflexivity|]. split; [reflexivity|].
  rewrite <- list_eqb_forall2. destruct (Nat.eqb_spec i j) as [<-|D]; cbn [orb]; [|reflexivity].
  rewrite V1 in V2. injection V2 as _ <-. split; [intros _|reflexivity]. now apply list_eqb_refl.
Qed.
Print Assumptions C104_equal_partial.
(** Without that, a container equals itself but not another one with the same elements. *)
Theorem C104_equal_refuted : exists (eqb : N -> N -> bool) os w, made_by eqb 8 os w /\ sees 8 w 0 Vec [3] /\ sees 8 w 1 Vec [3] /\
  vc_step eqb 8 w (EqualC 0 0) = Ret (w, [], Said true) /\ vc_step eqb 8 w (EqualC 0 1) = Ret (w, [], Said false).
Proof.
  set (eqb := fun _ _ : N => false). set (os := [Plain (MakeVecOf [Some 3]); CopyC 0 true None] : list (vcop (A := N))).
  destruct (vc_run eqb 8 world0 os) as [[[w log] xs]| | | |] eqn:E; try (vm_compute in E; discriminate).
  exists eqb, os, w. split; [split; [repeat constructor|eauto]|]. vm_compute in E. injection E as <- _ _.
  split; [eexists; split; [reflexivity|intros; reflexivity]|]. split; [eexists; split; [reflexivity|intros; reflexivity]|]. split; reflexivity.
Qed.
Print Assumptions C104_equal_refuted.

(** C104: if equality of elements is an equivalence, so is equality of containers. *)
Definition holds_eq {A} (eqb : A -> A -> bool) (sz : N) (w : world A) (i j : nat) : Prop := vc_step eqb sz w (EqualC i j) = Ret (w, [], Said true).
Theorem C104_equivalence_partial : forall A (eqb : A -> A -> bool) sz os (w : world A) i j h k l l' l'', 0 < sz -> made_by eqb sz os w ->
  (forall x, eqb x x = true) -> (forall x y, eqb x y = true -> eqb y x = true) -> (forall x y z, eqb x y = true -> eqb y z = true -> eqb x z = true) ->
  sees sz w i k l -> sees sz w j k l' -> sees sz w h k l'' ->
  holds_eq eqb sz w i i /\ (holds_eq eqb sz w i j -> holds_eq eqb sz w j i) /\
  (holds_eq eqb sz w i j -> holds_eq eqb sz w j h -> holds_eq eqb sz w i h).
Proof.
  intros A eqb sz os w i j h k l l' l'' S M R1 R2 R3 Hi Hj Hh. unfold holds_eq.
  assert (K : forall a b m m', sees sz w a k m -> sees sz w b k m' ->
     (vc_step eqb sz w (EqualC a b) = Ret (w, [], Said true) <-> Forall2 (fun x y => eqb x y = true) m m')).
  { intros a b m m' Ha Hb. destruct (C104_equal_partial A eqb sz os w a b k m m' S M R1 Ha Hb) as (r & E & _ & Q). rewrite E, <- Q. split; [now intros [= ->]|now intros ->]. }
  rewrite (K i i l l Hi Hi), (K i j l l' Hi Hj), (K j i l' l Hj Hi), (K j h l' l'' Hj Hh), (K i h l l'' Hi Hh). repeat split.
  - clear - R1. induction l; constructor; auto.
  - clear - R2. intros F. induction F; constructor; auto.
  - clear - R3. intros F. revert l''. induction F as [|x y l l' E F IH]; intros l'' G; inversion G; subst; constructor; eauto.
Qed.
Print Assumptions C104_equivalence_partial.

(** C104: a copy has the elements of the original and compares equal to it; changing the one, or
    destroying it, does not change the other (see also C103_others). *)
Theorem C104_copy_partial : forall A (eqb : A -> A -> bool) sz os (w : world A) i k l, 0 < sz -> made_by eqb sz os w -> sees sz w i k l ->
  exists w' ev, vc_step eqb sz w (CopyC i true None) = Ret (w', ev, Answered AOk) /\
    sees sz w' i k l /\ sees sz w' (length (w_objs w)) k l /\ length (w_objs w') = S (length (w_objs w)) /\
    ((forall x, eqb x x = true) -> vc_step eqb sz w' (EqualC i (length (w_objs w))) = Ret (w', [], Said true)) /\
    (forall o w2 ev2 x, tidy sz o -> vc_step eqb sz w' o = Ret (w2, ev2, x) ->
       (~ names o i -> sees sz w2 i k l) /\ (~ names o (length (w_objs w)) -> sees sz w2 (length (w_objs w)) k l)).
Proof.
  intros A eqb sz os w i k l S M Hi. destruct (made_rel eqb sz os w S M) as (s & R).
  destruct (sees_val sz w s i k l S R Hi) as (b1 & V1).
  destruct (step_rel eqb sz S w s (CopyC i true None) R Logic.I) as (w' & ev & E & R'). cbn [val_step] in E, R'. rewrite V1 in E, R'. cbn [negb fst snd v_kind v_elems] in E, R'.
  assert (LS : length s = length (w_objs w)). { clear - R. unfold rel in R. induction R; cbn; congruence. }
  assert (Li : (i < length s)%nat). { clear - V1. unfold vget in V1. destruct (Nat.lt_ge_cases i (length s)); [assumption|]. rewrite nth_overflow in V1 by assumption. discriminate. }
  assert (V2 : vget (s ++ [Some (mkVal k (room sz l) l)]) i = Some (mkVal k b1 l)) by (unfold vget in *; now rewrite app_nth1).
  assert (V3 : vget (s ++ [Some (mkVal k (room sz l) l)]) (length (w_objs w)) = Some (mkVal k (room sz l) l)) by (unfold vget; rewrite app_nth2, LS, Nat.sub_diag by lia; reflexivity).
  pose proof (val_sees sz w' _ _ _ _ _ S R' V2) as H2. pose proof (val_sees sz w' _ _ _ _ _ S R' V3) as H3.
  assert (L' : length (w_objs w') = Datatypes.S (length (w_objs w))).
  { transitivity (length (s ++ [Some (mkVal k (room sz l) l)])); [|rewrite app_length, LS; cbn; lia]. clear - R'. unfold rel in R'. induction R'; cbn; congruence. }
  exists w', ev. split; [exact E|]. split; [exact H2|]. split; [exact H3|]. split; [exact L'|]. split.
  - intros RF. cbn [vc_step]. rewrite (compared_spec eqb sz S false w' _ i _ R'). unfold equal_vals, says. rewrite V2, V3. cbn [v_kind v_elems].
    assert (kind_eqb k k = true) as -> by now destruct k. cbn [option_map snd]. rewrite list_eqb_refl by exact RF. now rewrite Bool.orb_true_r.
  - intros o w2 ev2 x T E2. destruct (step_rel eqb sz S w' _ o R' T) as (w3 & ev3 & E3 & R3). rewrite E2 in E3. injection E3 as <- _ _.
    assert (FR : forall j, (j < length (w_objs w'))%nat -> ~ names o j -> sees sz w' j k l -> sees sz w2 j k l).
    { intros j Lj NM (c & G & H). exists c. rewrite (C103_others _ _ _ _ _ _ _ _ j E2 Lj NM). split; [exact G|]. intros eqb'. specialize (H eqb').
      cbn [vc_step] in *. rewrite (C103_others _ _ _ _ _ _ _ _ j E2 Lj NM), G in *. destruct (contents_of sz c) as [m| | | |]; try discriminate. cbn [bind] in *. congruence. }
    split; intros NM; apply FR; auto; lia.
Qed.
Print Assumptions C104_copy_partial.
(** C104: a copy that cannot be made - no memory, or an element that cannot be copied - leaves
    everything as it was. *)
Theorem C104_copy_fails_partial : forall A (eqb : A -> A -> bool) sz os (w : world A) i k l ok fail, 0 < sz -> made_by eqb sz os w -> sees sz w i k l ->
  ok = false \/ (exists n, fail = Some n /\ (n < length l)%nat) ->
  exists w' ev, vc_step eqb sz w (CopyC i ok fail) = Ret (w', ev, Answered (if ok then ARaised UserException else AError E_NOMEM)) /\ w_objs w' = w_objs w.
Proof.
  intros A eqb sz os w i k l ok fail S M Hi H. destruct (made_rel eqb sz os w S M) as (s & R). destruct (sees_val sz w s i k l S R Hi) as (b1 & V1).
  destruct (step_rel eqb sz S w s (CopyC i ok fail) R Logic.I) as (w' & ev & E & R'). cbn [val_step] in E, R'. rewrite V1 in E, R'. cbn [v_elems] in E, R'.
  assert (X : snd (if negb ok then (s, Answered (AError E_NOMEM)) else
     if match fail with Some n => Nat.ltb n (length l) | None => false end then (s, Answered (ARaised UserException))
     else (s ++ [Some (mkVal (v_kind (mkVal k b1 l)) (room sz l) l)], Answered AOk)) = Answered (A := A) (if ok then ARaised UserException else AError E_NOMEM)).
  { destruct ok; [|reflexivity]. cbn [negb]. destruct H as [H|(n & -> & L)]; [discriminate|]. destruct (Nat.ltb_spec n (length l)); [reflexivity|lia]. }
  rewrite X in E. exists w', ev. split; [exact E|]. pose proof Hi as (c & G & _). cbn [vc_step] in E. rewrite G in E.
  destruct ((match k with Vec => vec_copy sz | Arr => arr_copy sz end) ok fail (w_next w) c) as [[[[[c'|] e1] n1] a]| | | |] eqn:Q; try discriminate; [|now injection E as <- _ _].
  exfalso. injection E as _ _ Ea. destruct k; cbn in Q; unfold vec_copy, arr_copy in Q; destruct ok; cbn [negb] in Q; try discriminate.
  - destruct (contents_of sz c); try discriminate. cbn [bind] in Q. destruct make_cont as [[[[c2|] e2] n2]| | | |]; try discriminate; cbn in Q; congruence.
  - destruct (_ <? _); try discriminate. destruct (values _); try discriminate. cbn [bind] in Q. destruct make_cont as [[[[c2|] e2] n2]| | | |]; try discriminate; cbn in Q; congruence.
Qed.
Print Assumptions C104_copy_fails_partial.

(** C104: an array equals a list of values when it has just those elements. *)
Theorem C104_list_partial : forall A (eqb : A -> A -> bool) sz os (w : world A) i l vs, 0 < sz -> made_by eqb sz os w -> sees sz w i Arr l ->
  exists b, vc_step eqb sz w (EqualList i vs) = Ret (w, [], Said b) /\ (b = true <-> Forall2 (fun x y => eqb x y = true) l vs).
Proof.
  intros A eqb sz os w i l vs S M Hi. destruct (made_rel eqb sz os w S M) as (s & R). destruct (sees_val sz w s i Arr l S R Hi) as (b1 & V1).
  destruct (step_rel eqb sz S w s (EqualList i vs) R Logic.I) as (w' & ev & E & R'). cbn [val_step] in E, R'. rewrite V1 in E, R'. cbn [says fst snd v_kind v_elems] in E, R'.
  exists (list_eqb eqb l vs). split; [|apply list_eqb_forall2]. pose proof Hi as (c & G & _). cbn [vc_step] in E |- *. rewrite G in E |- *.
  destruct (arr_equals_list eqb sz c vs) as [b| | | |]; try discriminate. cbn [bind] in *. congruence.
Qed.
Print Assumptions C104_list_partial.

(** C104: a vector is nullptr exactly when it has no elements. *)
Theorem C104_null_vector_partial : forall A (eqb : A -> A -> bool) sz os (w : world A) i l, 0 < sz -> made_by eqb sz os w -> sees sz w i Vec l ->
  exists b, vc_step eqb sz w (IsNull i) = Ret (w, [], Said b) /\ vc_step eqb sz w (IsNotNull i) = Ret (w, [], Said (negb b)) /\ (b = true <-> l = []).
Proof.
  intros A eqb sz os w i l S M Hi. destruct (made_rel eqb sz os w S M) as (s & R). destruct (sees_val sz w s i Vec l S R Hi) as (b1 & V1).
  pose proof (rel_get sz w s i R) as Ri. rewrite V1 in Ri. destruct (get (w_objs w) i) as [[k c]|] eqn:G; [|contradiction].
  destruct Ri as (es & H1 & En & X). injection X as <- -> ->. cbn [vc_step]. rewrite G, (null_spec sz Vec c es H1 En). eexists. split; [reflexivity|]. split; [reflexivity|].
  unfold null_val. cbn [v_kind v_elems]. destruct (map snd es); split; congruence.
Qed.
Print Assumptions C104_null_vector_partial.
(** An array made from a vector that was never filled has no elements and is not nullptr, while
    one that was moved from is. *)
Theorem C104_null_array_refuted : exists os w, made_by N.eqb 8 os w /\ sees 8 w 1 Arr [] /\ sees 8 w 2 Arr [] /\
  vc_step N.eqb 8 w (IsNull 1) = Ret (w, [], Said true) /\ vc_step N.eqb 8 w (IsNull 2) = Ret (w, [], Said false) /\
  vc_step N.eqb 8 w (EqualC 1 2) = Ret (w, [], Said true).
Proof.
  set (os := [Plain (MakeVecN 4); Plain (ToArray 0); Plain (MoveC 1)] : list (vcop (A := N))).
  destruct (vc_run N.eqb 8 world0 os) as [[[w log] xs]| | | |] eqn:E; try (vm_compute in E; discriminate).
  exists os, w. split; [split; [repeat constructor|eauto]|]. vm_compute in E. injection E as <- _ _.
  split; [eexists; split; [reflexivity|intros; reflexivity]|]. split; [eexists; split; [reflexivity|intros; reflexivity]|]. repeat split; reflexivity.
Qed.
Print Assumptions C104_null_array_refuted.
Example C104_case : exists w, made_by N.eqb 8 [Plain (MakeArrOf [Some 4; Some 5]); CopyC 0 true None] w /\ sees 8 w 0 Arr [4; 5] /\ sees 8 w 1 Arr [4; 5].
Proof.
  destruct (vc_run N.eqb 8 world0 [Plain (MakeArrOf [Some 4; Some 5]); CopyC 0 true None]) as [[[w log] xs]| | | |] eqn:E; try (vm_compute in E; discriminate).
  exists w. split; [split; [repeat constructor|eauto]|]. vm_compute in E. injection E as <- _ _.
  split; eexists; (split; [reflexivity|intros; reflexivity]).
Qed.
