(** C153: exactly what every program with Vectors and Arrays does. *)
From Verif Require Import Base BaseLemmas MemViewModel MemoryModel MemoryProofs ContainerModel ContainerSpec ContainerProofs ContainerProps ContainerAllSpec ContainerAllProofs.
From Coq Require Import Permutation.

Lemma rel_seen {A} sz (x : option (kind * cont A)) y : 0 < sz -> rel sz x y -> seen_as sz x y.
Proof.
  intros S. destruct x as [[k c]|], y as [h|]; cbn; try tauto. intros (-> & E & En & _ & ss & H & V). split; [reflexivity|]. split; [unfold vec_capacity; now rewrite E|]. split; [exact En|].
  split; [intros K; destruct H as (r & _ & _ & _ & _ & _ & _ & H); rewrite <- En, (H K), V; unfold vals; now rewrite map_length|].
  rewrite V. split; [intros i; now apply (hat_spec sz (h_kind h))|]. unfold contents_of. rewrite (helems _ _ _ _ H). split.
  - intros l L. assert (whole (vals ss) = true) as W by (rewrite L; apply whole_map). destruct (whole_some ss W) as (es & ->). rewrite values_some. f_equal.
    rewrite vals_some in L. clear - L. revert l L. induction (map snd es) as [|v vs IH]; intros [|v' l] L; cbn in L; try discriminate; [reflexivity|]. injection L as -> L. f_equal. now apply IH.
  - apply values_hole.
Qed.
Lemma crun_all {A} sz (ops : list (cop A)) : 0 < sz -> forall w aw log, habs sz (w_objs w) aw -> linv w log -> Forall (fits sz) ops ->
  match shows_all sz aw ops with
  | None => crun sz w ops = UB /\ answers_of sz w ops = UB
  | Some (aw', l) => exists w' ev, crun sz w ops = Ret (w', ev) /\ answers_of sz w ops = Ret l /\ linv w' (log ++ ev) /\ habs sz (w_objs w') aw'
  end.
Proof.
  intros S. induction ops as [|o ops IH]; intros w aw log R W F; cbn [shows_all crun answers_of].
  - exists w, []. split; [reflexivity|]. split; [reflexivity|]. split; [now apply linv_nil|exact R].
  - inversion F as [|? ? F1 F2]; subst. pose proof (cstep_all sz w aw log o S R W F1) as P. unfold stepped in P. destruct (shows sz aw o) as [[aw1 a]|].
    + destruct P as (w1 & ev & E & W1 & R1). rewrite E. cbn [bind]. specialize (IH w1 aw1 _ R1 W1 F2). destruct (shows_all sz aw1 ops) as [[aw2 l]|].
      * destruct IH as (w2 & ev2 & -> & -> & W2 & R2). cbn [bind fst snd]. exists w2, (ev ++ ev2). rewrite app_assoc. auto.
      * destruct IH as (-> & ->). split; reflexivity.
    + rewrite P. split; reflexivity.
Qed.
Lemma habs0 {A} sz : habs sz (w_objs (@world0 A)) [].
Proof. split; [reflexivity|]. intros [|i]; exact I. Qed.

(** Every program: undefined exactly when it touches a hole.  Otherwise it runs, every call
    answers and every container is as told, and every element constructed is destroyed at
    most once, after its construction, those alive being the ones not destroyed. *)
Theorem C153_programs : forall A sz (ops : list (cop A)), 0 < sz -> Forall (fits sz) ops ->
  match shows_all sz [] ops with
  | None => crun sz world0 ops = UB
  | Some (aw, l) => exists w log, crun sz world0 ops = Ret (w, log) /\ answers_of sz world0 ops = Ret l /\
      (forall i, seen_as sz (get (w_objs w) i) (get aw i)) /\
      NoDup (built log) /\ NoDup (destroyed log) /\ (forall a x b, log = a ++ Dtor x :: b -> In x (built a)) /\
      (forall x, In x (alive w) <-> In x (built log) /\ ~ In x (destroyed log))
  end.
Proof.
  intros A sz ops S F. pose proof (crun_all sz ops S world0 [] [] (habs0 sz) linv0 F) as P. destruct (shows_all sz [] ops) as [[aw l]|]; [|exact (proj1 P)].
  destruct P as (w & log & E & El & [W2 W3 W4 W5] & _ & R). cbn [app] in *. exists w, log. split; [exact E|]. split; [exact El|]. split; [intros i; apply rel_seen; auto|].
  assert (ND : NoDup (destroyed log ++ alive w)) by (eapply Permutation_NoDup; [symmetry; exact W2|exact W3]).
  assert (D : NoDup (destroyed log) /\ forall x, In x (destroyed log) -> ~ In x (alive w)).
  { clear - ND. induction (destroyed log) as [|y l IH]; cbn in *; [split; [constructor|intros x []]|]. inversion ND as [|? ? N1 N2]; subst. destruct (IH N2) as (I1 & I2). rewrite in_app_iff in N1.
    split; [constructor; tauto|]. intros x [<-|X]; [tauto|auto]. }
  destruct D as (D1 & D2). split; [exact W3|]. split; [exact D1|]. split; [exact W5|].
  intros x. split.
  - intros X. split; [eapply Permutation_in; [exact W2|]; apply in_or_app; now right|]. intros Y. exact (D2 x Y X).
  - intros (X & Y). eapply Permutation_in in X; [|symmetry; exact W2]. apply in_app_or in X as [X|X]; [contradiction|exact X].
Qed.
Print Assumptions C153_programs.

(** Holes come only from assigning nullptr to an array that has elements and from a throwing
    ArrayView::emplace: programs without these are never undefined. *)
Theorem C153_no_holes : forall A sz (ops : list (cop A)), 0 < sz -> Forall (fits sz) ops ->
  (forall i, ~ In (ArrNull i) ops) -> (forall i k, ~ In (ViewEmplace i k None) ops) ->
  exists aw l, shows_all sz [] ops = Some (aw, l) /\ forall i h, get aw i = Some h -> whole (h_vals h) = true.
Proof.
  intros A sz ops S _ N1 N2.
  assert (forall aw, (forall i h, get aw i = Some h -> whole (h_vals h) = true) ->
    exists aw' l, shows_all sz aw ops = Some (aw', l) /\ forall i h, get aw' i = Some h -> whole (h_vals h) = true) as K.
  { induction ops as [|o ops IH]; intros aw H; cbn [shows_all]; [exists aw, []; auto|].
    assert (exists aw1 a, shows sz aw o = Some (aw1, a) /\ forall i h, get aw1 i = Some h -> whole (h_vals h) = true) as (aw1 & a & -> & H1).
    { assert (HA : forall (l : list (option (shown A))) h, (forall i h, get l i = Some h -> whole (h_vals h) = true) -> whole (h_vals h) = true -> forall i h', get (l ++ [Some h]) i = Some h' -> whole (h_vals h') = true).
      { intros l h Hl Hh i h' G. rewrite get_app in G. destruct Nat.eqb; [injection G as <-; exact Hh|eauto]. }
      assert (HU : forall (l : list (option (shown A))) j x, (forall i h, get l i = Some h -> whole (h_vals h) = true) -> (forall h, x = Some h -> whole (h_vals h) = true) -> forall i h', get (upd l j x) i = Some h' -> whole (h_vals h') = true).
      { intros l j x Hl Hh i h' G. rewrite get_upd in G. destruct andb; [exact (Hh _ G)|eauto]. }
      assert (HW : forall (l : list (option A)) m x, whole l = true -> whole (upd l m (Some x)) = true).
      { induction l as [|[y|] l IHl]; intros [|m] x; cbn; try discriminate; auto. apply IHl. }
      assert (HN : forall (l : list (option A)) m, whole l = true -> nth_error l m <> Some None).
      { intros l m W E. unfold whole in W. rewrite forallb_forall in W. apply nth_error_In in E. specialize (W _ E). discriminate. }
      destruct o as [bytes|n|args|n f|args|i arg|i|i|i|i|i j|i|i|i k v|i k arg|i]; cbn [shows].
      - eexists _, _. split; [reflexivity|]. now apply HA.
      - eexists _, _. split; [reflexivity|]. now apply HA.
      - destruct (whole args) eqn:Wa; eexists _, _; (split; [reflexivity|]); [now apply HA|exact H].
      - destruct (whole (map f _)) eqn:Wa; eexists _, _; (split; [reflexivity|]); [now apply HA|exact H].
      - destruct (whole args) eqn:Wa; eexists _, _; (split; [reflexivity|]); [now apply HA|exact H].
      - destruct (get aw i) as [[[] room n l]|] eqn:G; try (eexists _, _; split; [reflexivity|exact H]). destruct (_ <=? _); [eexists _, _; split; [reflexivity|exact H]|].
        destruct arg as [v|]; eexists _, _; (split; [reflexivity|]); [|exact H]. apply HU; [exact H|]. intros h [= <-]. cbn [h_vals]. rewrite whole_app. apply andb_true_iff. split; [exact (H _ _ G)|reflexivity].
      - destruct (get aw i) as [[[] room n l]|] eqn:G; try (eexists _, _; split; [reflexivity|exact H]).
        specialize (H _ _ G) as W. cbn [h_vals] in W. destruct l as [|x l]; [eexists _, _; split; [reflexivity|exact H]|].
        assert (NE : x :: l <> []) by discriminate. destruct (exists_last NE) as (l0 & y & E). rewrite E in *. rewrite last_last, removelast_last, whole_app in *. apply andb_true_iff in W as (W1 & W2).
        destruct y as [y|]; [|discriminate]. eexists _, _. split; [reflexivity|]. apply HU; [exact H|]. intros h [= <-]. exact W1.
      - destruct (get aw i) as [[[] room n l]|] eqn:G; try (eexists _, _; split; [reflexivity|exact H]). pose proof (H _ _ G) as W. cbn [h_vals] in W. rewrite W.
        eexists _, _. split; [reflexivity|]. apply HU; [exact H|]. intros h [= <-]. reflexivity.
      - destruct (get aw i) as [[[] room n l]|] eqn:G; try (eexists _, _; split; [reflexivity|exact H]).
        eexists _, _. split; [reflexivity|]. apply HA; [|exact (H _ _ G)]. apply HU; [exact H|]. intros h [= <-]. reflexivity.
      - destruct (get aw i) as [h|] eqn:G; [|eexists _, _; split; [reflexivity|exact H]].
        eexists _, _. split; [reflexivity|]. apply HA; [|exact (H _ _ G)]. apply HU; [exact H|]. intros h' [= <-]. reflexivity.
      - destruct (get aw i) as [h|] eqn:G; [|eexists _, _; split; [reflexivity|exact H]]. destruct (get aw j) as [h'|] eqn:G'; [|eexists _, _; split; [reflexivity|exact H]].
        destruct (Bool.eqb _ _); (eexists _, _; split; [reflexivity|]); [|exact H]. apply HU; [apply HU; [exact H|]|]; intros h0 [= <-]; eauto.
      - destruct (get aw i) as [[[] room n l]|] eqn:G; try (eexists _, _; split; [reflexivity|exact H]). pose proof (H _ _ G) as W. cbn [h_vals] in W. rewrite W.
        eexists _, _. split; [reflexivity|]. apply HU; [exact H|]. intros h [= <-]. reflexivity.
      - exfalso. apply (N1 i). now left.
      - destruct (get aw i) as [[kd room n l]|] eqn:G; [|eexists _, _; split; [reflexivity|exact H]]. pose proof (H _ _ G) as W. cbn [h_vals] in W.
        pose proof (HN l (N.to_nat k) W) as Q. destruct (nth_error l (N.to_nat k)) as [[x|]|]; [|congruence|eexists _, _; split; [reflexivity|exact H]].
        destruct v as [v|]; (eexists _, _; split; [reflexivity|]); [|exact H]. apply HU; [exact H|]. intros h [= <-]. cbn [h_vals]. now apply HW.
      - destruct (get aw i) as [[kd room n l]|] eqn:G; [|eexists _, _; split; [reflexivity|exact H]]. pose proof (H _ _ G) as W. cbn [h_vals] in W.
        pose proof (HN l (N.to_nat k) W) as Q. destruct (nth_error l (N.to_nat k)) as [[x|]|]; [|congruence|eexists _, _; split; [reflexivity|exact H]].
        destruct arg as [v|]; [|exfalso; apply (N2 i k); now left]. eexists _, _. split; [reflexivity|]. apply HU; [exact H|]. intros h [= <-]. cbn [h_vals]. now apply HW.
      - destruct (get aw i) as [h|] eqn:G; [|eexists _, _; split; [reflexivity|exact H]]. rewrite (H _ _ G). eexists _, _. split; [reflexivity|]. apply HU; [exact H|discriminate]. }
    destruct IH with aw1 as (aw2 & l & -> & H2); auto.
    - intros i X. apply (N1 i). now right.
    - intros i k X. apply (N2 i k). now right.
    - exists aw2, (a :: l). auto. }
  apply (K []). intros [|i] h E; discriminate.
Qed.
Print Assumptions C153_no_holes.

Lemma null_array_step : forall A sz (w : world A) i c room n l, 0 < sz ->
  get (w_objs w) i = Some (Arr, c) -> rel sz (Some (Arr, c)) (Some (mkShown Arr room n (map Some l))) ->
  exists c', cstep sz w (ArrNull i) = Ret (put w i (Some (Arr, c')), map Dtor (slot_ids (elems sz c)), AOk) /\ arr_size c' = arr_size c /\
    forall o, o = DropC i \/ o = ArrNull i -> (cstep sz (put w i (Some (Arr, c'))) o = UB <-> l <> []).
Proof.
  intros A sz w i c room n l S G (_ & Er & _ & _ & ss & H & V). cbn [h_vals] in V.
  assert (W : whole (vals ss) = true) by (rewrite <- V; apply whole_map). destruct (whole_some ss W) as (es & ->). pose proof H as HH. apply holds_hholds in H.
  assert (Ll : length es = length l) by (rewrite vals_some in V; apply (f_equal (@length _)) in V; rewrite !map_length in V; lia).
  cbn [cstep]. rewrite G. unfold arr_dispose. rewrite (destroy_spec _ _ _ _ H). cbn [bind fst snd].
  set (c' := mkCont (mkBuf (b_bytes (c_buf c)) (repeat None (length (b_slots (c_buf c))))) (c_n c)).
  exists c'. rewrite (helems _ _ _ _ HH), ids_some, map_dtor. split; [reflexivity|]. split; [reflexivity|].
  assert (H' : hholds sz Arr c' (repeat None (length es))).
  { pose proof HH as (r & B & _). apply (hholds_same sz Arr c (map Some es) _ _ r HH); [now rewrite repeat_length, map_length| |now rewrite repeat_length].
    rewrite <- repeat_app. f_equal. now rewrite B, app_length, map_length, repeat_length. }
  assert (G' : get (w_objs (put w i (Some (Arr, c')))) i = Some (Arr, c')) by (unfold put; cbn [w_objs]; eapply get_upd_same; exact G).
  assert (D : destroy_all sz c' = UB <-> l <> []).
  { destruct es as [|e es]; destruct l as [|v l]; cbn [length] in Ll; try discriminate.
    - split; [|congruence]. intros X. exfalso. rewrite (destroy_spec sz Arr c' []) in X; [discriminate|]. apply holds_hholds. exact H'.
    - split; [discriminate|]. intros _. apply (hdestroy_hole sz Arr c' _ H'). reflexivity. }
  intros o [->| ->]; cbn [cstep]; rewrite G'; unfold arr_dispose; (destruct (destroy_all sz c') as [p| | | |]; cbn [bind]; (split; intros X; [apply D; first [reflexivity|discriminate]|first [reflexivity|exfalso; apply D in X; discriminate]])).
Qed.
(** Assigning nullptr to an array leaves all its elements as holes: after that it can be moved,
    swapped and asked for its size, but to destroy it or to assign nullptr again is undefined,
    exactly when it had elements. *)
Theorem C153_null_array : forall A sz (ops : list (cop A)) w log aw la i room n l, 0 < sz -> Forall (fits sz) ops ->
  crun sz world0 ops = Ret (w, log) -> shows_all sz [] ops = Some (aw, la) -> get aw i = Some (mkShown Arr room n (map Some l)) ->
  exists c c', get (w_objs w) i = Some (Arr, c) /\
    cstep sz w (ArrNull i) = Ret (put w i (Some (Arr, c')), map Dtor (slot_ids (elems sz c)), AOk) /\ arr_size c' = n /\
    forall o, o = DropC i \/ o = ArrNull i -> (cstep sz (put w i (Some (Arr, c'))) o = UB <-> l <> []).
Proof.
  intros A sz ops w log aw la i room n l S F E Sh G. pose proof (crun_all sz ops S world0 [] [] (habs0 sz) linv0 F) as P. rewrite Sh in P.
  destruct P as (w' & log' & E' & _ & _ & _ & R). rewrite E in E'. injection E' as <- <-. specialize (R i). rewrite G in R.
  destruct (get (w_objs w) i) as [[k c]|] eqn:Gc; [|contradiction]. pose proof (proj1 R) as K. cbn in K. subst k.
  exists c. destruct (null_array_step A sz w i c room n l S Gc R) as (c' & H1 & H2 & H3). exists c'. split; [reflexivity|]. split; [exact H1|]. split; [|exact H3]. rewrite H2. exact (proj1 (proj2 (proj2 R))).
Qed.
Print Assumptions C153_null_array.

Example C153_ok : Forall (fits 8) [@MakeVecOf N [Some 1; Some 2]; ToArray 0; ArrNull 1; MoveC 1; DropC 1] /\
  shows_all 8 [] [@MakeVecOf N [Some 1; Some 2]; ToArray 0; ArrNull 1; MoveC 1; DropC 1] =
    Some ([Some (mkShown Vec 0 0 []); None; Some (mkShown Arr 16 2 [None; None])], [AOk; AOk; AOk; AOk; AOk]) /\
  shows_all 8 [] [@MakeVecOf N [Some 1; Some 2]; ToArray 0; ArrNull 1; MoveC 1; DropC 1; DropC 2] = None /\
  shows_all 8 [] [@MakeVecOf N [Some 1; Some 2]; ViewEmplace 0 1 None; SetElem 0 0 (Some 5); Emplace 0 (Some 3)] =
    Some ([Some (mkShown Vec 16 2 [Some 5; None])], [AOk; ARaised UserException; AOk; AError BasicOverflow]).
Proof. split; [repeat constructor|]. repeat split. Qed.
