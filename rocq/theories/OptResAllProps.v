(** C152: exactly what every program with Optionals and Results does. *)
From Verif Require Import Base BaseLemmas MemoryModel MemoryProofs OptResModel OptResSpec OptResProofs OptResProps.

(** What becomes of a program at an operation, told from the values it works with: it goes on,
    it ends, or its behaviour is undefined. *)
Inductive fate := Goes | Ends | Breaks.
Definition engaged_value {A} (x : option (aobj A)) : bool := match x with Some (AOpt (Some _)) => true | _ => false end.
Definition is_optional {A} (x : option (aobj A)) : bool := match x with Some (AOpt _) => true | _ => false end.
Definition is_result {A} (x : option (aobj A)) : bool := match x with Some (ARes _) => true | _ => false end.
Definition fate_of {A} (nm : bool) (aw : list (option (aobj A))) (o : oop A) : fate :=
  match o with
  (* the constructor of the argument throws inside a noexcept constructor *)
  | OptOf None | OptInPlace None | ResOk None | ResErr None => if nm then Ends else Goes
  (* the move constructor throws inside swap *)
  | OptSwap i j fail =>
      if is_optional (get aw i) && is_optional (get aw j) && (engaged_value (get aw i) || engaged_value (get aw j)) && (fail && negb nm) then Ends else Goes
  (* the same; or a result swapped with itself *)
  | ResSwap i j fail =>
      if is_result (get aw i) && is_result (get aw j) then
        if fail && negb nm then Ends else if Nat.eqb i j then Breaks else Goes
      else Goes
  (* an optional assigned from its own value *)
  | OptAssignFrom i j _ => if Nat.eqb i j && engaged_value (get aw i) then Breaks else Goes
  | _ => Goes
  end.
Fixpoint course {A} (mvd : A -> A) (nm : bool) (aw : list (option (aobj A))) (ops : list (oop A)) : fate :=
  match ops with
  | [] => Goes
  | o :: rest => match fate_of nm aw o with Goes => course mvd nm (fst (astep mvd nm aw o)) rest | f => f end
  end.

Lemma skipped {A} (mvd : A -> A) nm (w : oworld A) aw o : abs (ow_objs w) aw -> ostep mvd nm w o = Ret (w, [], ODone) -> astep mvd nm aw o = (aw, ODone) -> step_ok mvd nm w aw o.
Proof. intros R E F. unfold step_ok. rewrite E, F. exists w, [], ODone. split; [reflexivity|]. split; [apply same_trace|]. now split. Qed.
Lemma step_fate {A} (mvd : A -> A) nm (w : oworld A) aw o : abs (ow_objs w) aw ->
  match fate_of nm aw o with
  | Goes => step_ok mvd nm w aw o
  | Ends => ostep mvd nm w o = Terminates
  | Breaks => ostep mvd nm w o = UB
  end.
Proof.
  intros R.
  assert (forall i, cases (get (ow_objs w) i) (get aw i)) as C by (intros i; apply stands_cases, R).
  destruct o as [|arg|arg|i fail|i fail|i|i j fail|i v fail|i j fail|i|arg|arg|arg|arg|i fail|i j fail|i|i|i]; cbn [fate_of];
    try (apply step_all; [exact R|exact I]); try (destruct arg; [now apply step_all|]; destruct nm; [reflexivity|now apply step_all]).
  - fold (mthrow nm fail). destruct (mthrow nm fail) eqn:M; [|rewrite andb_false_r; now apply step_all]. rewrite andb_true_r.
    assert (is_optional (get aw i) && is_optional (get aw j) && (engaged_value (get aw i) || engaged_value (get aw j)) = opt_swap_moves (ow_objs w) i j) as ->.
    { unfold opt_swap_moves. destruct (C i), (C j); reflexivity. }
    destruct (opt_swap_moves (ow_objs w) i j) eqn:V; [cbn [ostep]; now rewrite M, V|].
    assert (ostep mvd nm w (OptSwap i j fail) = ostep mvd nm w (OptSwap i j false)) as E by (cbn [ostep]; now rewrite V, !andb_false_r).
    unfold step_ok. rewrite E. change (astep mvd nm aw (OptSwap i j fail)) with (astep mvd nm aw (OptSwap i j false)). now apply step_all.
  - destruct (Nat.eqb_spec i j) as [<-|N]; cbn [andb]; [|now apply step_all]. pose proof (C i) as Ci. destruct (get aw i) as [[[v|]|s]|] eqn:G; cbn [engaged_value]; destruct (get (ow_objs w) i) as [x|] eqn:G'; inversion Ci; subst.
    + apply (C45_optional_own_payload_refuted _ _ _ _ _ (mkOpt true (Some (n, v))) (n, v)); [exact G'|split; reflexivity].
    + unfold step_ok. cbn [ostep astep]. rewrite G, G'. cbn.
      exists w, [], (ORaised InvalidState). split; [reflexivity|]. split; [apply same_trace|]. now split.
    + apply skipped; [exact R|cbn [ostep]; now rewrite G'|cbn [astep]; now rewrite G].
    + apply skipped; [exact R|cbn [ostep]; now rewrite G'|cbn [astep]; now rewrite G].
    + apply skipped; [exact R|cbn [ostep]; now rewrite G'|cbn [astep]; now rewrite G].
  - fold (mthrow nm fail). assert (is_result (get aw i) && is_result (get aw j) = res_swap_moves (ow_objs w) i j) as ->.
    { unfold res_swap_moves. destruct (C i), (C j); reflexivity. }
    destruct (res_swap_moves (ow_objs w) i j) eqn:V.
    + destruct (mthrow nm fail) eqn:M; [cbn [ostep]; now rewrite M, V|]. destruct (Nat.eqb_spec i j) as [<-|N]; [|now apply step_all].
      unfold res_swap_moves in V. pose proof (C i) as Ci. destruct (get (ow_objs w) i) as [[o|r]|] eqn:G; try discriminate.
      assert (exists p, res_is r p) as (p & P) by (inversion Ci; subst; [now exists (inl (n, v))|now exists (inr (n, v))]).
      now apply (C45_result_self_swap_refuted _ _ _ _ _ r p).
    + apply skipped; [exact R| |].
      * cbn [ostep]. rewrite V, andb_false_r. unfold res_swap. unfold res_swap_moves in V. destruct w as [l n]. cbn [ow_objs ow_next] in *.
        destruct (get l i) as [[|]|]; try reflexivity. destruct (get l j) as [[|]|]; try reflexivity. discriminate.
      * cbn [astep]. unfold res_swap_moves in V. destruct (C i), (C j); try reflexivity; discriminate.
Qed.

(** Every program: if nothing along it ends it or breaks it, it runs, with the values of the
    abstract program, and every payload is used and destroyed only while alive, at most once,
    the ones alive at the end being those held; otherwise the first such operation decides. *)
Theorem C152_programs : forall A (mvd : A -> A) nm (ops : list (oop A)),
  match course mvd nm [] ops with
  | Goes => exists w log, orun mvd nm oworld0 ops = Ret (w, log, snd (arun mvd nm [] ops)) /\
      (forall i, stands_for (get (ow_objs w) i) (get (fst (arun mvd nm [] ops)) i)) /\
      legal log /\ NoDup (held w) /\ (forall x, In x (held w) <-> In (Born x) log /\ ~ In (Died x) log)
  | Ends => orun mvd nm oworld0 ops = Terminates
  | Breaks => orun mvd nm oworld0 ops = UB
  end.
Proof.
  intros A mvd nm ops.
  assert (forall (w : oworld A) aw log, abs (ow_objs w) aw -> hist log (ow_next w) (held w) ->
    match course mvd nm aw ops with
    | Goes => exists w' ev, orun mvd nm w ops = Ret (w', ev, snd (arun mvd nm aw ops)) /\ hist (log ++ ev) (ow_next w') (held w') /\ abs (ow_objs w') (fst (arun mvd nm aw ops))
    | Ends => orun mvd nm w ops = Terminates
    | Breaks => orun mvd nm w ops = UB
    end) as H.
  { induction ops as [|o ops IH]; intros w aw log R H; cbn [course orun arun].
    - exists w, []. rewrite app_nil_r. auto.
    - pose proof (step_fate mvd nm w aw o R) as S. destruct (fate_of nm aw o); [|now rewrite S|now rewrite S].
      destruct S as (w1 & ev & a & E & T & R1 & ->). rewrite E. cbn [bind]. destruct (astep mvd nm aw o) as [aw1 a]. cbn [fst snd] in *.
      specialize (IH w1 aw1 (log ++ ev) R1 (hist_trace _ _ _ _ _ T _ H)). destruct (course mvd nm aw1 ops); [|now rewrite IH|now rewrite IH].
      destruct IH as (w2 & ev2 & E2 & H2 & R2). rewrite E2. cbn [bind]. destruct (arun mvd nm aw1 ops) as [aw2 r]. cbn [fst snd] in *. exists w2, (ev ++ ev2). rewrite app_assoc. auto. }
  assert (abs (ow_objs (@oworld0 A)) []) as R0 by (split; [reflexivity|]; intros [|i]; exact I). specialize (H oworld0 [] [] R0 hist0).
  destruct (course mvd nm [] ops); trivial. destruct H as (w & log & E & [H1 H2 H3 H4] & _ & R). exists w, log. auto.
Qed.
Print Assumptions C152_programs.

(** A payload whose moves do not throw never ends a program by swapping, and a program that
    swaps no object with itself and assigns no optional from itself is never undefined. *)
Theorem C152_safe : forall A (mvd : A -> A) (ops : list (oop A)),
  (forall nm, (forall i, (forall fail, ~ In (ResSwap i i fail) ops) /\ (forall fail, ~ In (OptAssignFrom i i fail) ops)) -> orun mvd nm oworld0 ops <> UB) /\
  ((forall o, In o ops -> o <> OptOf None /\ o <> OptInPlace None /\ o <> ResOk None /\ o <> ResErr None) -> orun mvd true oworld0 ops <> Terminates).
Proof.
  intros A mvd ops. split.
  - intros nm H. assert (forall aw, course mvd nm aw ops <> Breaks) as K.
    { induction ops as [|o ops IH]; intros aw; cbn [course]; [discriminate|].
      assert (fate_of nm aw o <> Breaks) as F.
      { destruct o as [|[]|[]|i fail|i fail|i|i j fail|i v fail|i j fail|i|[]|[]|arg|arg|i fail|i j fail|i|i|i]; cbn [fate_of]; try (destruct nm; discriminate); try discriminate.
        - destruct (_ && _); discriminate.
        - destruct (Nat.eqb_spec i j) as [<-|N]; [|discriminate]. exfalso. apply (proj2 (H i) fail). now left.
        - destruct (_ && _); [|discriminate]. destruct (_ && _); [discriminate|]. destruct (Nat.eqb_spec i j) as [<-|N]; [|discriminate]. exfalso. apply (proj1 (H i) fail). now left. }
      destruct (fate_of nm aw o); [|discriminate|contradiction]. apply IH. intros i. split; intros fail X; [apply (proj1 (H i) fail)|apply (proj2 (H i) fail)]; now right. }
    pose proof (C152_programs A mvd nm ops) as P. specialize (K []). destruct (course mvd nm [] ops); [|rewrite P; discriminate|contradiction].
    destruct P as (w & log & -> & _). discriminate.
  - intros H. assert (forall aw, course mvd true aw ops <> Ends) as K.
    { induction ops as [|o ops IH]; intros aw; cbn [course]; [discriminate|].
      assert (fate_of true aw o <> Ends) as F.
      { destruct (H o (or_introl eq_refl)) as (H1 & H2 & H3 & H4).
        destruct o as [|[]|[]|i fail|i fail|i|i j fail|i v fail|i j fail|i|[]|[]|arg|arg|i fail|i j fail|i|i|i]; cbn [fate_of negb]; try discriminate; try congruence; rewrite ?andb_false_r; try discriminate.
        - destruct (_ && _); discriminate.
        - destruct (_ && _); [|discriminate]. destruct (Nat.eqb i j); discriminate. }
      destruct (fate_of true aw o); [|contradiction|discriminate]. apply IH. intros o' X. apply H. now right. }
    pose proof (C152_programs A mvd true ops) as P. specialize (K []). destruct (course mvd true [] ops); [|contradiction|rewrite P; discriminate].
    destruct P as (w & log & -> & _). discriminate.
Qed.
Print Assumptions C152_safe.
Example C152_case :
  course (fun _ => 0) false [] [OptOf (Some 1); OptEmpty; OptSwap 1 1 true; OptAssignFrom 1 1 false; OptAssignFrom 0 0 false] = Breaks /\
  course (fun _ => 0) false [] [ResOk (Some 1); ResSwap 0 0 true] = Ends /\
  course (fun _ => 0) false [] [OptEmpty; OptEmpty; OptSwap 0 1 true; ResSwap 5 5 true; OptAssignFrom 1 1 false] = Goes /\
  snd (arun (fun _ => 0) false [] [@OptEmpty N; OptEmpty; OptSwap 0 1 true; ResSwap 5 5 true; OptAssignFrom 1 1 false]) = [ODone; ODone; ODone; ODone; ORaised InvalidState].
Proof. repeat split. Qed.
