(** C159: iterators over the environment, kept while it changes. *)
From Verif Require Import Base BaseLemmas StringViewModel StringSpec StringViewProofs EnvModel EnvSpec EnvProofs EnvAllSpec EnvAllProps EnvIterModel EnvIterSpec.
Ltac Zify.zify_post_hook ::= Z.div_mod_to_equations.

Definition is_listed (p : process) : bool := match p_environ p with Some _ => true | None => false end.
Definition seen (a : eiter) : nat * nat := (N.to_nat (ei_index a), N.to_nat (ei_size a)).
Definition sound (a : eiter) : Prop := ei_index a <= ei_size a /\ ei_size a < 2 ^ 16.
(** the state of the program, as the specification sees it *)
Definition seen_as (w : process * list eiter) : estate :=
  mkE (is_listed (fst w)) (c_list (fst w)) (p_errno (fst w)) (map seen (snd w)).

(** ** Lists *)
Lemma put_length {A} (l : list A) i x : length (put_at l i x) = length l.
Proof. revert i. induction l as [|y l IH]; intros [|i]; cbn; auto. Qed.
Lemma put_map {A B} (f : A -> B) l i x : map f (put_at l i x) = put_at (map f l) i (f x).
Proof. revert i. induction l as [|y l IH]; intros [|i]; cbn; try reflexivity. now rewrite IH. Qed.
Lemma put_same {A} (l : list A) i x : (i < length l)%nat -> nth_error (put_at l i x) i = Some x.
Proof. revert i. induction l as [|y l IH]; intros [|i] H; cbn in *; try lia; [reflexivity|]. apply IH. lia. Qed.
Lemma put_other {A} (l : list A) i j x : i <> j -> nth_error (put_at l i x) j = nth_error l j.
Proof. revert i j. induction l as [|y l IH]; intros [|i] [|j] H; cbn; try reflexivity; try lia. apply IH. lia. Qed.
Lemma list_ext {A} (l m : list A) : (forall i, nth_error l i = nth_error m i) -> l = m.
Proof.
  revert m. induction l as [|x l IH]; intros [|y m] H; [reflexivity|specialize (H O); discriminate H|specialize (H O); discriminate H|].
  pose proof (H O) as E. injection E as ->. f_equal. apply IH. intros i. exact (H (Datatypes.S i)).
Qed.
Lemma changed_put {A} (l l' : list A) i x : changed l l' i x -> l' = put_at l i x.
Proof.
  intros (L & H & O). apply list_ext. intros j. destruct (Nat.eq_dec j i) as [->|X].
  - rewrite H, put_same; [reflexivity|]. rewrite <- L. apply nth_error_Some. congruence.
  - now rewrite put_other, O by auto.
Qed.
Lemma put_changed {A} (l : list A) i x y : nth_error l i = Some y -> changed l (put_at l i x) i x.
Proof.
  intros H. assert (i < length l)%nat by (apply nth_error_Some; congruence). split; [apply put_length|]. split; [now apply put_same|].
  intros j X. now apply put_other, not_eq_sym.
Qed.
Lemma sound_put its i b : Forall sound its -> sound b -> Forall sound (put_at its i b).
Proof. intros F B. revert i. induction F as [|a its A F IH]; intros [|i]; cbn; auto. Qed.
Lemma sound_at its i a : Forall sound its -> nth_error its i = Some a -> sound a.
Proof. intros F H. apply nth_error_In in H. rewrite Forall_forall in F. auto. Qed.

Lemma seen_at its i k : nth_error (map seen its) i = Some k -> exists a, nth_error its i = Some a /\ seen a = k.
Proof. rewrite nth_error_map. destruct (nth_error its i) as [a|]; [|discriminate]. intros [= <-]. eauto. Qed.

(** ** The environment *)
Lemma listed_after p c r p' : run_call p c = Ret (r, p') ->
  is_listed p' = match c, r with CClear, _ => false | CSet _ _ _ _, Ok _ => true | _, _ => is_listed p end.
Proof.
  destruct c as [name value replace nomem|name|]; cbn [run_call].
  - unfold env_set. destruct (data_cstring name) as [n| | | |]; try discriminate. cbn [bind].
    destruct (if sv_empty (chars_of value) then _ else _) as [v| | | |]; try discriminate. cbn [bind]. destruct v as [v|]; [|discriminate].
    unfold c_setenv. destruct n as [n|]; [|intros [= <- <-]; reflexivity].
    destruct (c_bad_name (Some n)); [intros [= <- <-]; reflexivity|]. destruct (nomem && _); intros [= <- <-]; reflexivity.
  - unfold env_unset. destruct (if sv_empty (chars_of name) then _ else _) as [v| | | |]; try discriminate. cbn [bind]. destruct v as [v|]; [|discriminate].
    unfold c_unsetenv. destruct (c_bad_name (Some v)); intros [= <- <-]; [reflexivity|].
    unfold is_listed. cbn [p_environ]. destruct (p_environ p); reflexivity.
  - unfold env_clear. intros [= <- <-]. reflexivity.
Qed.
Lemma size_now fuel p : 2 ^ 16 < N.of_nat fuel ->
  (size (c_list p) < 2 ^ 16 -> env_size fuel p = Ret (size (c_list p))) /\
  (2 ^ 16 <= size (c_list p) -> env_size fuel p = OutOfFuel).
Proof.
  intros F. split; intros L.
  - apply env_size_any; [exact L|unfold size in L; lia].
  - now apply (proj2 (C138_read p fuel)).
Qed.

(** ** One operation *)
Definition as_said (x : outcome (ians * (process * list eiter))) (v : verdict) : Prop :=
  match v with
  | Says a s => exists w', x = Ret (a, w') /\ seen_as w' = s /\ Forall sound (snd w')
  | Undefined => x = UB
  | Endless => x = OutOfFuel
  end.
Ltac iter_at H := let a := fresh "a" in let E := fresh "E" in let K := fresh "K" in
  cbn [seen_as iters snd] in H; apply seen_at in H as (a & E & K); unfold with_iter; rewrite E.
Lemma step_said fuel o p its v : 2 ^ 16 < N.of_nat fuel -> Forall sound its -> tells (seen_as (p, its)) o v ->
  as_said (i_step fuel o (p, its)) v.
Proof.
  intros F G T. destruct (size_now fuel p F) as (S1 & S2). destruct T; cbn [i_step as_said]; cbn [seen_as strings listed fst] in *.
  - unfold ei_begin. rewrite S1 by assumption. cbn [bind]. eexists. split; [reflexivity|]. split.
    + unfold seen_as, with_iters. cbn. rewrite map_app. cbn. unfold seen. cbn [ei_index ei_size]. unfold size. now rewrite Nat2N.id.
    + apply Forall_app. split; [assumption|]. constructor; [split; cbn [ei_index ei_size]; lia|constructor].
  - unfold ei_end. rewrite S1 by assumption. cbn [bind]. eexists. split; [reflexivity|]. split.
    + unfold seen_as, with_iters. cbn. rewrite map_app. cbn. unfold seen. cbn [ei_index ei_size]. unfold size. now rewrite Nat2N.id.
    + apply Forall_app. split; [assumption|]. constructor; [split; cbn [ei_index ei_size]; lia|constructor].
  - unfold ei_begin. now rewrite S2.
  - unfold ei_end. now rewrite S2.
  - iter_at H. eexists. split; [reflexivity|]. split.
    + unfold seen_as, with_iters. cbn. rewrite map_app. cbn. now rewrite K.
    + apply Forall_app. split; [assumption|]. constructor; [eapply sound_at; eauto|constructor].
  - iter_at H. iter_at H0. eexists. split; [reflexivity|]. split.
    + apply changed_put in H1. subst its0. unfold seen_as, with_iters. cbn. rewrite put_map. now rewrite K0.
    + apply sound_put; [assumption|]. eapply sound_at; eauto.
  - iter_at H. iter_at H0. eexists. split; [reflexivity|]. split.
    + unfold seen_as, with_iters. cbn [fst snd listed strings errno]. f_equal. rewrite !put_map, K, K0. apply list_ext. intros k.
      assert (i < length (map seen its))%nat by (rewrite map_length; apply nth_error_Some; congruence).
      assert (j < length (map seen its))%nat by (rewrite map_length; apply nth_error_Some; congruence).
      destruct (Nat.eq_dec k j) as [->|X]; [rewrite put_same by (now rewrite put_length); congruence|]. rewrite put_other by auto.
      destruct (Nat.eq_dec k i) as [->|Y]; [rewrite put_same by assumption; congruence|]. rewrite put_other by auto. symmetry. now apply H4.
    + apply sound_put; [apply sound_put; [assumption|]|]; eapply sound_at; eauto.
  - iter_at H. destruct (sound_at _ _ _ G E) as (B1 & B2). injection K as K1 K2. unfold ei_next, env_next.
    destruct (N.leb_spec (ei_size a) (ei_index a)); [lia|]. cbn [bind]. eexists. split; [reflexivity|].
    assert (u16 (ei_index a + 1) = ei_index a + 1) as U by (apply u16_small; lia). rewrite U. split.
    + apply changed_put in H1. subst its0. unfold seen_as, with_iters. cbn [fst snd listed strings errno iters]. f_equal. rewrite put_map. f_equal. unfold seen. cbn [ei_index ei_size]. f_equal; lia.
    + apply sound_put; [assumption|]. split; cbn [ei_index ei_size]; lia.
  - iter_at H. injection K as K1 K2. unfold ei_next, env_next. destruct (N.leb_spec (ei_size a) (ei_index a)); [|lia]. cbn [bind].
    eexists. split; [reflexivity|]. auto.
  - iter_at H. injection K as K1 K2. unfold ei_deref, env_deref. destruct (N.leb_spec (ei_size a) (ei_index a)); [lia|].
    unfold c_list in H1. destruct (p_environ p) as [l|] eqn:P; [|now destruct k]. rewrite nnth_nth_error, K1, H1, env_var_shown.
    eexists. split; [reflexivity|]. auto.
  - iter_at H. injection K as K1 K2. unfold ei_deref, env_deref. destruct (N.leb_spec (ei_size a) (ei_index a)); [lia|].
    unfold is_listed in H1. unfold c_list in H2. destruct (p_environ p) as [l|] eqn:P; [|discriminate H1].
    assert (nnth l (ei_index a) = None) as ->. { apply nnth_None. unfold size. lia. }
    assert (ei_index a =? size l = true) as ->. { apply N.eqb_eq. unfold size. lia. }
    rewrite env_var_shown. eexists. split; [reflexivity|]. auto.
  - iter_at H. injection K as K1 K2. unfold ei_deref, env_deref. destruct (N.leb_spec (ei_size a) (ei_index a)); [lia|].
    unfold is_listed, c_list in H1. destruct (p_environ p) as [l|] eqn:P; [|reflexivity]. destruct H1 as [H1|H1]; [|discriminate H1].
    assert (nnth l (ei_index a) = None) as ->. { apply nnth_None. unfold size. lia. }
    destruct (N.eqb_spec (ei_index a) (size l)) as [X|X]; [unfold size in X; lia|reflexivity].
  - iter_at H. injection K as K1 K2. unfold ei_deref, env_deref. destruct (N.leb_spec (ei_size a) (ei_index a)); [|lia].
    eexists. split; [reflexivity|]. auto.
  - iter_at H. iter_at H0. injection K as K1 K2. injection K0 as K3 K4. eexists. split; [|now split; [reflexivity|]].
    do 3 f_equal. unfold ei_eq. destruct (N.eqb_spec (ei_index a) (ei_index a0)), (Nat.eqb_spec k k'); try reflexivity; exfalso; lia.
  - iter_at H. iter_at H0. injection K as K1 K2. injection K0 as K3 K4. eexists. split; [|now split; [reflexivity|]].
    do 3 f_equal. unfold ei_ne. f_equal. destruct (N.eqb_spec (ei_index a) (ei_index a0)), (Nat.eqb_spec k k'); try reflexivity; exfalso; lia.
  - iter_at H. injection K as K1 K2. eexists. split; [|now split; [reflexivity|]]. do 3 f_equal. lia.
  - cbn [seen_as errno fst] in H. destruct (proj2 (proj2 (C138_call p c)) _ _ H) as (p' & E & X). injection X as -> ->. rewrite E. cbn [bind fst snd].
    eexists. split; [reflexivity|]. split; [|assumption]. unfold seen_as. cbn [fst snd iters]. f_equal. eapply listed_after; eauto.
  - now rewrite (proj1 (C138_call p c)).
Qed.

(** ** Programs *)
Definition ends_as (x : outcome (list ians * (process * list eiter))) (c : course) : Prop :=
  match c with
  | Ends xs s => exists w, x = Ret (xs, w) /\ seen_as w = s
  | Breaks => x = UB
  | Hangs => x = OutOfFuel
  end.
Lemma run_said fuel : 2 ^ 16 < N.of_nat fuel -> forall os s c, runs s os c ->
  forall p its, seen_as (p, its) = s -> Forall sound its -> ends_as (i_run fuel os (p, its)) c.
Proof.
  intros F os s c R. induction R as [s|s o os T|s o os T|s o a s1 os xs s2 T R IH|s o a s1 os T R IH|s o a s1 os T R IH];
    intros p its <- G; [cbn; eauto|..]; pose proof (step_said fuel o p its _ F G T) as X; cbn [as_said] in X; cbn [i_run ends_as].
  - now rewrite X.
  - now rewrite X.
  - destruct X as ((p' & its') & -> & <- & G'). cbn [bind fst snd]. destruct (IH p' its' eq_refl G') as (w & -> & <-). cbn [bind fst snd]. eauto.
  - destruct X as ((p' & its') & -> & <- & G'). cbn [bind fst snd]. pose proof (IH p' its' eq_refl G') as Y. cbn [ends_as] in Y. now rewrite Y.
  - destruct X as ((p' & its') & -> & <- & G'). cbn [bind fst snd]. pose proof (IH p' its' eq_refl G') as Y. cbn [ends_as] in Y. now rewrite Y.
Qed.
(** Whatever the specification says of a program is what happens; [fuel] is any number of steps
    large enough to count 65536 strings. *)
Theorem C159_programs : forall fuel os p c, 2 ^ 16 < N.of_nat fuel ->
  runs (mkE (match p_environ p with Some _ => true | None => false end) (c_list p) (p_errno p) []) os c ->
  match c with
  | Ends xs s => exists p' its, i_run fuel os (p, []) = Ret (xs, (p', its)) /\
      strings s = c_list p' /\ errno s = p_errno p' /\ iters s = map (fun a => (N.to_nat (ei_index a), N.to_nat (ei_size a))) its
  | Breaks => i_run fuel os (p, []) = UB
  | Hangs => i_run fuel os (p, []) = OutOfFuel
  end.
Proof.
  intros fuel os p c F R. pose proof (run_said fuel F os _ c R p [] eq_refl (Forall_nil _)) as X.
  destruct c as [xs s| |]; cbn [ends_as] in X; [|exact X|exact X]. destruct X as ((p' & its) & E & <-). exists p', its. cbn. auto.
Qed.
Print Assumptions C159_programs.

(** It says something of every program that uses the iterators it has made. *)
Lemma seen_some (s : estate) i : (i < length (iters s))%nat -> exists k n, nth_error (iters s) i = Some (k, n).
Proof. intros H. destruct (nth_error (iters s) i) as [(k, n)|] eqn:E; [eauto|]. apply nth_error_None in E. lia. Qed.
Lemma tells_some s o : (listed s = false -> strings s = []) -> uses (length (iters s)) o -> exists v, tells s o v /\
  match v with Says _ s' => length (iters s') = (length (iters s) + makes o)%nat /\ (listed s' = false -> strings s' = []) | _ => True end.
Proof.
  intros L U. destruct o as [| |i|i j|i j|i|i|i j|i j|i|c]; cbn [uses makes] in *.
  - destruct (N.lt_ge_cases (size (strings s)) (2 ^ 16)).
    + eexists. split; [now apply t_begin|]. cbn. rewrite app_length. cbn. auto.
    + eexists. split; [now apply t_begin_many|exact Logic.I].
  - destruct (N.lt_ge_cases (size (strings s)) (2 ^ 16)).
    + eexists. split; [now apply t_end|]. cbn. rewrite app_length. cbn. auto.
    + eexists. split; [now apply t_end_many|exact Logic.I].
  - destruct (seen_some s i U) as (k & n & E). eexists. split; [eapply t_copy; exact E|]. cbn. rewrite app_length. cbn. auto.
  - destruct U as (U1 & U2). destruct (seen_some s i U1) as (k & n & E), (seen_some s j U2) as (k' & n' & E').
    eexists. split; [eapply t_assign; [exact E|exact E'|eapply put_changed; exact E]|]. cbn. rewrite put_length. split; [lia|exact L].
  - destruct U as (U1 & U2). destruct (seen_some s i U1) as (k & n & E), (seen_some s j U2) as (k' & n' & E').
    eexists. split; [eapply t_swap with (its := put_at (put_at (iters s) i (k', n')) j (k, n)); [exact E|exact E'|..]|].
    + now rewrite !put_length.
    + destruct (Nat.eq_dec i j) as [<-|X]; [rewrite put_same by (now rewrite put_length); congruence|]. rewrite put_other by auto. now apply put_same.
    + apply put_same. now rewrite put_length.
    + intros m X Y. now rewrite !put_other by auto.
    + cbn. rewrite !put_length. split; [lia|exact L].
  - destruct (seen_some s i U) as (k & n & E). destruct (Nat.lt_ge_cases k n).
    + eexists. split; [eapply t_next; [exact E|assumption|eapply put_changed; exact E]|]. cbn. rewrite put_length. split; [lia|exact L].
    + eexists. split; [eapply t_next_end; eauto|]. split; [lia|exact L].
  - destruct (seen_some s i U) as (k & n & E). destruct (Nat.lt_ge_cases k n); [|eexists; split; [eapply t_look_end; eauto|]; split; [lia|exact L]].
    destruct (nth_error (strings s) k) as [e|] eqn:X; [eexists; split; [eapply t_look; eauto|]; split; [lia|exact L]|].
    apply nth_error_None in X. destruct (listed s) eqn:Y; [|eexists; split; [eapply t_look_lost; eauto|exact Logic.I]].
    destruct (Nat.eq_dec k (length (strings s))); [eexists; split; [eapply t_look_behind; eauto|]; split; [lia|congruence]|].
    eexists. split; [eapply t_look_lost; eauto; left; lia|exact Logic.I].
  - destruct U as (U1 & U2). destruct (seen_some s i U1) as (k & n & E), (seen_some s j U2) as (k' & n' & E').
    eexists. split; [eapply t_equal; eauto|]. split; [lia|exact L].
  - destruct U as (U1 & U2). destruct (seen_some s i U1) as (k & n & E), (seen_some s j U2) as (k' & n' & E').
    eexists. split; [eapply t_differ; eauto|]. split; [lia|exact L].
  - destruct (seen_some s i U) as (k & n & E). eexists. split; [eapply t_index; eauto|]. split; [lia|exact L].
  - destruct (undefined_dec c) as [X|X]; [eexists; split; [now apply t_call_undefined|exact Logic.I]|].
    destruct (effect_total c (strings s) (errno s) X) as (r & (l, e) & E). eexists. split; [eapply t_call; exact E|]. cbn [iters listed strings]. split; [lia|].
    inversion E; subst; try discriminate; try exact L; try reflexivity.
    intros Y. match goal with K : kept _ _ _ |- _ => specialize (L Y); rewrite L in K; now inversion K end.
Qed.
Theorem C159_total : forall os p, proper 0 os ->
  exists c, runs (mkE (match p_environ p with Some _ => true | None => false end) (c_list p) (p_errno p) []) os c.
Proof.
  intros os p. set (s := mkE _ _ _ _). change O with (length (iters s)).
  assert (listed s = false -> strings s = []) as L.
  { unfold s, c_list. cbn. destruct (p_environ p); [discriminate|reflexivity]. }
  clearbody s. revert s L. induction os as [|o os IH]; intros s L P; [eexists; constructor|]. cbn [proper] in P. destruct P as (U & P).
  destruct (tells_some s o L U) as (v & T & V). destruct v as [a s1| |]; [|eexists; now apply runs_undefined|eexists; now apply runs_endless].
  destruct V as (V1 & V2). rewrite <- V1 in P. destruct (IH s1 V2 P) as ([xs s2| |] & R); eexists; [eapply runs_on|eapply runs_breaks|eapply runs_hangs]; eauto.
Qed.
Print Assumptions C159_total.

(** Whatever becomes of the environment, an iterator made when there were [n] variables can be
    advanced exactly [n] times before it raises. *)
Theorem C159_steps : forall fuel os p xs p' its i a m, 2 ^ 16 < N.of_nat fuel -> proper 0 os ->
  i_run fuel os (p, []) = Ret (xs, (p', its)) -> nth_error its i = Some a ->
  exists w, i_run fuel (repeat (INext i) m) (p', its) =
    Ret (repeat IDone (Nat.min m (N.to_nat (ei_size a) - N.to_nat (ei_index a))) ++
         repeat IRaised (m - (N.to_nat (ei_size a) - N.to_nat (ei_index a))), w) /\ fst w = p'.
Proof.
  intros fuel os p xs p' its i a m F P R A.
  assert (Forall sound its) as G.
  { revert R. assert (Forall sound (@nil eiter)) as G by constructor. change O with (length (map seen (@nil eiter))) in P. revert P G. generalize (@nil eiter) as its0. revert p xs.
    induction os as [|o os IH]; intros p xs its0 P G R; [cbn in R; congruence|]. cbn [proper] in P. destruct P as (U & P).
    destruct (tells_some (seen_as (p, its0)) o) as (v & T & V).
    - cbn. unfold is_listed, c_list. destruct (p_environ p); [discriminate|reflexivity].
    - exact U.
    - pose proof (step_said fuel o p its0 v F G T) as X. cbn [i_run] in R. destruct v as [b s| |]; cbn [as_said] in X; [|rewrite X in R; discriminate R|rewrite X in R; discriminate R].
      destruct X as ((p1 & its1) & E & <- & G1). rewrite E in R. cbn [bind fst snd] in R. destruct V as (V & _). cbn in V.
      destruct (i_run fuel os (p1, its1)) as [(ys, w)| | | |] eqn:E1; try discriminate R. cbn [bind fst snd] in R. injection R as _ ->.
      eapply (IH p1 ys its1); [|exact G1|exact E1]. rewrite V. exact P. }
  clear R P. revert its a A G. induction m as [|m IH]; intros its a A G.
  - cbn. eexists. split; [reflexivity|]. reflexivity.
  - destruct (sound_at _ _ _ G A) as (B1 & B2). cbn [repeat i_run i_step]. unfold with_iter. rewrite A. unfold ei_next, env_next.
    destruct (N.leb_spec (ei_size a) (ei_index a)) as [L|L]; cbn [bind fst snd].
    + destruct (IH its a A G) as (w & -> & W). cbn [bind fst snd]. exists w. split; [|exact W].
      replace (N.to_nat (ei_size a) - N.to_nat (ei_index a))%nat with O by lia. rewrite !Nat.min_0_r, !Nat.sub_0_r. reflexivity.
    + rewrite u16_small by lia.
      destruct (IH (put_at its i (mkEIter (ei_index a + 1) (ei_size a))) (mkEIter (ei_index a + 1) (ei_size a))) as (w & -> & W).
      * apply put_same. apply nth_error_Some. congruence.
      * apply sound_put; [exact G|]. split; cbn; lia.
      * cbn [bind fst snd ei_index ei_size]. exists w. split; [|exact W].
        set (d := (N.to_nat (ei_size a) - N.to_nat (ei_index a))%nat).
        replace (N.to_nat (ei_size a) - N.to_nat (ei_index a + 1))%nat with (d - 1)%nat by lia.
        assert (1 <= d)%nat by lia. replace (Nat.min (Datatypes.S m) d) with (Datatypes.S (Nat.min m (d - 1))) by lia. cbn [repeat app].
        replace (Datatypes.S m - d)%nat with (m - (d - 1))%nat by lia. reflexivity.
Qed.
Print Assumptions C159_steps.

(** An iterator that outlives the variables: one more place is shown empty, then undefined; after
    clear() at once.  The end of a smaller environment is passed unnoticed. *)
Definition two := mkProcess (Some [[65; 61; 49]; [66; 61; 50]; [67; 61; 51]]) 0.
Definition unset (c : N) := ICall (CUnset (View [c] [0])).
Example C159_ok :
  (exists w, i_run 9 [IBegin; INext 0; ILook 0; unset 65; ILook 0; unset 66; ILook 0; IEnd; IEqual 0 1; INext 0; IIndex 0; IDiffer 0 1] (two, []) =
     Ret ([IDone; IDone; IVar ([66], [50]); IResult (Ok tt); IVar ([67], [51]); IResult (Ok tt); IVar ([], []); IDone; IBool true; IDone; INum 2; IBool true], w)) /\
  i_run 9 [IBegin; INext 0; INext 0; unset 65; unset 66; ILook 0] (two, []) = UB /\
  i_run 9 [IBegin; ICall CClear; ILook 0] (two, []) = UB /\
  (exists w, i_run 9 [IBegin; IEnd; ISwap 0 1; IIndex 0; ICopy 1; IAssign 1 0; IEqual 1 0; ILook 1; ILook 2] (two, []) =
     Ret ([IDone; IDone; IDone; INum 3; IDone; IDone; IBool true; IRaised; IVar ([65], [49])], w)).
Proof. repeat split; try (eexists; reflexivity). Qed.
Example C159_case : proper 0 [IBegin; INext 0; unset 65; ILook 0; IEnd; IEqual 0 1; ICopy 1; IAssign 2 0; ISwap 0 2; ICall CClear; IIndex 2].
Proof. cbn. repeat split; lia. Qed.
