From Verif Require Import Base BaseLemmas MemoryModel StringViewModel StringObjModel StringObjSpec StringObjProofs.

Definition answers {A} (r : outcome (list sans * A)) : outcome (list sans) := let! p := r in Ret (fst p).

(** C92: whatever a program does with its Strings, every answer is the one of variables that
    hold texts: moves hand the text over and leave the source empty, assignment and swap exchange
    texts, copies are texts of their own, views show the text they were taken of. *)
Theorem C92_values : forall lits os, answers (s_run os (s_start lits)) = answers (t_run lits os t_start).
Proof.
  intros lits os. pose proof (run_rel lits os _ _ (rel_start lits)) as H. unfold answers.
  destruct (s_run os (s_start lits)) as [[a w]| | | |], (t_run lits os t_start) as [[b t]| | | |]; try contradiction; [|reflexivity].
  cbn. now destruct H as [-> _].
Qed.
Print Assumptions C92_values.

(** The rules in terms of the program alone. *)
Theorem C92_move : forall lits os i j a w s, s_run os (s_start lits) = Ret (a, w) ->
  sw_objs w i = None -> s_step (SText j) w = Ret (AText s, w) ->
  answers (s_run [SMove i j; SText i; SText j; SSize j; SEmpty j] w) = Ret [AUnit; AText s; AText []; ASize 0; ABool true].
Proof.
  intros lits os i j a w s H I T. pose proof (run_rel lits os _ _ (rel_start lits)) as Q. rewrite H in Q.
  destruct (t_run lits os t_start) as [[b t]| | | |]; try contradiction. destruct Q as [_ R].
  pose proof (run_rel lits [SMove i j; SText i; SText j; SSize j; SEmpty j] _ _ R) as Q.
  pose proof (step_rel lits _ _ (SText j) R) as P. rewrite T in P. cbn [t_step] in P.
  pose proof (r_objs _ _ _ R i) as Oi. rewrite I in Oi. destruct (t_vars t i) eqn:Vi; [contradiction|].
  destruct (t_vars t j) as [x|] eqn:Vj; [|contradiction]. destruct P as [E _]. injection E as E.
  assert (i <> j) by congruence.
  assert (A : answers (t_run lits [SMove i j; SText i; SText j; SSize j; SEmpty j] t) = Ret [AUnit; AText s; AText []; ASize 0; ABool true]).
  { unfold answers. cbn. rewrite Vi, Vj. cbn. rewrite !vset_same. cbn. do 3 (rewrite !vset_other, !vset_same by auto; cbn). rewrite <- E. reflexivity. }
  unfold answers in *.
  destruct (s_run [SMove i j; SText i; SText j; SSize j; SEmpty j] w) as [[a' w']| | | |],
    (t_run lits [SMove i j; SText i; SText j; SSize j; SEmpty j] t) as [[b' t']| | | |]; try contradiction; try discriminate.
  destruct Q as [-> _]. exact A.
Qed.
Print Assumptions C92_move.

(** x[k] of the String whose characters forEach shows. *)
Theorem C92_chars : forall lits os i a w s k, s_run os (s_start lits) = Ret (a, w) -> s_step (SText i) w = Ret (AText s, w) ->
  s_step (SSize i) w = Ret (ASize (size s), w) /\
  s_step (SCharAt i k) w = Ret (match nth_error s (N.to_nat k) with Some c => AChar (schar c) | None => ARaised IndexOutOfRange end, w).
Proof.
  intros lits os i a w s k H T. pose proof (run_rel lits os _ _ (rel_start lits)) as Q. rewrite H in Q.
  destruct (t_run lits os t_start) as [[b t]| | | |]; try contradiction. destruct Q as [_ R].
  pose proof (step_rel lits _ _ (SText i) R) as P. rewrite T in P. cbn [t_step] in P.
  destruct (t_vars t i) as [x|] eqn:V; [|contradiction]. destruct P as [E _]. injection E as E. subst s.
  pose proof (step_rel lits _ _ (SSize i) R) as P1. pose proof (step_rel lits _ _ (SCharAt i k) R) as P2. cbn [t_step] in P1, P2. rewrite V in P1, P2.
  cbn [s_step] in *. destruct (sw_objs w i) as [o|]; [|contradiction]. split.
  - destruct P1 as [-> _]. reflexivity.
  - cbv zeta in *. destruct (sv_len (sobj_view o) <=? k).
    + destruct P2 as [<- _]. reflexivity.
    + match goal with |- context [sview_read ?p ?q] => destruct (sview_read p q) end; try contradiction. cbn in P2 |- *. destruct P2 as [<- _]. reflexivity.
Qed.
Print Assumptions C92_chars.

Definition lit1 : list (list N) := [[108; 105; 116]].
Example C92_case : answers (s_run
    [SMake 0 [97; 98; 99] true; SMove 1 0; SText 0; SText 1; SLit 2 0; SSwap 1 2; SText 1; SCopy 3 2 true; SEquals 3 2; SDrop 2; SText 3; SCharAt 3 1; SCharAt 3 3; SAssign 0 3; SText 0] (s_start lit1)) =
  Ret [AUnit; AUnit; AText []; AText [97; 98; 99]; AUnit; AUnit; AText [108; 105; 116]; AUnit; ABool true; AUnit; AText [97; 98; 99];
       AChar 98; ARaised IndexOutOfRange; AUnit; AText [97; 98; 99]].
Proof. reflexivity. Qed.

(** C93: memory.  A step of a program that names Strings properly - the ones it uses exist, the
    ones it makes do not yet - and literals that exist is never undefined (no block is given back
    twice, no literal is given back, no text is read after its block is gone), save for reading a
    view, which is the subject of C94. *)
Definition names_ok (w : sworld) (o : sop) : Prop :=
  let is i := sw_objs w i <> None in
  let no i := sw_objs w i = None in
  match o with
  | SNew i | SMake i _ _ => no i
  | SLit i k => no i /\ (k < length (sw_lits w))%nat
  | SCopy i j _ | SMove i j => no i /\ is j
  | SAssign i j | SSwap i j | SEquals i j => is i /\ is j
  | SDrop i | SView _ i | SSub _ i _ _ | SSubFrom _ i _ | SText i | SSize i | SEmpty i | SCharAt i _ => is i
  | SSubView _ _ _ _ => True
  | SRead _ => False
  end.
Theorem C93_defined : forall lits os a w o, s_run os (s_start lits) = Ret (a, w) -> names_ok w o -> exists r, s_step o w = Ret r.
Proof.
  intros lits os a w o H G. pose proof (run_rel lits os _ _ (rel_start lits)) as Q. rewrite H in Q.
  destruct (t_run lits os t_start) as [[b t]| | | |]; try contradiction. destruct Q as [_ R].
  pose proof (step_rel lits _ _ o R) as P. pose proof (r_objs _ _ _ R) as Ro.
  assert (N1 : forall i, sw_objs w i = None -> t_vars t i = None).
  { intros i E. specialize (Ro i). rewrite E in Ro. now destruct (t_vars t i). }
  assert (N2 : forall i, sw_objs w i <> None -> exists x, t_vars t i = Some x).
  { intros i E. specialize (Ro i). destruct (t_vars t i); [eauto|]. now destruct (sw_objs w i). }
  enough (T : exists r, t_step lits o t = Ret r).
  { destruct T as [r T]. rewrite T in P. destruct (s_step o w) as [p| | | |]; try contradiction; [eauto | destruct r; contradiction ..]. }
  clear P. destruct o; cbn [names_ok t_step] in *;
    repeat match goal with
    | H : _ /\ _ |- _ => destruct H
    | H : sw_objs w _ = None |- _ => apply N1 in H; rewrite H
    | H : sw_objs w _ <> None |- _ => apply N2 in H; destruct H as [? H]; rewrite H
    end; eauto; try contradiction.
  - destruct ok; eauto.
  - destruct (nth_error lits k) eqn:E; eauto. apply nth_error_None in E. rewrite (r_lits _ _ _ R) in *. lia.
  - destruct ok; eauto.
Qed.
Print Assumptions C93_defined.

(** When the Strings of the program are all destroyed, every block was given back. *)
Theorem C93_no_leak : forall lits os a w, s_run os (s_start lits) = Ret (a, w) -> (forall i, sw_objs w i = None) ->
  forall n, get (sw_heap w) n = None.
Proof.
  intros lits os a w H G n. pose proof (run_rel lits os _ _ (rel_start lits)) as Q. rewrite H in Q.
  destruct (t_run lits os t_start) as [[b t]| | | |]; try contradiction. destruct Q as [_ R].
  destruct (get (sw_heap w) n) eqn:E; [|reflexivity]. exfalso.
  assert (L : (n < length (sw_heap w))%nat) by (apply MemoryProofs.get_some in E; exact E).
  destruct (r_held _ _ _ R n L) as [D|(i & s & I)].
  - apply (r_dead _ _ _ R) in D. destruct D. congruence.
  - pose proof (r_objs _ _ _ R i) as O. rewrite I, G in O. exact O.
Qed.
Print Assumptions C93_no_leak.

(** A block in use belongs to one existing String, and to no other; literals stay as they are. *)
Theorem C93_one_owner : forall lits os a w, s_run os (s_start lits) = Ret (a, w) ->
  sw_lits w = lits /\
  forall n bs, get (sw_heap w) n = Some bs ->
    exists i o, sw_objs w i = Some o /\ sr_addr (so_buf o) = Some (Heap n) /\
    forall j p, sw_objs w j = Some p -> sr_addr (so_buf p) = Some (Heap n) -> j = i.
Proof.
  intros lits os a w H. pose proof (run_rel lits os _ _ (rel_start lits)) as Q. rewrite H in Q.
  destruct (t_run lits os t_start) as [[b t]| | | |]; try contradiction. destruct Q as [_ R]. split; [exact (r_lits _ _ _ R)|].
  intros n bs E. assert (L : (n < length (sw_heap w))%nat) by (apply MemoryProofs.get_some in E; exact E).
  destruct (r_held _ _ _ R n L) as [D|(i & s & I)]; [apply (r_dead _ _ _ R) in D; destruct D; congruence|].
  pose proof (r_objs _ _ _ R i) as O. rewrite I in O. destruct (sw_objs w i) as [o|] eqn:W; [|contradiction].
  exists i, o. split; [exact W|]. split; [destruct O as (-> & _); reflexivity|].
  intros j p J P. pose proof (r_objs _ _ _ R j) as O'. rewrite J in O'. destruct (t_vars t j) as [x|] eqn:V; [|contradiction].
  destruct x as [[[|m] z]|]; cbn in O'.
  - destruct O' as (k & _ & ->). discriminate.
  - destruct O' as (-> & _). cbn in P. injection P as ->. exact (r_once _ _ _ R _ _ _ _ _ V I).
  - subst p. discriminate.
Qed.
Print Assumptions C93_one_owner.

Definition blocks (r : outcome (list sans * sworld)) : option (list (option (list N))) := match r with Ret (_, w) => Some (sw_heap w) | _ => None end.
Example C93_case : blocks (s_run [SMake 0 [97] true; SMake 1 [98] true; SAssign 0 1; SMove 2 0; SLit 3 0; SSwap 3 2; SDrop 0; SDrop 1; SDrop 2; SDrop 3] (s_start lit1))
    = Some [None; None].
Proof. vm_compute. reflexivity. Qed.

(** C94: a view shows the characters its String had when the view was taken, through any further
    operations - moves, swaps and assignments of the String among them - in which no String is
    destroyed and the view is not taken anew. *)
Definition keeps_view (v : nat) (o : sop) : Prop :=
  match o with
  | SDrop _ => False
  | SView u _ | SSub u _ _ _ | SSubFrom u _ _ | SSubView u _ _ _ => u <> v
  | _ => True
  end.
Lemma keep_step lits v o t a t' : keeps_view v o -> t_step lits o t = Ret (a, t') -> t_views t' v = t_views t v /\ t_dead t' = t_dead t.
Proof.
  intros K H. destruct o; cbn [t_step keeps_view] in *; try contradiction;
    repeat match type of H with
    | context [match ?x with Some _ => _ | None => _ end] => destruct x
    | context [if ?b then _ else _] => destruct b
    | context [t_read ?x ?y] => destruct (t_read x y); cbn in H
    end; try discriminate; cbn in H;
    match type of H with Ret (_, ?X) = _ => assert (Q : t' = X) by congruence; subst t'; clear H end; cbn; rewrite ?vset_other; auto.
Qed.
Lemma keep_run lits v os : forall t a t', Forall (keeps_view v) os -> t_run lits os t = Ret (a, t') -> t_views t' v = t_views t v /\ t_dead t' = t_dead t.
Proof.
  induction os as [|o os IH]; intros t a t' F H; cbn [t_run] in H.
  - injection H as _ <-. auto.
  - destruct (t_step lits o t) as [[b u]| | | |] eqn:E; try discriminate. cbn in H.
    destruct (t_run lits os u) as [[c u']| | | |] eqn:E2; try discriminate. cbn in H. injection H as _ <-.
    inversion F as [|? ? K F']; subst. destruct (IH _ _ _ F' E2) as [A B]. destruct (keep_step _ _ _ _ _ _ K E) as [C D]. split; congruence.
Qed.
Theorem C94_view_survives : forall lits os1 i v a w s os2 b w' u,
  s_run os1 (s_start lits) = Ret (a, w) -> s_step (SText i) w = Ret (AText s, w) ->
  s_step (SView v i) w = Ret (AUnit, w') ->
  Forall (keeps_view v) os2 -> s_run os2 w' = Ret (b, u) ->
  s_step (SRead v) u = Ret (AText s, u).
Proof.
  intros lits os1 i v a w s os2 b w' u H T V F H2. pose proof (run_rel lits os1 _ _ (rel_start lits)) as Q. rewrite H in Q.
  destruct (t_run lits os1 t_start) as [[? t]| | | |]; try contradiction. destruct Q as [_ R].
  pose proof (step_rel lits _ _ (SText i) R) as P. rewrite T in P. cbn [t_step] in P.
  pose proof (step_rel lits _ _ (SView v i) R) as P2. rewrite V in P2. cbn [t_step] in P2.
  pose proof (r_objs _ _ _ R i) as Oi. destruct (t_vars t i) as [x|] eqn:I; [|contradiction].
  destruct (sw_objs w i) as [o|] eqn:Wi; [|contradiction].
  destruct P as [E _]. injection E as ->. destruct P2 as [_ R2].
  pose proof (run_rel lits os2 _ _ R2) as Q2. rewrite H2 in Q2.
  destruct (t_run lits os2 (t_set_views t (vset (t_views t) v x))) as [[? t2]| | | |] eqn:E2; try contradiction. destruct Q2 as [_ R3].
  destruct (keep_run _ _ _ _ _ _ F E2) as [A B]. cbn in A, B. rewrite vset_same in A.
  cbn [s_step]. rewrite (read_ok _ _ _ _ _ R3 (r_views _ _ _ R3 v)), A.
  assert (Rd : t_read t2 x = Ret (text_of x)).
  { unfold t_read. destruct x as [[[|n] [|c s]]|]; cbn; auto. rewrite B. destruct Oi as (_ & _ & D).
    destruct (existsb (Nat.eqb n) (t_dead t)) eqn:Ex; [apply existsb_in in Ex; contradiction|reflexivity]. }
  rewrite Rd. reflexivity.
Qed.
Print Assumptions C94_view_survives.

(** Destroying Strings matters only for the views of the text the destroyed String held then: a
    view whose text was moved elsewhere stays good, a view of the String's text does not. *)
Theorem C94_view_dies : forall lits os i v c s a w w' u,
  s_run os (s_start lits) = Ret (a, w) -> s_step (SText i) w = Ret (AText (c :: s), w) ->
  (forall o, sw_objs w i = Some o -> sr_disp (so_buf o) = true) ->
  s_run [SView v i; SDrop i] w = Ret ([AUnit; AUnit], w') -> s_step (SRead v) w' = u -> u = UB.
Proof.
  intros lits os i v c s a w w' u H T M V Hu. subst u. pose proof (run_rel lits os _ _ (rel_start lits)) as Q. rewrite H in Q.
  destruct (t_run lits os t_start) as [[? t]| | | |]; try contradiction. destruct Q as [_ R].
  pose proof (step_rel lits _ _ (SText i) R) as P. rewrite T in P. cbn [t_step] in P.
  pose proof (r_objs _ _ _ R i) as Oi. pose proof (run_rel lits [SView v i; SDrop i] _ _ R) as Q. rewrite V in Q. cbn [t_run t_step] in Q.
  destruct (t_vars t i) as [x|] eqn:I; [|contradiction]. destruct (sw_objs w i) as [o|] eqn:W; [|contradiction].
  destruct P as [E _]. cbn in Q. rewrite I in Q. cbn in Q. destruct Q as [_ R']. 
  cbn [s_step]. rewrite (read_ok _ _ _ _ _ R' (r_views _ _ _ R' v)). cbn. rewrite vset_same.
  destruct x as [[[|n] z]|]; cbn in E.
  - destruct Oi as (k & _ & ->). specialize (M _ eq_refl). discriminate.
  - injection E as <-. cbn. now rewrite Nat.eqb_refl.
  - discriminate.
Qed.
Print Assumptions C94_view_dies.

Example C94_case : answers (s_run
    [SMake 0 [97; 98; 99] true; SView 0 0; SMove 1 0; SDrop 0; SSubView 1 0 1 3; SRead 1; SNew 2; SSwap 1 2; SDrop 1; SRead 0] (s_start lit1)) =
  Ret [AUnit; AUnit; AUnit; AUnit; AUnit; AText [98; 99]; AUnit; AUnit; AUnit; AText [97; 98; 99]].
Proof. reflexivity. Qed.
Example C94_case_gone : s_run [SMake 0 [97; 98; 99] true; SView 0 0; SDrop 0; SRead 0] (s_start lit1) = UB.
Proof. reflexivity. Qed.

(** C95: substring(from, len) is documented as the [len] characters that start at [from]. *)
Definition shows (w : sworld) (o : sop) (v : nat) (s : list N) : Prop :=
  exists w', s_step o w = Ret (AUnit, w') /\ s_step (SRead v) w' = Ret (AText s, w').
Lemma sub_shows lits os a w s i v o from to : s_run os (s_start lits) = Ret (a, w) -> s_step (SText i) w = Ret (AText s, w) ->
  (o = SSub v i from to \/ (o = SSubFrom v i from /\ to = size s)) ->
  shows w o v (firstn (N.to_nat to - N.to_nat from) (skipn (N.to_nat from) s)).
Proof.
  intros H T Ho. pose proof (run_rel lits os _ _ (rel_start lits)) as Q. rewrite H in Q.
  destruct (t_run lits os t_start) as [[? t]| | | |]; try contradiction. destruct Q as [_ R].
  pose proof (step_rel lits _ _ (SText i) R) as P. rewrite T in P. cbn [t_step] in P.
  destruct (t_vars t i) as [x|] eqn:V; [|contradiction]. destruct P as [E _]. injection E as ->.
  pose proof (r_objs _ _ _ R i) as Oi. rewrite V in Oi. destruct (sw_objs w i) as [b|] eqn:W; [|contradiction].
  assert (St : same (rel lits) (s_step o w) (Ret (AUnit, t_set_views t (vset (t_views t) v (part from to x))))).
  { pose proof (step_rel lits _ _ o R) as P2. destruct Ho as [-> |(-> & ->)]; cbn [t_step] in P2; rewrite V in P2; exact P2. }
  destruct (s_step o w) as [[z w']| | | |] eqn:Es; try contradiction. destruct St as [-> R'].
  exists w'. split; [exact Es|]. cbn [s_step]. rewrite (read_ok _ _ _ _ _ R' (r_views _ _ _ R' v)).
  cbn. rewrite vset_same. unfold part.
  destruct x as [[[|n] z]|]; cbn [text_of].
  - destruct firstn; reflexivity.
  - destruct Oi as (_ & _ & D). destruct (firstn _ _); [reflexivity|].
    cbn. destruct (existsb (Nat.eqb n) (t_dead t)) eqn:Ex; [apply existsb_in in Ex; contradiction|reflexivity].
  - now rewrite skipn_nil, firstn_nil.
Qed.
(** It is so for from = 0, and for substring(from). *)
Theorem C95_substring_partial : forall lits os a w s i v len, s_run os (s_start lits) = Ret (a, w) -> s_step (SText i) w = Ret (AText s, w) ->
  shows w (SSub v i 0 len) v (firstn (N.to_nat len) s).
Proof.
  intros lits os a w s i v len H T. pose proof (sub_shows _ _ _ _ _ _ v _ 0 len H T (or_introl eq_refl)) as X.
  now rewrite Nat.sub_0_r in X.
Qed.
Print Assumptions C95_substring_partial.
Theorem C95_tail : forall lits os a w s i v from, s_run os (s_start lits) = Ret (a, w) -> s_step (SText i) w = Ret (AText s, w) ->
  shows w (SSubFrom v i from) v (skipn (N.to_nat from) s).
Proof.
  intros lits os a w s i v from H T. pose proof (sub_shows _ _ _ _ _ _ v _ from (size s) H T (or_intror (conj eq_refl eq_refl))) as X.
  rewrite firstn_all2 in X; [exact X|]. rewrite skipn_length. unfold size. lia.
Qed.
Print Assumptions C95_tail.
(** For other starts the characters up to the index [len] are shown: of those asked for, the last
    ones are missing - all of them when len <= from. *)
Theorem C95_substring_end : forall lits os a w s i v from to, s_run os (s_start lits) = Ret (a, w) -> s_step (SText i) w = Ret (AText s, w) ->
  shows w (SSub v i from to) v (firstn (N.to_nat to - N.to_nat from) (skipn (N.to_nat from) s)).
Proof. intros lits os a w s i v from to H T. now apply (sub_shows _ _ _ _ _ _ v _ from to H T); left. Qed.
Print Assumptions C95_substring_end.
Theorem C95_substring_refuted : forall lits os a w s i v from len, s_run os (s_start lits) = Ret (a, w) -> s_step (SText i) w = Ret (AText s, w) ->
  0 < from -> 0 < len -> from + len <= size s -> ~ shows w (SSub v i from len) v (firstn (N.to_nat len) (skipn (N.to_nat from) s)).
Proof.
  intros lits os a w s i v from len H T F L B (w1 & S1 & R1).
  destruct (sub_shows _ _ _ _ _ _ v _ from len H T (or_introl eq_refl)) as (w2 & S2 & R2).
  rewrite S1 in S2. injection S2 as <-. rewrite R1 in R2. assert (E : firstn (N.to_nat len) (skipn (N.to_nat from) s) = firstn (N.to_nat len - N.to_nat from) (skipn (N.to_nat from) s)) by congruence.
  apply (f_equal (@List.length N)) in E. rewrite !firstn_length, !skipn_length in E. unfold size in B. lia.
Qed.
Print Assumptions C95_substring_refuted.
Example C95_case : answers (s_run [SMake 0 [97; 98; 99; 100; 101] true; SSub 0 0 0 2; SRead 0; SSub 0 0 2 2; SRead 0; SSub 0 0 1 3; SRead 0; SSubFrom 0 0 3; SRead 0] (s_start [])) =
  Ret [AUnit; AUnit; AText [97; 98]; AUnit; AText []; AUnit; AText [98; 99]; AUnit; AText [100; 101]].
Proof. reflexivity. Qed.
