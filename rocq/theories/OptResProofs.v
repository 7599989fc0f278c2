(** Proofs about Optional and Result. *)
From Verif Require Import Base BaseLemmas MemoryModel MemoryProofs OptResModel OptResSpec.
From Coq Require Import Permutation.

Lemma opt_is_eq {A} (o : optional A) m : opt_is o m -> o = match m with Some a => opt_of a | None => opt_none end.
Proof. destruct o as [e s]. intros [H1 H2]. cbn in *. subst. now destruct m. Qed.
Lemma res_is_eq {V E} (r : resultv V E) s : res_is r s -> r = match s with inl v => res_of v | inr e => res_err e end.
Proof. destruct r as [e st]. destruct s; intros [H1 H2]; cbn in *; now subst. Qed.
Lemma opt_is_of {A} (a : A) : opt_is (opt_of a) (Some a).
Proof. split; reflexivity. Qed.
Lemma opt_is_none {A} : opt_is (@opt_none A) None.
Proof. split; reflexivity. Qed.

(** * Lists of objects *)
Lemma upd_upd {A} (l : list A) i x y : upd (upd l i x) i y = upd l i y.
Proof. revert i; induction l as [|a l IH]; intros [|i]; cbn [upd]; try reflexivity. now rewrite IH. Qed.
Lemma upd_comm {A} (l : list A) i j x y : i <> j -> upd (upd l i x) j y = upd (upd l j y) i x.
Proof. revert i j; induction l as [|a l IH]; intros [|i] [|j] H; cbn [upd]; try reflexivity; try contradiction. rewrite IH by lia. reflexivity. Qed.
Lemma upd4 {A} (l : list A) i j a b c d : i <> j -> upd (upd (upd (upd l j a) i b) j c) i d = upd (upd l i d) j c.
Proof. intros N. rewrite (upd_comm (upd l j a) i j) by exact N. rewrite !upd_upd. now apply upd_comm, not_eq_sym. Qed.
Lemma upd5 {A} (l : list A) i j a b c d e : i <> j -> upd (upd (upd (upd (upd l i a) i b) j c) i d) j e = upd (upd l i d) j e.
Proof. intros N. rewrite upd_upd. rewrite (upd_comm _ j i) by auto. rewrite !upd_upd. reflexivity. Qed.
Lemma upd_id {A} (l : list (option A)) i x : get l i = Some x -> upd l i (Some x) = l.
Proof. unfold get. revert i; induction l as [|a l IH]; intros [|i] H; cbn [upd nth] in *; try reflexivity; try discriminate; [now subst|]. now rewrite IH. Qed.
Lemma flat_one {A B} (f : option A -> list B) l i r : get l i = Some r ->
  exists m, Permutation (flat_map f l) (f (Some r) ++ m) /\ forall x, Permutation (flat_map f (upd l i x)) (f x ++ m).
Proof.
  unfold get. revert i; induction l as [|y l IH]; intros i H; [destruct i; discriminate|]. destruct i as [|i]; cbn [nth] in H.
  - subst y. exists (flat_map f l). split; reflexivity.
  - destruct (IH i H) as (m & P & Q). exists (f y ++ m). cbn [flat_map upd]. split; [|intros x].
    + rewrite P. apply Permutation_app_swap_app.
    + rewrite Q. apply Permutation_app_swap_app.
Qed.
Lemma flat_two {A B} (f : option A -> list B) l i j r s : i <> j -> get l i = Some r -> get l j = Some s ->
  exists m, Permutation (flat_map f l) (f (Some r) ++ f (Some s) ++ m) /\
    forall x y, Permutation (flat_map f (upd (upd l i x) j y)) (f x ++ f y ++ m).
Proof.
  intros N. revert i j N. unfold get. induction l as [|a l IH]; intros [|i] [|j] N H1 H2; try contradiction; try discriminate.
  - cbn [nth] in H1, H2. subst a. destruct (flat_one f l j s H2) as (m & P & Q). exists m. cbn [flat_map upd]. split; [|intros x y].
    + now rewrite P.
    + now rewrite Q.
  - cbn [nth] in H1, H2. subst a. destruct (flat_one f l i r H1) as (m & P & Q). exists m. cbn [flat_map upd]. split; [|intros x y].
    + rewrite P. apply Permutation_app_swap_app.
    + rewrite Q. apply Permutation_app_swap_app.
  - cbn [nth] in H1, H2. destruct (IH i j ltac:(lia) H1 H2) as (m & P & Q). exists (f a ++ m). cbn [flat_map upd]. split; [|intros x y].
    + rewrite P. rewrite (Permutation_app_swap_app (f a)). rewrite (Permutation_app_swap_app (f a)). reflexivity.
    + rewrite Q. rewrite (Permutation_app_swap_app (f a)). rewrite (Permutation_app_swap_app (f a)). reflexivity.
Qed.

Local Arguments get : simpl never.
Local Arguments upd : simpl never.
(** * Traces: what a piece of log does to the set of living objects *)
Inductive trace : nat -> list nat -> list life -> nat -> list nat -> Prop :=
| t_nil n l l' : Permutation l l' -> trace n l [] n l'
| t_born n l ev n' l' : trace (S n) (n :: l) ev n' l' -> trace n l (Born n :: ev) n' l'
| t_used n l x ev n' l' : In x l -> trace n l ev n' l' -> trace n l (Used x :: ev) n' l'
| t_died n l x m ev n' l' : Permutation l (x :: m) -> trace n m ev n' l' -> trace n l (Died x :: ev) n' l'.

Record hist (log : list life) (n : nat) (l : list nat) : Prop := mkHist {
  hi_live : forall x, In x l <-> In (Born x) log /\ ~ In (Died x) log;
  hi_nodup : NoDup l;
  hi_born : forall x, In (Born x) log -> (x < n)%nat;
  hi_legal : legal log
}.
Definition allowed (log : list life) (e : life) : Prop :=
  match e with Born x => ~ In (Born x) log | Used x | Died x => In (Born x) log /\ ~ In (Died x) log end.
Lemma legal_snoc log e : legal log -> allowed log e -> legal (log ++ [e]).
Proof.
  intros L K a e' b E. destruct b as [|y b] using rev_ind.
  - apply app_inj_tail in E as (-> & ->). exact K.
  - rewrite app_comm_cons, app_assoc in E. apply app_inj_tail in E as (-> & ->). exact (L _ _ _ eq_refl).
Qed.
Lemma hist_trace n l ev n' l' : trace n l ev n' l' -> forall log, hist log n l -> hist (log ++ ev) n' l'.
Proof.
  induction 1 as [n l l' P|n l ev n' l' T IH|n l x ev n' l' I T IH|n l x m ev n' l' P T IH]; intros log H.
  - rewrite app_nil_r. destruct H as [H1 H2 H3 H4]. constructor; auto.
    + intros x. rewrite <- H1. split; intros X; [apply (Permutation_in _ (Permutation_sym P)) in X|apply (Permutation_in _ P) in X]; exact X.
    + eapply Permutation_NoDup; eauto.
  - destruct H as [H1 H2 H3 H4]. replace (log ++ Born n :: ev) with ((log ++ [Born n]) ++ ev) by now rewrite <- app_assoc.
    assert (F : ~ In (Born n) log) by (intros X; apply H3 in X; lia).
    assert (G : ~ In (Died n) log).
    { intros X. apply in_split in X as (a & b & E). destruct (H4 _ _ _ E) as (Y & _). apply F. rewrite E. apply in_or_app. now left. }
    apply IH. constructor.
    + intros x. rewrite !in_app_iff. cbn [In]. rewrite H1. split.
      * intros [<-|(X & Y)]; [split; [right; now left|]|split; [now left|]]; intros [Z|[Z|[]]]; try discriminate; auto.
      * intros ([X|[X|[]]] & Y); [right; split; [exact X|]; intros Z; apply Y; now left|left; now injection X].
    + constructor; [|exact H2]. rewrite H1. intros (X & _). contradiction.
    + intros x X. apply in_app_or in X as [X|[X|[]]]; [apply H3 in X; lia|injection X as <-; lia].
    + apply legal_snoc; [exact H4|exact F].
  - destruct H as [H1 H2 H3 H4]. replace (log ++ Used x :: ev) with ((log ++ [Used x]) ++ ev) by now rewrite <- app_assoc.
    apply IH. constructor.
    + intros y. rewrite !in_app_iff. cbn [In]. rewrite H1. split.
      * intros (X & Y). split; [now left|]. intros [Z|[Z|[]]]; [auto|discriminate].
      * intros ([X|[X|[]]] & Y); [|discriminate]. split; [exact X|]. intros Z; apply Y; now left.
    + exact H2.
    + intros y X. apply in_app_or in X as [X|[X|[]]]; [now apply H3|discriminate].
    + apply legal_snoc; [exact H4|]. now apply H1.
  - destruct H as [H1 H2 H3 H4]. replace (log ++ Died x :: ev) with ((log ++ [Died x]) ++ ev) by now rewrite <- app_assoc.
    assert (ND : NoDup (x :: m)) by (eapply Permutation_NoDup; eauto). inversion ND as [|? ? N1 N2]; subst.
    assert (IN : forall y, In y l <-> y = x \/ In y m).
    { intros y. split; intros X; [apply (Permutation_in _ P) in X; destruct X; auto|]. apply (Permutation_in _ (Permutation_sym P)). destruct X as [->|X]; [now left|now right]. }
    apply IH. constructor.
    + intros y. rewrite !in_app_iff. cbn [In]. split.
      * intros X. destruct (proj1 (H1 y)) as (Y & Z); [apply IN; now right|]. split; [now left|]. intros [U|[U|[]]]; [auto|]. injection U as <-. contradiction.
      * intros ([X|[X|[]]] & Y); [|discriminate].
        assert (L : In y l) by (apply H1; split; [exact X|]; intros Z; apply Y; now left).
        apply IN in L as [->|L]; [|exact L]. exfalso. apply Y. right. now left.
    + exact N2.
    + intros y X. apply in_app_or in X as [X|[X|[]]]; [now apply H3|discriminate].
    + apply legal_snoc; [exact H4|]. apply H1. apply IN. now left.
Qed.
Lemma hist0 : hist [] 0 [].
Proof. constructor; [intros x; cbn; tauto|constructor|intros x []|]. intros [|? ?] e b E; discriminate. Qed.

(** * One step *)
Definition abs {A} (l : list (option (obj A))) (aw : list (option (aobj A))) : Prop :=
  length l = length aw /\ forall i, stands_for (get l i) (get aw i).
Lemma abs_upd {A} (l : list (option (obj A))) aw i x y : abs l aw -> stands_for x y -> abs (upd l i x) (upd aw i y).
Proof. intros [L H] S. split; [now rewrite !length_upd|]. intros j. rewrite !get_upd, L. destruct andb; auto. Qed.
Lemma abs_snoc {A} (l : list (option (obj A))) aw x y : abs l aw -> stands_for x y -> abs (l ++ [x]) (aw ++ [y]).
Proof. intros [L H] S. split; [rewrite !app_length; cbn; lia|]. intros j. rewrite !get_app, L. destruct Nat.eqb; auto. Qed.
Lemma s_opt {A} n (v : A) : stands_for (Some (OOpt (mkOpt true (Some (n, v))))) (Some (AOpt (Some v))).
Proof. exists (Some (n, v)). split; [split; reflexivity|reflexivity]. Qed.
Lemma s_none {A} : stands_for (Some (@OOpt A (mkOpt false None))) (Some (AOpt None)).
Proof. exists None. split; [split; reflexivity|reflexivity]. Qed.
Lemma s_ok {A} n (v : A) : stands_for (Some (ORes (mkRes true (HasValue (n, v))))) (Some (ARes (inl v))).
Proof. exists (inl (n, v)). split; [split; reflexivity|reflexivity]. Qed.
Lemma s_err {A} n (v : A) : stands_for (Some (ORes (mkRes false (HasError (n, v))))) (Some (ARes (inr v))).
Proof. exists (inr (n, v)). split; [split; reflexivity|reflexivity]. Qed.

(** The objects there can be, and what they stand for. *)
Inductive cases {A} : option (obj A) -> option (aobj A) -> Prop :=
| c_none : cases None None
| c_empty : cases (Some (OOpt (mkOpt false None))) (Some (AOpt None))
| c_full n v : cases (Some (OOpt (mkOpt true (Some (n, v))))) (Some (AOpt (Some v)))
| c_ok n v : cases (Some (ORes (mkRes true (HasValue (n, v))))) (Some (ARes (inl v)))
| c_err n v : cases (Some (ORes (mkRes false (HasError (n, v))))) (Some (ARes (inr v))).
Lemma stands_cases {A} (x : option (obj A)) y : stands_for x y -> cases x y.
Proof.
  destruct x as [[o|r]|], y as [[m|s]|]; cbn; try contradiction; intros H; try constructor.
  - destruct H as (p & H & ->). rewrite (opt_is_eq _ _ H). destruct p as [[n v]|]; constructor.
  - destruct H as (p & H & ->). rewrite (res_is_eq _ _ H). destruct p as [[n v]|[n v]]; constructor.
Qed.

Definition step_ok {A} (mvd : A -> A) (nm : bool) (w : oworld A) aw (o : oop A) : Prop :=
  exists w' ev a, ostep mvd nm w o = Ret (w', ev, a) /\ trace (ow_next w) (held w) ev (ow_next w') (held w') /\
    abs (ow_objs w') (fst (astep mvd nm aw o)) /\ a = snd (astep mvd nm aw o).

Lemma held_snoc {A} (l : list (option (obj A))) x : Permutation (flat_map payload_ids (l ++ [x])) (payload_ids x ++ flat_map payload_ids l).
Proof. rewrite flat_map_app. cbn [flat_map]. rewrite app_nil_r. apply Permutation_app_comm. Qed.

(** A step that changes nothing. *)
Lemma same_trace {A} (w : oworld A) : trace (ow_next w) (held w) [] (ow_next w) (held w).
Proof. constructor. reflexivity. Qed.
Lemma used_trace {A} (w : oworld A) x : In x (held w) -> trace (ow_next w) (held w) [Used x] (ow_next w) (held w).
Proof. intros I. constructor; [exact I|apply same_trace]. Qed.
Lemma in_held {A} (w : oworld A) i o x : get (ow_objs w) i = Some o -> In x (payload_ids (Some o)) -> In x (held w).
Proof. intros G I. unfold held. apply in_flat_map. exists (Some o). split; [|exact I]. unfold get in G. rewrite <- G. apply nth_In. now apply (get_some _ _ _ G). Qed.

Lemma trace_perm n l ev n' l' : trace n l ev n' l' -> forall k k', Permutation l k -> Permutation l' k' -> trace n k ev n' k'.
Proof.
  induction 1 as [n l l' P|n l ev n' l' T IH|n l x ev n' l' I T IH|n l x m ev n' l' P T IH]; intros k k' P1 P2.
  - constructor. now rewrite <- P1, P.
  - constructor. apply IH; auto.
  - constructor; auto. eapply Permutation_in; eauto.
  - econstructor; [rewrite <- P1; exact P|]. apply IH; auto.
Qed.
(** One object (of payload ids [a]) becomes another ([b]). *)
Lemma trace_one {A} (w : oworld A) i o (x : option (obj A)) ev nx : get (ow_objs w) i = Some o ->
  (forall m, trace (ow_next w) (payload_ids (Some o) ++ m) ev nx (payload_ids x ++ m)) ->
  trace (ow_next w) (held w) ev nx (flat_map payload_ids (upd (ow_objs w) i x)).
Proof.
  intros G T. destruct (flat_one payload_ids _ _ _ G) as (m & P & Q). specialize (T m). specialize (Q x). fold (held w) in P.
  eapply trace_perm; [exact T|now symmetry|now symmetry].
Qed.
Lemma trace_two {A} (w : oworld A) i j o o' (x y : option (obj A)) ev nx : i <> j -> get (ow_objs w) i = Some o -> get (ow_objs w) j = Some o' ->
  (forall m, trace (ow_next w) (payload_ids (Some o) ++ payload_ids (Some o') ++ m) ev nx (payload_ids x ++ payload_ids y ++ m)) ->
  trace (ow_next w) (held w) ev nx (flat_map payload_ids (upd (upd (ow_objs w) i x) j y)).
Proof.
  intros N G G' T. destruct (flat_two payload_ids _ _ _ _ _ N G G') as (m & P & Q). eapply trace_perm; [exact (T m)|now symmetry|]. symmetry. apply Q.
Qed.
Lemma trace_snoc {A} (w : oworld A) (x : option (obj A)) ev nx : 
  (forall m, trace (ow_next w) m ev nx (payload_ids x ++ m)) ->
  trace (ow_next w) (held w) ev nx (flat_map payload_ids (ow_objs w ++ [x])).
Proof. intros T. eapply trace_perm; [apply (T (held w))|reflexivity|]. symmetry. apply held_snoc. Qed.

(** Traces over explicit lists of living objects. *)
Lemma pull_next {A} (a x : A) l m : Permutation l (x :: m) -> Permutation (a :: l) (x :: a :: m).
Proof. intros P. rewrite P. apply perm_swap. Qed.
Ltac pull := lazymatch goal with
  | |- Permutation (?x :: _) (?x :: _) => apply perm_skip; apply Permutation_refl
  | |- Permutation (?a :: _) (?x :: _) => eapply pull_next; pull
  end.
Ltac perm := lazymatch goal with
  | |- Permutation ?a ?a => apply Permutation_refl
  | |- Permutation (?x :: _) (?x :: _) => apply perm_skip; perm
  | |- Permutation _ (?x :: _) => eapply (@perm_trans _ _ (x :: _)); [pull|apply perm_skip; perm]
  end.
Ltac tr := cbn [payload_ids storage r_store fst app o_construct r_emplace r_leave opt_none opt_of]; lazymatch goal with
  | |- trace _ _ [] _ _ => apply t_nil; perm
  | |- trace _ _ (Born _ :: _) _ _ => apply t_born; tr
  | |- trace _ _ (Used _ :: _) _ _ => apply t_used; [cbn [In]; tauto|]; tr
  | |- trace _ _ (Died _ :: _) _ _ => eapply t_died; [pull|]; tr
  end.

Lemma made_ok {A} (w : oworld A) aw ne arg mk amk : abs (ow_objs w) aw -> (forall n v, stands_for (Some (mk n v)) (Some (amk v))) ->
  (forall n v, payload_ids (Some (mk n v)) = [n]) -> (arg = None -> ne = false) ->
  exists w' ev a, omake w ne arg mk = Ret (w', ev, a) /\ trace (ow_next w) (held w) ev (ow_next w') (held w') /\
    abs (ow_objs w') (fst (made aw arg amk)) /\ a = snd (made aw arg amk).
Proof.
  intros R S P N. destruct arg as [v|]; cbn [omake made].
  - do 3 eexists. split; [reflexivity|]. cbn [fst snd oadd ow_objs ow_next]. unfold held at 2. cbn [oadd ow_objs]. split; [|split; [now apply abs_snoc|reflexivity]].
    apply trace_snoc. intros m. rewrite P. tr.
  - rewrite N by reflexivity. do 3 eexists. split; [reflexivity|]. split; [apply same_trace|]. split; [exact R|reflexivity].
Qed.

Ltac done_step := unfold o_destroy, r_destroy; cbn [engaged storage r_ok r_store bind fst snd app]; do 3 eexists; split; [reflexivity|]; cbn [fst snd ow_objs ow_next oput]; unfold held at 2; cbn [ow_objs oadd oput].
Ltac same_step R := do 3 eexists; split; [reflexivity|]; split; [first [apply same_trace|apply t_nil; reflexivity]|]; split; [exact R|reflexivity].

Lemma opt_swap_ok {A} (mvd : A -> A) nm (w : oworld A) aw i j fail : abs (ow_objs w) aw -> mthrow nm fail = false -> step_ok mvd nm w aw (OptSwap i j fail).
Proof.
  intros R T. unfold step_ok. cbn [ostep astep]. rewrite T. destruct R as [L R].
  pose proof (stands_cases _ _ (R i)) as C1. pose proof (stands_cases _ _ (R j)) as C2.
  destruct (get (ow_objs w) i) as [o|] eqn:G1; [|unfold opt_swap; rewrite G1; inversion C1; same_step (conj L R)].
  destruct (get (ow_objs w) j) as [o'|] eqn:G2; [|unfold opt_swap; rewrite G1, G2; inversion C1; inversion C2; subst; same_step (conj L R)].
  unfold opt_swap. rewrite G1, G2. inversion C1; inversion C2; subst; cbn [opt_isSome engaged opt_payload storage bind fst snd]; try (same_step (conj L R)).
  - do 3 eexists. split; [reflexivity|]. cbn [fst snd ow_next ow_objs]. split; [apply t_nil; reflexivity|]. split; [|reflexivity].
    rewrite (upd_id aw i), (upd_id aw j) by congruence. split; assumption.
  - assert (N : i <> j) by (intros ->; congruence). done_step. unfold o_construct, oput.
    split; [|split; [apply abs_upd; [apply abs_upd; [split; assumption|apply s_opt]|apply s_none]|reflexivity]].
    eapply trace_two; try eassumption. intros m. tr.
  - assert (N : i <> j) by (intros ->; congruence). done_step. unfold o_construct, oput.
    rewrite (upd_comm _ j i) by lia.
    split; [|split; [apply abs_upd; [apply abs_upd; [split; assumption|apply s_none]|apply s_opt]|reflexivity]].
    eapply trace_two; try eassumption. intros m. tr.
  - destruct (Nat.eq_dec i j) as [<-|N].
    + assert (E : n0 = n /\ v0 = v) by (rewrite G1 in G2; split; congruence). destruct E as [-> ->].
      unfold oput. erewrite get_upd_same by exact G1. cbn [opt_payload storage bind fst snd engaged]. done_step. rewrite !upd_upd.
      split; [|split; [apply abs_upd; [split; assumption|apply s_opt]|reflexivity]].
      eapply trace_one; [exact G1|]. intros m. tr.
    + unfold oput. rewrite get_upd_other by lia. rewrite G1. cbn [opt_payload storage bind fst snd engaged]. done_step.
      rewrite upd4 by exact N.
      split; [|split; [apply abs_upd; [apply abs_upd; [split; assumption|apply s_opt]|apply s_opt]|reflexivity]].
      eapply trace_two; try eassumption. intros m. tr.
Qed.

Lemma res_swap_ok {A} (mvd : A -> A) nm (w : oworld A) aw i j fail : abs (ow_objs w) aw -> mthrow nm fail = false -> i <> j -> step_ok mvd nm w aw (ResSwap i j fail).
Proof.
  intros R T N. unfold step_ok. cbn [ostep astep]. rewrite T. destruct R as [L R].
  pose proof (stands_cases _ _ (R i)) as C1. pose proof (stands_cases _ _ (R j)) as C2.
  destruct (get (ow_objs w) i) as [o|] eqn:G1; [|unfold res_swap; rewrite G1; inversion C1; same_step (conj L R)].
  destruct (get (ow_objs w) j) as [o'|] eqn:G2; [|unfold res_swap; rewrite G1, G2; inversion C1; inversion C2; subst; same_step (conj L R)].
  unfold res_swap. rewrite G1, G2.
  inversion C1; inversion C2; subst; try (same_step (conj L R));
    unfold r_payload, res_value, res_error, res_isOk, r_leave, r_emplace; cbn [r_ok r_store bind fst snd r_leave]; unfold oput;
    (erewrite get_upd_same by exact G1); unfold r_destroy; cbn [r_ok r_store bind fst snd];
    rewrite upd_upd, get_upd_other by exact N; rewrite G2; cbn [r_ok r_store bind fst snd r_leave r_emplace];
    rewrite get_upd_other by exact N; (erewrite get_upd_same by (rewrite get_upd_other by exact N; exact G2)); unfold r_destroy; cbn [r_ok r_store bind fst snd r_leave r_emplace app];
    done_step; rewrite (upd_comm _ j i), !upd_upd by auto;
    (split; [eapply trace_two; try eassumption; intros m; tr|]);
    (split; [apply abs_upd; [apply abs_upd; [split; assumption|]|]; first [apply s_ok|apply s_err]|reflexivity]).
Qed.

Lemma step_all {A} (mvd : A -> A) nm (w : oworld A) aw o : abs (ow_objs w) aw -> o_orderly nm o -> step_ok mvd nm w aw o.
Proof.
  intros R O.
  destruct o as [|arg|arg|i fail|i fail|i|i j fail|i v fail|i j fail|i|arg|arg|arg|arg|i fail|i j fail|i|i|i];
    [| | | | | |apply opt_swap_ok; assumption| | | | | | | | |destruct O; apply res_swap_ok; assumption| | |]; unfold step_ok; cbn [ostep astep].
  - done_step. split; [apply trace_snoc; intros m; tr|]. split; [apply abs_snoc; [exact R|apply s_none]|reflexivity].
  - apply made_ok; [exact R|intros; apply s_opt|reflexivity|]. intros ->. exact O.
  - apply made_ok; [exact R|intros; apply s_opt|reflexivity|]. intros ->. exact O.
  - pose proof R as [L R']. pose proof (stands_cases _ _ (R' i)) as C. destruct (get (ow_objs w) i) as [x|] eqn:G; inversion C; subst; try (same_step R).
    + done_step. cbn [opt_isSome engaged]. split; [apply trace_snoc; intros m; tr|]. split; [apply abs_snoc; [exact R|apply s_none]|reflexivity].
    + unfold opt_isSome, opt_payload; cbn [engaged storage bind fst snd]. destruct fail.
      * do 3 eexists. split; [reflexivity|]. split; [apply used_trace; eapply in_held; [exact G|now left]|]. split; [exact R|reflexivity].
      * done_step. split; [|split; [apply abs_snoc; [exact R|apply s_opt]|reflexivity]]. apply t_used; [eapply in_held; [exact G|now left]|]. apply trace_snoc. intros m. tr.
  - pose proof R as [L R']. pose proof (stands_cases _ _ (R' i)) as C. destruct (get (ow_objs w) i) as [x|] eqn:G; inversion C; subst; try (same_step R).
    + done_step. cbn [opt_isSome engaged]. split; [apply trace_snoc; intros m; tr|]. split; [apply abs_snoc; [exact R|apply s_none]|reflexivity].
    + unfold opt_isSome, opt_payload; cbn [engaged storage bind fst snd]. destruct (mthrow nm fail).
      * do 3 eexists. split; [reflexivity|]. split; [apply used_trace; eapply in_held; [exact G|now left]|]. split; [exact R|reflexivity].
      * done_step. unfold oput. split; [|split; [apply abs_snoc; [apply abs_upd; [exact R|]|]; apply s_opt|reflexivity]].
        eapply trace_perm with (l := held w); [|reflexivity|symmetry; apply held_snoc].
        destruct (flat_one payload_ids _ _ _ G) as (m & P & Q). eapply trace_perm; [|symmetry; exact P|apply Permutation_app_head; symmetry; apply Q]. tr.
  - pose proof R as [L R']. pose proof (stands_cases _ _ (R' i)) as C. destruct (get (ow_objs w) i) as [x|] eqn:G; inversion C; subst; try (same_step R).
    + done_step. split; [eapply trace_one; [exact G|]; intros m; tr|]. split; [apply abs_upd; [exact R|apply s_none]|reflexivity].
    + done_step. split; [eapply trace_one; [exact G|]; intros m; tr|]. split; [apply abs_upd; [exact R|apply s_none]|reflexivity].
  - pose proof R as [L R']. pose proof (stands_cases _ _ (R' i)) as C. destruct (get (ow_objs w) i) as [x|] eqn:G; inversion C; subst; try (same_step R);
      unfold o_destroy; cbn [engaged storage bind fst snd]; destruct (mthrow nm fail);
      (done_step; split; [eapply trace_one; [exact G|]; intros m; tr|]; split; [apply abs_upd; [exact R|first [apply s_none|apply s_opt]]|reflexivity]).
  - cbn in O. pose proof R as [L R']. pose proof (stands_cases _ _ (R' i)) as C1. pose proof (stands_cases _ _ (R' j)) as C2.
    destruct (get (ow_objs w) i) as [x|] eqn:G1; inversion C1; subst; try (same_step R);
    (destruct (get (ow_objs w) j) as [y|] eqn:G2; inversion C2; subst; try (same_step R));
      unfold opt_get, opt_isNone, o_destroy, opt_payload, oput; cbn [engaged negb storage bind fst snd]; rewrite get_upd_other by exact O; rewrite G2; cbn [storage bind fst snd];
      destruct (mthrow nm fail).
    + done_step. split; [|split; [apply abs_upd; [exact R|apply s_none]|reflexivity]].
      apply t_used; [eapply in_held; [exact G2|now left]|]. eapply trace_one; [exact G1|]. intros m. tr.
    + done_step. rewrite (upd_comm _ j i), upd_upd by auto. rewrite (upd_comm aw j i) by auto.
      split; [eapply trace_two; [exact O|exact G1|exact G2|]; intros m; tr|]. split; [apply abs_upd; [apply abs_upd; [exact R|]|]; apply s_opt|reflexivity].
    + done_step. split; [|split; [apply abs_upd; [exact R|apply s_none]|reflexivity]].
      rewrite <- (upd_id (upd (ow_objs w) i (Some (OOpt {| engaged := false; storage := None |}))) j _ (eq_trans (get_upd_other _ _ _ _ O) G2)).
      eapply trace_two; [exact O|exact G1|exact G2|]. intros m; tr.
    + done_step. rewrite (upd_comm _ j i), upd_upd by auto. rewrite (upd_comm aw j i) by auto.
      split; [eapply trace_two; [exact O|exact G1|exact G2|]; intros m; tr|]. split; [apply abs_upd; [apply abs_upd; [exact R|]|]; apply s_opt|reflexivity].
  - pose proof R as [L R']. pose proof (stands_cases _ _ (R' i)) as C. destruct (get (ow_objs w) i) as [x|] eqn:G; inversion C; subst; try (same_step R).
    do 3 eexists. split; [reflexivity|]. split; [apply used_trace; eapply in_held; [exact G|now left]|]. split; [exact R|reflexivity].
  - apply made_ok; [exact R|intros; apply s_ok|reflexivity|]. intros ->. exact O.
  - apply made_ok; [exact R|intros; apply s_err|reflexivity|]. intros ->. exact O.
  - apply made_ok; [exact R|intros; apply s_ok|reflexivity|]. reflexivity.
  - apply made_ok; [exact R|intros; apply s_err|reflexivity|]. reflexivity.
  - pose proof R as [L R']. pose proof (stands_cases _ _ (R' i)) as C. destruct (get (ow_objs w) i) as [x|] eqn:G; inversion C; subst; try (same_step R);
      unfold r_payload, res_value, res_error, res_isOk, r_leave, r_emplace; cbn [r_ok r_store bind fst snd]; (destruct (mthrow nm fail);
      [do 3 eexists; split; [reflexivity|]; split; [apply used_trace; eapply in_held; [exact G|now left]|]; split; [exact R|reflexivity]|]);
      (done_step; unfold oput; split; [|split; [apply abs_snoc; [apply abs_upd; [exact R|]|]; first [apply s_ok|apply s_err]|reflexivity]]);
      (eapply trace_perm with (l := held w); [|reflexivity|symmetry; apply held_snoc]);
      (destruct (flat_one payload_ids _ _ _ G) as (m & P & Q); eapply trace_perm; [|symmetry; exact P|apply Permutation_app_head; symmetry; apply Q]; tr).
  - pose proof R as [L R']. pose proof (stands_cases _ _ (R' i)) as C. destruct (get (ow_objs w) i) as [x|] eqn:G; inversion C; subst; try (same_step R).
    do 3 eexists. split; [reflexivity|]. split; [apply used_trace; eapply in_held; [exact G|now left]|]. split; [exact R|reflexivity].
  - pose proof R as [L R']. pose proof (stands_cases _ _ (R' i)) as C. destruct (get (ow_objs w) i) as [x|] eqn:G; inversion C; subst; try (same_step R).
    do 3 eexists. split; [reflexivity|]. split; [apply used_trace; eapply in_held; [exact G|now left]|]. split; [exact R|reflexivity].
  - pose proof R as [L R']. pose proof (stands_cases _ _ (R' i)) as C. destruct (get (ow_objs w) i) as [x|] eqn:G; inversion C; subst;
      [done_step; split; [eapply trace_one; [exact G|]; intros m; tr|]; split; [apply abs_upd; [exact R|exact I]|reflexivity] ..|].
    do 3 eexists. split; [reflexivity|]. split; [apply same_trace|]. split; [|reflexivity]. cbn [fst]. split; [rewrite length_upd; exact L|].
    intros k. rewrite get_upd. destruct (Nat.eqb_spec i k) as [<-|]; cbn [andb]; [|apply R']. destruct Nat.ltb; [rewrite G; exact I|apply R'].
Qed.

Lemma run_all {A} (mvd : A -> A) nm ops : Forall (o_orderly nm) ops -> forall (w : oworld A) aw log, abs (ow_objs w) aw -> hist log (ow_next w) (held w) ->
  exists w' ev, orun mvd nm w ops = Ret (w', ev, snd (arun mvd nm aw ops)) /\ hist (log ++ ev) (ow_next w') (held w') /\ abs (ow_objs w') (fst (arun mvd nm aw ops)).
Proof.
  induction 1 as [|o ops O F IH]; intros w aw log R H; cbn [orun arun].
  - exists w, []. rewrite app_nil_r. auto.
  - destruct (step_all mvd nm w aw o R O) as (w1 & ev & a & E & T & R1 & ->). rewrite E. cbn [bind]. destruct (astep mvd nm aw o) as [aw1 a]. cbn [fst snd] in *.
    destruct (IH w1 aw1 (log ++ ev) R1 (hist_trace _ _ _ _ _ T _ H)) as (w2 & ev2 & E2 & H2 & R2). rewrite E2. cbn [bind].
    destruct (arun mvd nm aw1 ops) as [aw2 r]. cbn [fst snd] in *. exists w2, (ev ++ ev2). rewrite app_assoc. auto.
Qed.
