From Verif Require Import Base BaseLemmas PathIterModel PathIterSpec.

Lemma nth_change {A} (l : list A) : forall k x j, nth_error (change_at l k x) j =
  if Nat.eqb j k then match nth_error l k with Some _ => Some x | None => None end else nth_error l j.
Proof. induction l as [|y l IH]; intros [|k] x [|j]; cbn; try reflexivity; [now destruct (Nat.eqb j k)|apply IH]. Qed.
Lemma length_change {A} (l : list A) : forall k x, length (change_at l k x) = length l.
Proof. induction l; intros [|k] x; cbn; auto. Qed.
Lemma nth_last {A} (l : list A) x j : nth_error (l ++ [x]) j = if Nat.eqb j (length l) then Some x else nth_error l j.
Proof.
  destruct (Nat.eqb_spec j (length l)) as [-> |H]; [rewrite nth_error_app2, Nat.sub_diag by lia; reflexivity|].
  destruct (Nat.lt_ge_cases j (length l)); [now rewrite nth_error_app1|].
  rewrite nth_error_app2 by lia. destruct (j - length l)%nat as [|[|m]] eqn:E; [lia| |]; cbn; symmetry; apply nth_error_None; lia.
Qed.
Lemma nth_Some_lt {A} (l : list A) k x : nth_error l k = Some x -> (k < length l)%nat.
Proof. intros H. apply nth_error_Some. congruence. Qed.

(** ** Memory *)
Definition holds (mem : strings) (p : N) (cs : list (list N)) : Prop := forall i, (i < length cs)%nat -> slot mem (p + N.of_nat i) = nth_error cs i.
Definition within (p : N) (n : nat) (q : N) : Prop := p <= q < p + N.of_nat n.

Lemma slot_construct cs : forall mem p q, slot (construct mem p cs) q =
  if (p <=? q) && (q <? p + N.of_nat (length cs)) then nth_error cs (N.to_nat (q - p)) else slot mem q.
Proof.
  induction cs as [|c cs IH]; intros mem p q; cbn [construct slot length].
  { destruct (N.leb_spec p q); destruct (N.ltb_spec q (p + N.of_nat 0)); try lia; reflexivity. }
  rewrite IH. destruct (N.eqb_spec p q) as [-> |H].
  - rewrite N.leb_refl, (proj2 (N.ltb_lt _ _)) by lia. now rewrite N.sub_diag.
  - destruct (N.leb_spec (p + 1) q); destruct (N.ltb_spec q (p + 1 + N.of_nat (length cs)));
      destruct (N.leb_spec p q); destruct (N.ltb_spec q (p + N.of_nat (S (length cs)))); try lia; cbn [andb]; try reflexivity.
    replace (N.to_nat (q - p)) with (S (N.to_nat (q - (p + 1)))) by lia. reflexivity.
Qed.
Lemma slot_filter mem p q : slot (filter (fun e => negb (fst e =? p)) mem) q = if q =? p then None else slot mem q.
Proof.
  induction mem as [|[r t] mem IH]; cbn [filter slot fst]; [now destruct (q =? p)|].
  destruct (N.eqb_spec r p) as [-> |H]; cbn [negb slot]; rewrite IH.
  - destruct (N.eqb_spec p q) as [-> |]; [now rewrite N.eqb_refl|reflexivity].
  - destruct (N.eqb_spec r q) as [-> |]; [|reflexivity]. now rewrite (proj2 (N.eqb_neq _ _)).
Qed.
Lemma holds_cons mem p c cs : holds mem p (c :: cs) -> slot mem p = Some c /\ holds mem (p + 1) cs.
Proof.
  intros H. split; [specialize (H 0%nat); cbn in H; rewrite N.add_0_r in H; apply H; lia|].
  intros i Hi. specialize (H (S i)). cbn [length nth_error] in H. rewrite <- H by lia. f_equal. lia.
Qed.
Lemma holds_ext mem mem' p cs : holds mem p cs -> (forall q, within p (length cs) q -> slot mem' q = slot mem q) -> holds mem' p cs.
Proof. intros H E i Hi. rewrite E by (unfold within; lia). now apply H. Qed.

Lemma destroy_ok cs : forall mem p, holds mem p cs -> exists mem', destroy mem p (length cs) = Ret mem' /\
  forall q, ~ within p (length cs) q -> slot mem' q = slot mem q.
Proof.
  induction cs as [|c cs IH]; intros mem p H; cbn [destroy length]; [eauto|].
  destruct (holds_cons _ _ _ _ H) as (H0 & H1). rewrite H0.
  destruct (IH (filter (fun e => negb (fst e =? p)) mem) (p + 1)) as (mem' & E & S).
  { apply holds_ext with (1 := H1). intros q W. rewrite slot_filter, (proj2 (N.eqb_neq _ _)); [reflexivity|unfold within in W; lia]. }
  exists mem'. split; [exact E|]. intros q W. rewrite S by (unfold within in *; lia). rewrite slot_filter, (proj2 (N.eqb_neq _ _)); [reflexivity|].
  unfold within in W. lia.
Qed.
Lemma take_ok cs : forall mem p, holds mem p cs -> exists mem', take_all mem p (length cs) = Ret (mem', cs) /\
  holds mem' p (map (fun _ => []) cs) /\ forall q, ~ within p (length cs) q -> slot mem' q = slot mem q.
Proof.
  induction cs as [|c cs IH]; intros mem p H; cbn [take_all length]; [exists mem; repeat split; intros i Hi; cbn in Hi; lia|].
  destruct (holds_cons _ _ _ _ H) as (H0 & H1). rewrite H0.
  destruct (IH ((p, []) :: mem) (p + 1)) as (mem' & E & Hm & S).
  { apply holds_ext with (1 := H1). intros q W. cbn [slot]. rewrite (proj2 (N.eqb_neq _ _)); [reflexivity|unfold within in W; lia]. }
  rewrite E. cbn [bind fst snd]. exists mem'. split; [reflexivity|]. split.
  - intros [|i] Hi; cbn [map nth_error].
    + rewrite N.add_0_r, S by (unfold within; lia). cbn [slot]. now rewrite N.eqb_refl.
    + cbn [map length] in Hi. rewrite <- Hm by lia. f_equal. lia.
  - intros q W. rewrite S by (unfold within in *; lia). cbn [slot]. rewrite (proj2 (N.eqb_neq _ _)); [reflexivity|]. unfold within in W. lia.
Qed.
Lemma walk_ok cs : forall mem p, holds mem p cs -> walk mem p (length cs) = Ret cs.
Proof.
  induction cs as [|c cs IH]; intros mem p H; cbn [walk length]; [reflexivity|].
  destruct (holds_cons _ _ _ _ H) as (H0 & H1). rewrite H0, IH by assumption. reflexivity.
Qed.

(** ** Lists *)
Lemma F2_nth {A B} (R : A -> B -> Prop) l m : Forall2 R l m -> forall k,
  match nth_error l k, nth_error m k with Some x, Some y => R x y | None, None => True | _, _ => False end.
Proof. induction 1 as [|x y l m H _ IH]; intros [|k]; cbn; auto. apply IH. Qed.
Lemma F2_of_nth {A B} (R : A -> B -> Prop) : forall l m, length l = length m ->
  (forall k x y, nth_error l k = Some x -> nth_error m k = Some y -> R x y) -> Forall2 R l m.
Proof.
  induction l as [|x l IH]; intros [|y m] L H; try discriminate; [constructor|]. injection L as L. constructor; [now apply (H 0%nat)|].
  apply IH; [assumption|]. intros k u v. apply (H (S k)).
Qed.
Lemma F2_length {A B} (R : A -> B -> Prop) l m : Forall2 R l m -> length l = length m.
Proof. induction 1; cbn; congruence. Qed.
Lemma F2_impl {A B} (R Q : A -> B -> Prop) l m : (forall x y, R x y -> Q x y) -> Forall2 R l m -> Forall2 Q l m.
Proof. intros H. induction 1; constructor; auto. Qed.
Lemma F2_change {A B} (R : A -> B -> Prop) l m k x y : Forall2 R l m -> R x y -> Forall2 R (change_at l k x) (change_at m k y).
Proof. intros F H. revert k. induction F; intros [|k]; cbn; constructor; auto. Qed.
Lemma F2_last {A B} (R : A -> B -> Prop) l m x y : Forall2 R l m -> R x y -> Forall2 R (l ++ [x]) (m ++ [y]).
Proof. intros F H. apply Forall2_app; [assumption|]. repeat constructor. assumption. Qed.

(** ** The two worlds; [bs] tells where each sequence is *)
Definition at_of (bs : list N) (b : option nat) (p : option N) : Prop :=
  match b with None => p = None | Some k => exists x, p = Some x /\ nth_error bs k = Some x end.
Definition mem_rel (bs : list N) (mem : strings) (seqs : list sequence) : Prop :=
  length bs = length seqs /\
  (forall k p q, nth_error bs k = Some p -> nth_error seqs k = Some q -> s_alive q = true -> holds mem p (s_comps q)) /\
  (forall k p q k' p' q' x, nth_error bs k = Some p -> nth_error seqs k = Some q -> s_alive q = true ->
    nth_error bs k' = Some p' -> nth_error seqs k' = Some q' -> s_alive q' = true ->
    within p (length (s_comps q)) x -> within p' (length (s_comps q')) x -> k = k').
Definition path_rel (bs : list N) (seqs : list sequence) (o : option pobj) (b : option (option nat)) : Prop :=
  match o, b with
  | None, None => True
  | Some o, Some b => at_of bs b (po_at o) /\ po_n o = size (comps_of seqs b) /\ alive_of seqs b = true
  | _, _ => False
  end.
Definition one_owner (ps : list (option (option nat))) : Prop :=
  forall a a' k, nth_error ps a = Some (Some (Some k)) -> nth_error ps a' = Some (Some (Some k)) -> a = a'.
Definition iter_rel (bs : list N) (seqs : list sequence) (x : pit) (y : N * option nat) : Prop :=
  it_index x = fst y /\ at_of bs (snd y) (it_at x) /\ it_n x = size (comps_of seqs (snd y)).
Definition related (w : pworld) (s : sworld) : Prop := exists bs,
  mem_rel bs (pw_mem w) (sw_seqs s) /\ Forall2 (path_rel bs (sw_seqs s)) (pw_paths w) (sw_paths s) /\
  one_owner (sw_paths s) /\ Forall2 (iter_rel bs (sw_seqs s)) (pw_iters w) (sw_iters s).

Lemma at_of_seq bs mem seqs k p : mem_rel bs mem seqs -> at_of bs (Some k) p -> exists x q, p = Some x /\ nth_error bs k = Some x /\ nth_error seqs k = Some q.
Proof.
  intros (L & _) (x & -> & E). pose proof (nth_Some_lt _ _ _ E). destruct (nth_error seqs k) as [q|] eqn:Eq; [eauto|].
  apply nth_error_None in Eq. lia.
Qed.

(** A component looked at. *)
Lemma look_ok bs mem seqs b p n i x : mem_rel bs mem seqs -> at_of bs b p -> n = size (comps_of seqs b) -> look seqs b i = Some x -> comp_at mem p n i = Ret x.
Proof.
  intros M A -> H. unfold look in H. unfold comp_at.
  destruct (nth_error (comps_of seqs b) (N.to_nat i)) as [t|] eqn:E.
  - pose proof (nth_Some_lt _ _ _ E) as Lt. destruct (N.leb_spec (size (comps_of seqs b)) i) as [G|G]; [unfold size in G; lia|].
    destruct b as [k|]; [|destruct (N.to_nat i); discriminate].
    destruct (at_of_seq _ _ _ _ _ M A) as (y & q & -> & Eb & Eq). cbn [comps_of alive_of] in *. rewrite Eq in *.
    destruct (s_alive q) eqn:Al; [|discriminate]. injection H as <-. destruct M as (_ & H & _). specialize (H k y q Eb Eq Al (N.to_nat i) Lt).
    rewrite N2Nat.id in H. rewrite H, E. reflexivity.
  - injection H as <-. apply nth_error_None in E. destruct (N.leb_spec (size (comps_of seqs b)) i) as [G|G]; [reflexivity|unfold size in G; lia].
Qed.

Lemma size_length {A} (l : list A) : N.to_nat (size l) = length l.
Proof. unfold size. lia. Qed.

Lemma comps_change seqs k q b : nth_error seqs k <> None -> comps_of (change_at seqs k q) b = if match b with Some j => Nat.eqb j k | None => false end then s_comps q else comps_of seqs b.
Proof.
  intros H. destruct b as [j|]; [|reflexivity]. cbn [comps_of]. rewrite nth_change. destruct (Nat.eqb_spec j k) as [-> |]; [|reflexivity].
  destruct (nth_error seqs k); congruence.
Qed.
Lemma alive_change seqs k q b : nth_error seqs k <> None -> alive_of (change_at seqs k q) b = if match b with Some j => Nat.eqb j k | None => false end then s_alive q else alive_of seqs b.
Proof.
  intros H. destruct b as [j|]; [|reflexivity]. cbn [alive_of]. rewrite nth_change. destruct (Nat.eqb_spec j k) as [-> |]; [|reflexivity].
  destruct (nth_error seqs k); congruence.
Qed.

(** Sequences of the same lengths leave the iterators as they are. *)
Lemma iters_same bs seqs k q its sits : nth_error seqs k <> None -> length (s_comps q) = length (comps_of seqs (Some k)) ->
  Forall2 (iter_rel bs seqs) its sits -> Forall2 (iter_rel bs (change_at seqs k q)) its sits.
Proof.
  intros H L. apply F2_impl. intros x [i b] (E1 & E2 & E3). repeat split; try assumption. rewrite comps_change by assumption. cbn [snd] in *.
  destruct b as [j|]; [|assumption]. destruct (Nat.eqb_spec j k) as [-> |]; [|assumption]. rewrite E3. unfold size. now rewrite L.
Qed.

(** The memory of one sequence is changed. *)
Lemma mem_change bs mem mem' seqs k p q cs al : mem_rel bs mem seqs -> nth_error bs k = Some p -> nth_error seqs k = Some q -> s_alive q = true ->
  length cs = length (s_comps q) -> (al = true -> holds mem' p cs) -> (forall x, ~ within p (length (s_comps q)) x -> slot mem' x = slot mem x) ->
  mem_rel bs mem' (change_at seqs k (mkSeq al cs)).
Proof.
  intros (L & H & D) Eb Eq Al Lc Hc S. split; [|split].
  - now rewrite length_change.
  - intros j p' q' Eb' Eq' Al'. rewrite nth_change, Eq in Eq'. destruct (Nat.eqb_spec j k) as [-> |Hj].
    + injection Eq' as <-. cbn [s_alive s_comps] in *. rewrite Eb in Eb'. injection Eb' as <-. auto.
    + apply holds_ext with (1 := H j p' q' Eb' Eq' Al'). intros x W. apply S. intros W'. apply Hj. eapply (D j p' q' k p q x); eassumption.
  - intros j p1 q1 j' p2 q2 x B1 Q1 A1 B2 Q2 A2 W1 W2. rewrite nth_change, Eq in Q1, Q2.
    assert (G : forall j0 p0 q0, nth_error bs j0 = Some p0 -> (if Nat.eqb j0 k then Some (mkSeq al cs) else nth_error seqs j0) = Some q0 -> s_alive q0 = true ->
      within p0 (length (s_comps q0)) x -> exists q0', nth_error seqs j0 = Some q0' /\ s_alive q0' = true /\ within p0 (length (s_comps q0')) x).
    { intros j0 p0 q0 B0 Q0 A0 W0. destruct (Nat.eqb_spec j0 k) as [-> |]; [|eauto]. injection Q0 as <-. cbn [s_comps] in W0. rewrite Lc in W0. eauto. }
    destruct (G j p1 q1) as (q1' & Q1' & A1' & W1'); try assumption. destruct (G j' p2 q2) as (q2' & Q2' & A2' & W2'); try assumption.
    eapply (D j p1 q1' j' p2 q2' x); eassumption.
Qed.

Lemma mem_new bs mem seqs p cs : mem_rel bs mem seqs -> (forall i, i < size cs -> slot mem (p + i) = None) ->
  mem_rel (bs ++ [p]) (construct mem p cs) (seqs ++ [mkSeq true cs]).
Proof.
  intros (L & H & D) F.
  assert (Old : forall k p' q' x, nth_error bs k = Some p' -> nth_error seqs k = Some q' -> s_alive q' = true -> within p' (length (s_comps q')) x -> within p (length cs) x -> False).
  { intros k p' q' x B Q A W W'. specialize (H k p' q' B Q A (N.to_nat (x - p'))). unfold within in *.
    rewrite N2Nat.id in H. replace (p' + (x - p')) with x in H by lia. specialize (F (x - p)). replace (p + (x - p)) with x in F by lia.
    rewrite F in H by (unfold size; lia). symmetry in H. rewrite nth_error_None in H; lia. }
  split; [|split].
  - rewrite !app_length. cbn. lia.
  - intros k p' q' B Q A. rewrite nth_last in B. rewrite nth_last in Q. rewrite L in B. destruct (Nat.eqb_spec k (length seqs)) as [-> |Hk].
    + injection B as <-. injection Q as <-. cbn [s_comps]. intros i Hi. rewrite slot_construct.
      rewrite (proj2 (N.leb_le _ _)), (proj2 (N.ltb_lt _ _)) by lia. cbn [andb]. f_equal. lia.
    + apply holds_ext with (1 := H k p' q' B Q A). intros x W. rewrite slot_construct.
      destruct (N.leb_spec p x); destruct (N.ltb_spec x (p + N.of_nat (length cs))); cbn [andb]; try reflexivity.
      exfalso. apply (Old k p' q' x B Q A W). unfold within. lia.
  - intros k p1 q1 k' p2 q2 x B1 Q1 A1 B2 Q2 A2 W1 W2. rewrite nth_last in B1. rewrite nth_last in Q1. rewrite nth_last in B2. rewrite nth_last in Q2. rewrite L in B1, B2.
    destruct (Nat.eqb_spec k (length seqs)) as [Hk|Hk]; destruct (Nat.eqb_spec k' (length seqs)) as [Hk'|Hk']; [congruence| | |].
    + injection B1 as <-. injection Q1 as <-. exfalso. eapply (Old k' p2 q2 x); eassumption.
    + injection B2 as <-. injection Q2 as <-. exfalso. eapply (Old k p1 q1 x); eassumption.
    + eapply (D k p1 q1 k' p2 q2 x); eassumption.
Qed.

Lemma at_old bs b p x : at_of bs b x -> at_of (bs ++ [p]) b x.
Proof.
  destruct b as [k|]; [|auto]. intros (y & -> & E). exists y. split; [reflexivity|]. rewrite nth_error_app1; [assumption|]. eapply nth_Some_lt; eassumption.
Qed.
Lemma comps_old bs mem seqs q b x : mem_rel bs mem seqs -> at_of bs b x -> comps_of (seqs ++ [q]) b = comps_of seqs b /\ alive_of (seqs ++ [q]) b = alive_of seqs b.
Proof.
  intros M A. destruct b as [k|]; [|auto]. destruct (at_of_seq _ _ _ _ _ M A) as (y & q0 & _ & _ & E). cbn [comps_of alive_of].
  rewrite nth_error_app1 by (eapply nth_Some_lt; eassumption). auto.
Qed.

(** ** Owners *)
Lemma one_last ps b : one_owner ps -> (forall k, b = Some (Some k) -> forall a, nth_error ps a <> Some b) -> one_owner (ps ++ [b]).
Proof.
  intros O F a a' k E E'. rewrite nth_last in E, E'.
  destruct (Nat.eqb_spec a (length ps)) as [-> |]; destruct (Nat.eqb_spec a' (length ps)) as [-> |]; try reflexivity.
  - injection E as ->. exfalso. eapply F; eauto.
  - injection E' as ->. exfalso. eapply F; eauto.
  - eapply O; eassumption.
Qed.
Lemma one_clear ps a b : one_owner ps -> (forall k, b <> Some (Some k)) -> one_owner (change_at ps a b).
Proof.
  intros O F c c' k E E'. rewrite nth_change in E, E'.
  destruct (Nat.eqb_spec c a) as [-> |]; [destruct (nth_error ps a); [injection E as ->; exfalso; eapply F; reflexivity|discriminate]|].
  destruct (Nat.eqb_spec c' a) as [-> |]; [destruct (nth_error ps a); [injection E' as ->; exfalso; eapply F; reflexivity|discriminate]|].
  eapply O; eassumption.
Qed.
Lemma one_swap ps a b x y : one_owner ps -> nth_error ps a = Some x -> nth_error ps b = Some y -> one_owner (change_at (change_at ps a y) b x).
Proof.
  intros O Ea Eb c c' k E E'. rewrite !nth_change, Ea, Eb in E, E'.
  assert (G : forall d, (if Nat.eqb d b then (if Nat.eqb b a then Some x else Some x) else if Nat.eqb d a then Some y else nth_error ps d) = Some (Some (Some k)) ->
    nth_error ps (if Nat.eqb d b then a else if Nat.eqb d a then b else d) = Some (Some (Some k))).
  { intros d H. destruct (Nat.eqb d b); [destruct (Nat.eqb b a); congruence|]. destruct (Nat.eqb d a); congruence. }
  assert (G' : forall d, (if Nat.eqb d b then match (if Nat.eqb b a then Some y else Some y) with Some _ => Some x | None => None end
    else if Nat.eqb d a then Some y else nth_error ps d) = Some (Some (Some k)) ->
    nth_error ps (if Nat.eqb d b then a else if Nat.eqb d a then b else d) = Some (Some (Some k))).
  { intros d H. apply G. destruct (Nat.eqb d b); [destruct (Nat.eqb b a); exact H|exact H]. }
  apply G' in E. apply G' in E'. pose proof (O _ _ _ E E') as Q.
  destruct (Nat.eqb_spec c b); destruct (Nat.eqb_spec c' b); destruct (Nat.eqb_spec c a); destruct (Nat.eqb_spec c' a); congruence.
Qed.

(** ** One operation *)
Definition agree (r : outcome (pworld * pans)) (q : option (sworld * pans)) : Prop :=
  match q with None => True | Some (s', x) => exists w', r = Ret (w', x) /\ related w' s' end.

Lemma agree_path bs mem ps its seqs sps sits a f g :
  mem_rel bs mem seqs -> Forall2 (path_rel bs seqs) ps sps -> one_owner sps -> Forall2 (iter_rel bs seqs) its sits ->
  (forall o b, nth_error ps a = Some (Some o) -> nth_error sps a = Some (Some b) ->
    at_of bs b (po_at o) -> po_n o = size (comps_of seqs b) -> alive_of seqs b = true -> agree (f o) (g b)) ->
  agree (with_path (mkPWorld mem ps its) a f) (spath (mkSW seqs sps sits) a g).
Proof.
  intros M P O I H. unfold with_path, spath. cbn [pw_paths sw_paths]. pose proof (F2_nth _ _ _ P a) as R.
  destruct (nth_error ps a) as [[o|]|] eqn:E1; destruct (nth_error sps a) as [[b|]|] eqn:E2; try contradiction.
  - destruct R as (R1 & R2 & R3). eapply H; eauto.
  - eexists. split; [reflexivity|]. exists bs. auto.
  - eexists. split; [reflexivity|]. exists bs. auto.
Qed.
Lemma agree_iter bs mem ps its seqs sps sits i f g :
  mem_rel bs mem seqs -> Forall2 (path_rel bs seqs) ps sps -> one_owner sps -> Forall2 (iter_rel bs seqs) its sits ->
  (forall x b, nth_error its i = Some x -> nth_error sits i = Some (it_index x, b) -> iter_rel bs seqs x (it_index x, b) -> agree (f x) (g (it_index x) b)) ->
  agree (with_iter (mkPWorld mem ps its) i f) (siter (mkSW seqs sps sits) i g).
Proof.
  intros M P O I H. unfold with_iter, siter. cbn [pw_iters sw_iters]. pose proof (F2_nth _ _ _ I i) as R.
  destruct (nth_error its i) as [x|] eqn:E1; destruct (nth_error sits i) as [[k b]|] eqn:E2; try contradiction.
  - assert (k = it_index x) as -> by (destruct R as (R & _); cbn in R; congruence). apply H; auto.
  - eexists. split; [reflexivity|]. exists bs. auto.
Qed.

Lemma step_ok alloc w s o : alloc_ok alloc -> related w s -> agree (pstep alloc w o) (sstep s o).
Proof.
  intros Al (bs & M & P & O & I). destruct w as [mem ps its]. destruct s as [seqs sps sits]. cbn [pw_mem pw_paths pw_iters sw_seqs sw_paths sw_iters] in *.
  assert (Sw : forall a b, agree
    (with_path (mkPWorld mem ps its) a (fun x => with_path (mkPWorld mem ps its) b (fun y => Ret (mkPWorld mem (change_at (change_at ps a (Some y)) b (Some x)) its, QDone))))
    (spath (mkSW seqs sps sits) a (fun x => spath (mkSW seqs sps sits) b (fun y => Some (mkSW seqs (change_at (change_at sps a (Some y)) b (Some x)) sits, QDone))))).
  { intros a b. eapply agree_path; try eassumption. intros o1 b1 E1 F1 A1 N1 L1. eapply agree_path; try eassumption. intros o2 b2 E2 F2 A2 N2 L2.
    eexists. split; [reflexivity|]. exists bs. cbn [pw_mem pw_paths pw_iters sw_seqs sw_paths sw_iters]. repeat split; try assumption; try apply M.
    - apply F2_change; [apply F2_change; [assumption|]|]; repeat split; assumption.
    - now apply one_swap. }
  destruct o as [cs| |a|a b|a b|a|a|a|a|a i|a|a|i|i j|i j|i|i|i j|i j|i]; cbn [pstep sstep].
  - eexists. split; [reflexivity|]. exists (bs ++ [alloc mem (size cs)]). cbn [pw_mem pw_paths pw_iters sw_seqs sw_paths sw_iters]. split; [|split; [|split]].
    + apply mem_new; [assumption|]. intros i. apply Al.
    + apply F2_last.
      * eapply F2_impl; [|exact P]. intros [o|] [b|]; cbn [path_rel]; auto. intros (A & B & C).
        destruct (comps_old bs mem seqs (mkSeq true cs) b _ M A) as (-> & ->). auto using at_old.
      * cbn [path_rel at_of po_at po_n comps_of alive_of]. destruct M as (L & _). rewrite <- L, nth_error_app2, Nat.sub_diag by lia. rewrite L, nth_error_app2, Nat.sub_diag by lia. cbn. eauto.
    + apply one_last; [assumption|]. intros k E a H. pose proof (F2_nth _ _ _ P a) as R. rewrite H in R. destruct (nth_error ps a) as [[o|]|]; try contradiction.
      destruct R as ((x & _ & R) & _). destruct M as (L & _). apply nth_Some_lt in R. lia.
    + eapply F2_impl; [|exact I]. intros x [k b] (A & B & C). cbn [fst snd] in *. destruct (comps_old bs mem seqs (mkSeq true cs) b _ M B) as (E & _).
      repeat split; cbn [fst snd]; [assumption|now apply at_old|congruence].
  - eexists. split; [reflexivity|]. exists bs. cbn [pw_mem pw_paths pw_iters sw_seqs sw_paths sw_iters]. repeat split; try assumption; try apply M.
    + apply F2_last; [assumption|]. repeat split.
    + apply one_last; [assumption|]. intros k. discriminate.
  - eapply agree_path; try eassumption. intros o b E1 E2 A B C. eexists. split; [reflexivity|]. exists bs. cbn [pw_mem pw_paths pw_iters sw_seqs sw_paths sw_iters].
    repeat split; try assumption; try apply M.
    + apply F2_last; [apply F2_change; [assumption|repeat split]|repeat split; assumption].
    + apply one_last; [apply one_clear; [assumption|discriminate]|]. intros k Ek d H. rewrite nth_change, E2 in H.
      destruct (Nat.eqb_spec d a) as [Hd|Hd]; [congruence|]. apply Hd. injection Ek as ->. eapply O; eassumption.
  - apply Sw.
  - apply Sw.
  - eapply agree_path; try eassumption. intros o b E1 E2 A B C. unfold on_buffer. destruct b as [k|].
    + destruct (at_of_seq _ _ _ _ _ M A) as (p & q & Ep & Eb & Eq). rewrite Ep, B. cbn [set_seq comps_of alive_of] in *. rewrite Eq in *. rewrite size_length.
      pose proof M as (_ & H & _). destruct (destroy_ok (s_comps q) mem p (H k p q Eb Eq C)) as (mem' & -> & S). cbn [bind].
      eexists. split; [reflexivity|]. exists bs. cbn [pw_mem pw_paths pw_iters sw_seqs sw_paths sw_iters]. split; [|split; [|split]].
      * eapply mem_change; try eassumption; [reflexivity|discriminate].
      * apply F2_of_nth; [rewrite !length_change; eapply F2_length; eassumption|]. intros c x y Ex Ey. rewrite nth_change, E1 in Ex. rewrite nth_change, E2 in Ey.
        destruct (Nat.eqb_spec c a) as [-> |Hc]; [injection Ex as <-; injection Ey as <-; exact Logic.I|].
        pose proof (F2_nth _ _ _ P c) as R. rewrite Ex, Ey in R. destruct x as [x|]; destruct y as [y|]; cbn [path_rel] in *; try assumption.
        rewrite comps_change, alive_change by congruence. destruct y as [j|]; [|exact R]. destruct (Nat.eqb_spec j k) as [-> |]; [|exact R].
        exfalso. apply Hc. eapply O; eassumption.
      * apply one_clear; [assumption|discriminate].
      * apply iters_same; [congruence|cbn [comps_of s_comps]; now rewrite Eq|assumption].
    + cbn [at_of] in A. rewrite A. cbn [bind set_seq]. eexists. split; [reflexivity|]. exists bs. cbn [pw_mem pw_paths pw_iters sw_seqs sw_paths sw_iters].
      repeat split; try assumption; try apply M; [apply F2_change; [assumption|exact Logic.I]|apply one_clear; [assumption|discriminate]].
  - eapply agree_path; try eassumption. intros o b E1 E2 A B C. unfold on_buffer. destruct b as [k|].
    + destruct (at_of_seq _ _ _ _ _ M A) as (p & q & Ep & Eb & Eq). rewrite Ep, B. cbn [set_seq comps_of alive_of] in *. rewrite Eq in *. rewrite size_length.
      pose proof M as (_ & H & _). destruct (take_ok (s_comps q) mem p (H k p q Eb Eq C)) as (mem' & -> & Hh & S). cbn [bind fst snd].
      eexists. split; [reflexivity|]. exists bs. cbn [pw_mem pw_paths pw_iters sw_seqs sw_paths sw_iters]. split; [|split; [|split]].
      * eapply mem_change; try eassumption; [apply map_length|auto].
      * eapply F2_impl; [|exact P]. intros [x|] [y|]; cbn [path_rel]; auto. rewrite comps_change, alive_change by congruence.
        destruct y as [j|]; [|auto]. destruct (Nat.eqb_spec j k) as [-> |]; [|auto]. cbn [s_comps s_alive comps_of]. rewrite Eq.
        intros (R1 & R2 & R3). repeat split; [assumption|]. rewrite R2. unfold size. now rewrite map_length.
      * assumption.
      * apply iters_same; [congruence|cbn [comps_of s_comps]; now rewrite Eq, map_length|assumption].
    + cbn [at_of] in A. rewrite A. cbn [bind set_seq fst snd comps_of]. eexists. split; [reflexivity|]. exists bs. auto.
  - eapply agree_path; try eassumption. intros o b E1 E2 A B C. unfold on_buffer. destruct b as [k|].
    + destruct (at_of_seq _ _ _ _ _ M A) as (p & q & Ep & Eb & Eq). rewrite Ep, B. cbn [comps_of alive_of] in *. rewrite Eq in *. rewrite size_length.
      pose proof M as (_ & H & _). rewrite (walk_ok (s_comps q) mem p (H k p q Eb Eq C)). cbn [bind].
      eexists. split; [reflexivity|]. exists bs. auto.
    + cbn [at_of] in A. rewrite A. cbn [bind comps_of]. eexists. split; [reflexivity|]. exists bs. auto.
  - eapply agree_path; try eassumption. intros o b E1 E2 A B C. rewrite B. eexists. split; [reflexivity|]. exists bs. auto.
  - eapply agree_path; try eassumption. intros o b E1 E2 A B C. destruct (look seqs b i) as [x|] eqn:El; [|exact Logic.I].
    rewrite (look_ok bs mem seqs b _ _ i x M A B El). eexists. split; [reflexivity|]. exists bs. auto.
  - eapply agree_path; try eassumption. intros o b E1 E2 A B C. eexists. split; [reflexivity|]. exists bs. cbn [pw_mem pw_paths pw_iters sw_seqs sw_paths sw_iters].
    repeat split; try assumption; try apply M. apply F2_last; [assumption|]. repeat split; assumption.
  - eapply agree_path; try eassumption. intros o b E1 E2 A B C. eexists. split; [reflexivity|]. exists bs. cbn [pw_mem pw_paths pw_iters sw_seqs sw_paths sw_iters].
    repeat split; try assumption; try apply M. apply F2_last; [assumption|]. repeat split; assumption.
  - eapply agree_iter; try eassumption. intros x b E1 E2 R. eexists. split; [reflexivity|]. exists bs. cbn [pw_mem pw_paths pw_iters sw_seqs sw_paths sw_iters].
    repeat split; try assumption; try apply M. now apply F2_last.
  - eapply agree_iter; try eassumption. intros x b E1 E2 R. eapply agree_iter; try eassumption. intros y c E3 E4 R'.
    eexists. split; [reflexivity|]. exists bs. cbn [pw_mem pw_paths pw_iters sw_seqs sw_paths sw_iters]. repeat split; try assumption; try apply M. now apply F2_change.
  - eapply agree_iter; try eassumption. intros x b E1 E2 R. eapply agree_iter; try eassumption. intros y c E3 E4 R'.
    eexists. split; [reflexivity|]. exists bs. cbn [pw_mem pw_paths pw_iters sw_seqs sw_paths sw_iters]. repeat split; try assumption; try apply M.
    apply F2_change; [now apply F2_change|assumption].
  - eapply agree_iter; try eassumption. intros x b E1 E2 R. eexists. split; [reflexivity|]. exists bs. cbn [pw_mem pw_paths pw_iters sw_seqs sw_paths sw_iters].
    repeat split; try assumption; try apply M. apply F2_change; [assumption|]. destruct R as (_ & R1 & R2). repeat split; assumption.
  - eapply agree_iter; try eassumption. intros x b E1 E2 R. destruct (look seqs b (it_index x)) as [t|] eqn:El; [|exact Logic.I]. destruct R as (_ & R1 & R2).
    rewrite (look_ok bs mem seqs b _ _ _ t M R1 R2 El). eexists. split; [reflexivity|]. exists bs. auto.
  - eapply agree_iter; try eassumption. intros x b E1 E2 R. eapply agree_iter; try eassumption. intros y c E3 E4 R'. eexists. split; [reflexivity|]. exists bs. auto.
  - eapply agree_iter; try eassumption. intros x b E1 E2 R. eapply agree_iter; try eassumption. intros y c E3 E4 R'. eexists. split; [reflexivity|]. exists bs. auto.
  - eapply agree_iter; try eassumption. intros x b E1 E2 R. eexists. split; [reflexivity|]. exists bs. auto.
Qed.

Lemma run_ok alloc : alloc_ok alloc -> forall ops w s answers, related w s -> srun s ops = Some answers -> prun alloc w ops = Ret answers.
Proof.
  intros Al. induction ops as [|o ops IH]; intros w s answers R H; cbn [srun prun] in *; [now injection H as <-|].
  pose proof (step_ok alloc w s o Al R) as G. unfold agree in G. destruct (sstep s o) as [[s' x]|]; [|discriminate].
  destruct G as (w' & -> & R'). cbn [bind fst snd]. destruct (srun s' ops) as [l|] eqn:E; [|discriminate]. injection H as <-.
  now rewrite (IH w' s' l R' E).
Qed.
