From Verif Require Import Base BaseLemmas MemViewModel MemoryModel MemoryProofs ContainerModel ContainerSpec ContainerProofs AliasModel AliasSpec.
Local Arguments get : simpl never.

Lemma refer_spec {A} sz (c : cont A) es a : 0 < sz -> holds sz Vec c es ->
  match meant (map snd es) a with
  | Some x => exists r, refer sz c a = Ret r /\ deref (c_buf c) r = Ret x /\ match r with Other y => a = Value y | Place i => a = Elem (N.of_nat i) /\ (i < length es)%nat end
  | None => refer sz c a = Throws IndexOutOfRange
  end.
Proof.
  intros S H. destruct a as [x|j]; cbn [meant refer]; [exists (Other x); auto|].
  pose proof H as (r & B & L & Lt & V & _). rewrite V. destruct (nth_error (map snd es) (N.to_nat j)) as [x|] eqn:E.
  - assert (J : (N.to_nat j < length es)%nat) by (rewrite <- (map_length snd); apply nth_error_Some; congruence).
    destruct (N.leb_spec (N.of_nat (length es)) j); [lia|].
    pose proof (view_bytes sz Vec c es j S H ltac:(lia)) as VB. unfold u64. rewrite (N.mod_small (sz * j)) by lia. rewrite N.mod_small by lia.
    destruct (N.ltb_spec (v_size (cont_view sz c)) (sz * j + sz)); [lia|]. exists (Place (N.to_nat j)). split; [reflexivity|]. split; [|split; [now rewrite N2Nat.id|exact J]].
    cbn [deref]. rewrite B, nth_error_app1 by (rewrite map_length; exact J). rewrite nth_error_map in *. destruct (nth_error es (N.to_nat j)); [|discriminate].
    cbn [option_map] in *. congruence.
  - apply nth_error_None in E. rewrite map_length in E. destruct (N.leb_spec (N.of_nat (length es)) j); [reflexivity|lia].
Qed.

Lemma deref_slots {A} sz (c : cont A) es i : holds sz Vec c es -> (i < length es)%nat -> exists e, nth_error es i = Some e /\ nth_error (b_slots (c_buf c)) i = Some (Some e).
Proof.
  intros (r & B & _) I. destruct (nth_error es i) as [e|] eqn:E; [|apply nth_error_None in E; lia]. exists e. split; [reflexivity|].
  rewrite B, nth_error_app1 by (rewrite map_length; exact I). now rewrite nth_error_map, E.
Qed.
Lemma nth_upd {A} (l : list A) i j x : nth_error (upd l i x) j = if Nat.eqb i j then match nth_error l i with Some _ => Some x | None => None end else nth_error l j.
Proof.
  revert i j. induction l as [|y l IH]; intros [|i] [|j]; cbn [upd nth_error Nat.eqb]; try reflexivity; [now destruct (Nat.eqb i j)|].
  apply IH.
Qed.

(** fill *)
Lemma fill_spec {A} (x : A) r n : forall i b (es : list (nat * A)) q, b_slots b = map Some es ++ repeat None q -> (i + n = length es)%nat ->
  (forall y, nth_error es i = Some y -> deref b r = Ret x) ->
  match r with Other y => y = x | Place k => exists e, nth_error es k = Some e /\ snd e = x end ->
  exists es', fill_ref n i b r = Ret (mkBuf (b_bytes b) (map Some es' ++ repeat None q)) /\ length es' = length es /\ map snd es' = firstn i (map snd es) ++ repeat x n.
Proof.
  induction n as [|n IH]; intros i b es q B L D R; cbn [fill_ref].
  - exists es. split; [destruct b as [bb ss]; cbn in *; congruence|]. split; [reflexivity|]. cbn [repeat]. rewrite app_nil_r, firstn_all2; [reflexivity|rewrite map_length; lia].
  - destruct (nth_error es i) as [e|] eqn:E; [|apply nth_error_None in E; lia]. rewrite (D e eq_refl). cbn [bind].
    assert (nth_error (b_slots b) i = Some (Some e)) as ->.
    { rewrite B, nth_error_app1 by (rewrite map_length; lia). now rewrite nth_error_map, E. }
    destruct (set_at es q i e (fst e, x) E) as (es1 & U & L1 & E1).
    assert (R1 : match r with Other y => y = x | Place k => exists e, nth_error es1 k = Some e /\ snd e = x end).
    { destruct r as [y|k]; [exact R|]. destruct R as (f & F & X). rewrite E1, nth_upd. destruct (Nat.eqb_spec i k) as [->|NE]; [rewrite E; now exists (fst e, x)|]. now exists f. }
    destruct (IH (S i) (mkBuf (b_bytes b) (upd (b_slots b) i (Some (fst e, x)))) es1 q) as (es' & F & L' & V).
    + cbn [b_slots]. now rewrite B.
    + lia.
    + intros y _. destruct r as [z|k]; cbn [deref b_slots]; [now rewrite R1|]. destruct R1 as (f & F & X). rewrite B, U, nth_error_app1.
      * rewrite nth_error_map, F. cbn. now rewrite X.
      * rewrite map_length. apply nth_error_Some. congruence.
    + exact R1.
    + exists es'. rewrite F. cbn [b_bytes]. split; [reflexivity|]. split; [lia|]. rewrite V, E1.
      destruct (upd_split es i e E) as (a & c & Q1 & Q2 & Q3). rewrite Q3, Q1. rewrite !map_app. cbn [map snd repeat].
      assert (firstn (S i) (map snd a ++ x :: map snd c) = map snd a ++ [x]) as ->.
      { rewrite firstn_app, map_length, Q2. replace (S i - i)%nat with 1%nat by lia. rewrite firstn_all2 by (rewrite map_length; lia). reflexivity. }
      rewrite firstn_app, map_length, Q2, Nat.sub_diag, firstn_all2 by (rewrite map_length; lia). cbn [firstn]. rewrite app_nil_r, <- app_assoc. reflexivity.
Qed.
(** indexOf *)
Lemma find_spec {A} eqb (b : buf A) r x : deref b r = Ret x -> forall (es : list (nat * A)) i,
  find_ref eqb b r i (map Some es) = Ret (match position eqb x (map snd es) with Some k => Some (i + k) | None => None end).
Proof.
  intros D. induction es as [|e es IH]; intros i; cbn [map find_ref position]; [reflexivity|]. rewrite D. cbn [bind]. destruct (eqb x (snd e)); [now rewrite N.add_0_r|].
  rewrite IH. destruct (position eqb x (map snd es)); [|reflexivity]. f_equal. f_equal. lia.
Qed.

Lemma replace_spec {A} sz next (c : cont A) es i a r x : 0 < sz -> holds sz Vec c es -> refer sz c a = Ret r -> deref (c_buf c) r = Ret x ->
  match r with Other y => a = Value y | Place k => a = Elem (N.of_nat k) /\ (k < length es)%nat end ->
  if i <? N.of_nat (length es) then
    if itself i a then replace_ref sz next c i r = UB
    else exists c' es', replace_ref sz next c i r = Ret (c', S next, ADone) /\ holds sz Vec c' es' /\ map snd es' = replaced i x (map snd es) /\ b_bytes (c_buf c') = b_bytes (c_buf c)
  else replace_ref sz next c i r = Ret (c, next, AThrew IndexOutOfRange).
Proof.
  intros S H RF D R. pose proof H as (q & B & L & Lt & V & Vle & Va & K). unfold replace_ref. rewrite V.
  destruct (N.ltb_spec i (N.of_nat (length es))) as [C|C]; destruct (N.leb_spec (N.of_nat (length es)) i) as [C'|C']; try lia; [|reflexivity].
  assert (CV : cont_view sz c = mkView (Some 0) (v_size (cont_view sz c))) by (rewrite cont_view_is; reflexivity).
  rewrite CV, place_is by (try assumption; try lia; fold (view_size sz (cont_view sz c)); lia). rewrite place_slot_is by assumption. cbn [bind].
  destruct (deref_slots sz c es (N.to_nat i) H ltac:(lia)) as (e & E & Es). unfold dtor_at. rewrite Es. cbn [bind fst snd].
  destruct (itself i a) eqn:IT.
  - destruct r as [y|k]; [subst a; discriminate|]. destruct R as (-> & R). cbn [itself] in IT. apply N.eqb_eq in IT. subst i. rewrite Nat2N.id in *.
    cbn [deref b_slots]. rewrite nth_upd, Nat.eqb_refl, Es. reflexivity.
  - assert (deref (mkBuf (b_bytes (c_buf c)) (upd (b_slots (c_buf c)) (N.to_nat i) None)) r = Ret x) as ->.
    { destruct r as [y|k]; [exact D|]. destruct R as (-> & R). cbn [itself] in IT. apply N.eqb_neq in IT. cbn [deref b_slots] in *. rewrite nth_upd.
      destruct (Nat.eqb_spec (N.to_nat i) k); [lia|exact D]. }
    cbn [bind]. unfold ctor_at. cbn [b_slots b_bytes]. rewrite length_upd.
    assert (LS : (N.to_nat i < length (b_slots (c_buf c)))%nat) by (apply nth_error_Some; congruence).
    destruct (Nat.ltb_spec (N.to_nat i) (length (b_slots (c_buf c)))); [|lia]. cbn [bind].
    apply nth_error_split in E as (u & w & -> & Lu).
    eexists _, (u ++ (next, x) :: w). split; [reflexivity|]. split; [|split].
    + rewrite B, map_app, <- app_assoc. cbn [map app]. rewrite <- Lu, !upd_map_mid.
      eapply holds_same; [exact H| | |].
      * rewrite !app_length. reflexivity.
      * rewrite map_app, <- app_assoc. cbn [map app]. reflexivity.
      * rewrite B, map_app, <- app_assoc. cbn [map app]. rewrite !(app_length (map Some u)). reflexivity.
    + unfold replaced. rewrite !map_app. cbn [map snd]. rewrite <- Lu. rewrite <- (map_length snd u).
      rewrite firstn_app, firstn_all, Nat.sub_diag. cbn [firstn]. rewrite app_nil_r. f_equal. f_equal.
      rewrite skipn_app, skipn_all2 by lia. replace (Datatypes.S (length (map snd u)) - length (map snd u))%nat with 1%nat by lia. reflexivity.
    + reflexivity.
Qed.

Definition agrees {A} (sz : N) (room : N) (x : outcome (cont A * nat * aans A)) (y : option (list A * aans A)) : Prop :=
  match y with
  | None => x = UB
  | Some (l, a) => exists c nx es, x = Ret (c, nx, a) /\ holds sz Vec c es /\ map snd es = l /\ b_bytes (c_buf c) = room
  end.

Lemma astep_spec {A} eqb sz next (c : cont A) es o : 0 < sz -> holds sz Vec c es ->
  agrees sz (b_bytes (c_buf c)) (astep eqb sz next c o) (aspec eqb (vec_capacity sz c) (map snd es) o).
Proof.
  intros S H. pose proof H as (q & B & L & Lt & V & Vle & Va & K). specialize (K eq_refl).
  assert (SAME : forall a, agrees sz (b_bytes (c_buf c)) (Ret (c, next, a)) (Some (map snd es, a))) by (intros a; exists c, next, es; auto).
  destruct o as [a| |i a|i a|a|a|i]; cbn [astep aspec]; rewrite ?map_length; unfold with_ref;
    try (pose proof (refer_spec sz c es a S H) as RF; destruct (meant (map snd es) a) as [x|] eqn:M; [destruct RF as (r & RF & D & R)|]).
  - rewrite RF. unfold push_ref, vec_size. rewrite K. destruct (N.leb_spec (vec_capacity sz c) (N.of_nat (length es))) as [C|C].
    + destruct (N.ltb_spec (N.of_nat (length es)) (vec_capacity sz c)); [lia|]. apply SAME.
    + destruct (N.ltb_spec (N.of_nat (length es)) (vec_capacity sz c)); [|lia]. rewrite D. cbn [bind].
      destruct (emplace_spec sz next c es (Some x) S H) as [(C' & _)|(_ & c' & E & H' & BB)]; [lia|]. rewrite E. cbn [bind].
      exists c', (Datatypes.S next), (es ++ [(next, x)]). rewrite map_app. auto.
  - rewrite RF. apply SAME.
  - destruct es as [|e es'] using rev_ind.
    + rewrite (pop_empty sz c H). cbn [bind fst]. apply SAME.
    + clear IHes'. destruct (pop_spec sz c es' e S H) as (c' & E & H' & BB). rewrite E. cbn [bind fst]. exists c', next, es'. split; [reflexivity|]. split; [exact H'|]. split; [|exact BB].
      rewrite map_app. cbn [map]. now rewrite removelast_last.
  - rewrite RF. pose proof (replace_spec sz next c es i a r x S H RF D R) as P. destruct (i <? N.of_nat (length es)).
    + destruct (itself i a); [exact P|]. destruct P as (c' & es' & E & H' & V' & BB). exists c', (Datatypes.S next), es'. auto.
    + rewrite P. apply SAME.
  - rewrite RF. apply SAME.
  - rewrite V. destruct (N.leb_spec (N.of_nat (length es)) i) as [C|C]; destruct (N.ltb_spec i (N.of_nat (length es))); try lia; [apply SAME|]. rewrite RF, D. cbn [bind].
    destruct (set_spec sz Vec c es i (Some x) S H) as (c' & an & es' & E & H' & _ & X). destruct (N.leb_spec (N.of_nat (length es)) i); [lia|]. destruct X as (-> & X).
    pose proof (set_bytes sz c i (Some x) c' AOk E) as BB. rewrite E. cbn [bind fst snd]. exists c', next, es'. split; [reflexivity|]. split; [exact H'|]. split; [|exact BB].
    rewrite X. unfold replaced. apply upd_sections. rewrite map_length. lia.
  - rewrite V. destruct (N.leb_spec (N.of_nat (length es)) i); [apply SAME|]. rewrite RF. apply SAME.
  - rewrite RF, V, Nat2N.id.
    destruct (fill_spec x r (length es) 0 (c_buf c) es q B eq_refl) as (es' & E & L' & X).
    + intros; exact D.
    + destruct r as [y|k]; [cbn [deref] in D; congruence|]. destruct R as (-> & R). destruct (deref_slots sz c es k H R) as (e & E1 & E2). exists e. split; [exact E1|].
      cbn [deref] in D. rewrite E2 in D. congruence.
    + rewrite E. cbn [bind]. eexists _, next, es'. split; [reflexivity|]. split; [|split].
      * eapply holds_same; [exact H|exact L'|reflexivity|]. rewrite B, !app_length, !map_length. lia.
      * rewrite X. reflexivity.
      * reflexivity.
  - rewrite RF. apply SAME.
  - rewrite RF, (elems_holds sz Vec c es H), (find_spec eqb (c_buf c) r x D es 0). cbn [bind]. destruct (position eqb x (map snd es)); apply SAME.
  - rewrite RF. apply SAME.
  - rewrite (at_spec sz Vec c es i S H). destruct (nth_error (map snd es) (N.to_nat i)); apply SAME.
Qed.

Lemma arun_spec {A} eqb sz room : 0 < sz -> forall ops next (c : cont A) es, holds sz Vec c es -> b_bytes (c_buf c) = room ->
  match aspec_run eqb (room / sz) (map snd es) ops with
  | None => arun eqb sz next c ops = UB
  | Some (l, r) => exists c', arun eqb sz next c ops = Ret (c', r) /\ contents_of sz c' = Ret l
  end.
Proof.
  intros S. induction ops as [|o ops IH]; intros next c es H E; cbn [aspec_run arun].
  - exists c. split; [reflexivity|]. exact (contents_spec sz Vec c es H).
  - pose proof (astep_spec eqb sz next c es o S H) as P. unfold vec_capacity in P. rewrite E in P. unfold agrees in P.
    destruct (aspec eqb (room / sz) (map snd es) o) as [(l & a)|]; [|now rewrite P].
    destruct P as (c1 & nx & es1 & -> & H1 & <- & E1). cbn [bind]. specialize (IH nx c1 es1 H1 E1).
    destruct (aspec_run eqb (room / sz) (map snd es1) ops) as [(l2 & r)|]; [|now rewrite IH].
    destruct IH as (c' & -> & X). cbn [bind fst snd]. exists c'. auto.
Qed.
