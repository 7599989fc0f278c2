From Verif Require Import Base BaseLemmas MemViewModel MemoryModel MemoryProofs ContainerModel ContainerSpec ContainerProofs ContainerValueModel ContainerValueSpec.
Local Arguments get : simpl never.

Section Proofs.
Context {A : Type}.
Variable eqb : A -> A -> bool.
Variable sz : N.
Hypothesis S0 : 0 < sz.
Implicit Types (w : world A) (s : vals A) (c : cont A).

(** A variable of the model and what it means. *)
Definition rel1 (o : option (kind * cont A)) (x : option (val A)) : Prop :=
  match o, x with
  | None, None => True
  | Some (k, c), Some v => exists es, holds sz k c es /\ c_n c = N.of_nat (length es) /\ v = mkVal k (b_bytes (c_buf c)) (map snd es)
  | _, _ => False
  end.
Definition rel w s : Prop := Forall2 rel1 (w_objs w) s.

Lemma rel_get w s i : rel w s -> rel1 (get (w_objs w) i) (vget s i).
Proof.
  intros R. unfold get, vget. revert i. induction R as [|o x l l' R1 R IH]; intros [|i]; cbn; auto.
Qed.
Lemma rel_upd l l' i o x : Forall2 rel1 l l' -> rel1 o x -> (i < length l)%nat -> Forall2 rel1 (upd l i o) (vput l' i x).
Proof.
  intros R R1. revert i. induction R as [|o' x' l l' R2 R IH]; intros i L; [cbn in L; lia|]. destruct i as [|i]; cbn in L.
  - constructor; assumption.
  - specialize (IH i ltac:(lia)). unfold vput in *. cbn [upd firstn skipn app]. constructor; assumption.
Qed.
Lemma rel_put w s i o x y : rel w s -> rel1 o x -> get (w_objs w) i = Some y -> Forall2 rel1 (upd (w_objs w) i o) (vput s i x).
Proof. intros R R1 G. apply rel_upd; auto. now apply get_some in G. Qed.
Lemma rel_snoc l s o x : Forall2 rel1 l s -> rel1 o x -> Forall2 rel1 (l ++ [o]) (s ++ [x]).
Proof. intros R R1. apply Forall2_app; [exact R|]. constructor; [exact R1|constructor]. Qed.

Lemma all_made_some (vs : list A) : all_made (map Some vs) = Some vs.
Proof. induction vs as [|v vs IH]; cbn; [reflexivity|]. now rewrite IH. Qed.
Lemma all_made_none (vs : list A) rest : all_made (map Some vs ++ None :: rest) = None.
Proof. induction vs as [|v vs IH]; cbn; [reflexivity|]. now rewrite IH. Qed.

Lemma holds_any k k' c es : holds sz k c es -> c_n c = N.of_nat (length es) -> holds sz k' c es.
Proof. intros (r & H1 & H2 & H3 & H4 & H5 & H6 & H7) E. exists r. auto 10. Qed.
(** Factories *)
Lemma added_rel w s k args : rel w s -> sz * N.of_nat (length args) < 2 ^ 64 ->
  exists w' ev a, added w k (make_cont sz (w_next w) (N.of_nat (length args)) args) = Ret (w', ev, a) /\
    rel w' (fst (made sz k s (all_made args))) /\ Answered a = snd (made sz k s (all_made args)).
Proof.
  intros R L. unfold added.
  assert (U : u64 (N.of_nat (length args) * sz) = sz * N.of_nat (length args)) by (unfold u64; rewrite N.mod_small; lia).
  destruct (make_spec sz (w_next w) (N.of_nat (length args)) args S0) as [(vs & c & E1 & E2 & H & En & Eb)|(vs & rest & E1 & E2)].
  - rewrite U. rewrite N.mul_comm. symmetry. apply N.div_mul. lia.
  - rewrite E2. cbn [bind]. eexists _, _, _. split; [reflexivity|]. rewrite E1, all_made_some. cbn [made fst snd]. split; [|reflexivity].
    unfold rel, add. cbn [w_objs]. apply rel_snoc; [exact R|]. exists (combine (seq (w_next w) (length vs)) vs).
    assert (LL : length (combine (seq (w_next w) (length vs)) vs) = length vs) by (rewrite combine_length, seq_length; lia).
    split; [|split].
    + apply (holds_any Arr); [exact H|]. rewrite En, LL, E1, map_length. reflexivity.
    + rewrite En, LL, E1, map_length. reflexivity.
    + rewrite Eb, U, E1, map_length, map_snd_combine by (now rewrite seq_length). reflexivity.
  - rewrite E2. cbn [bind]. eexists _, _, _. split; [reflexivity|]. rewrite E1, all_made_none. cbn [made fst snd]. split; [exact R|reflexivity].
Qed.

Lemma set_n c i v c' a : elem_set sz c i v = Ret (c', a) -> c_n c' = c_n c.
Proof.
  unfold elem_set. destruct (_ <=? _); [congruence|]. destruct (_ <? _); [congruence|]. destruct nth_error as [[e|]|]; destruct v; intros E; inversion E; reflexivity.
Qed.
Lemma emplace_n next c i v c' ev nx : elem_emplace sz next c i (Some v) = Ret (c', ev, nx, AOk) -> c_n c' = c_n c /\ b_bytes (c_buf c') = b_bytes (c_buf c).
Proof.
  unfold elem_emplace. destruct (_ <=? _); [discriminate|]. destruct (place_slot _ _) as [k| | | |]; try discriminate. cbn [bind].
  unfold dtor_at. destruct nth_error as [[e|]|]; try discriminate. cbn [bind fst snd]. unfold ctor_at. destruct (Nat.ltb _ _); [|discriminate].
  cbn [bind]. intros [= <- _ _]. split; reflexivity.
Qed.
Lemma vec_view w s i c : rel w s -> get (w_objs w) i = Some (Vec, c) ->
  exists es, holds sz Vec c es /\ vec_of s i = Some (mkVal Vec (b_bytes (c_buf c)) (map snd es)).
Proof.
  intros R G. pose proof (rel_get w s i R) as R1. rewrite G in R1. unfold vec_of. destruct (vget s i) as [x|]; [|contradiction].
  destruct R1 as (es & H & _ & ->). exists es. cbn. auto.
Qed.
Lemma vec_view_none w s i : rel w s -> (forall c, get (w_objs w) i <> Some (Vec, c)) -> vec_of s i = None.
Proof.
  intros R G. pose proof (rel_get w s i R) as R1. unfold vec_of. destruct (vget s i) as [x|]; [|reflexivity].
  destruct (get (w_objs w) i) as [[k c]|] eqn:E; [|contradiction]. destruct R1 as (es & _ & _ & ->). cbn. destruct k; [|reflexivity]. now destruct (G c).
Qed.
Lemma rel1_make k c es b l : holds sz k c es -> c_n c = N.of_nat (length es) -> b_bytes (c_buf c) = b -> map snd es = l -> rel1 (Some (k, c)) (Some (mkVal k b l)).
Proof. intros H E <- <-. exists es. auto. Qed.
Lemma vec_n c es : holds sz Vec c es -> c_n c = N.of_nat (length es).
Proof. intros (r & _ & _ & _ & _ & _ & _ & K). auto. Qed.
Lemma upd_same_get {B} (l : list (option B)) i y : get l i = Some y -> upd l i (Some y) = l.
Proof.
  unfold get. revert i; induction l as [|x l IH]; intros [|i] G; cbn [upd nth] in *; try discriminate; [now subst|]. f_equal. now apply IH.
Qed.
Lemma vput_same s i x : vget s i = Some x -> vput s i (Some x) = s.
Proof.
  unfold vget, vput. revert i; induction s as [|y s IH]; intros [|i] G; cbn in *; try discriminate; [now subst|]. f_equal. now apply IH.
Qed.
Ltac done := eexists _, _, _; (split; [reflexivity|]); (split; [|reflexivity]); unfold rel, add, put; cbn [w_objs fst snd].
Ltac skipped w s R G i := rewrite ?(vec_view_none w s i R) by (intros ?; rewrite G; discriminate); done; exact R.
Lemma plain_tidy_step w s o : rel w s -> tidy sz (Plain o) ->
  exists w' ev a, cstep sz w o = Ret (w', ev, a) /\ rel w' (fst (plain_step sz s o)) /\ Answered a = snd (plain_step sz s o).
Proof.
  intros R T. pose proof (fun i => rel_get w s i R) as RG. destruct o; cbn [cstep plain_step tidy orderly] in *.
  - done. apply rel_snoc; [exact R|].
    apply (rel1_make Vec _ []); auto. now apply holds_raw.
  - done. apply rel_snoc; [exact R|].
    apply (rel1_make Vec _ []); auto. apply holds_raw; [exact S0|]. apply N.mod_lt. lia.
  - now apply added_rel.
  - assert (E : N.to_nat (u64 (n * sz) / sz) = N.to_nat n) by (unfold u64; rewrite N.mod_small by lia; now rewrite N.div_mul by lia).
    rewrite E. set (args := map f (seq 0 (N.to_nat n))). assert (L : N.of_nat (length args) = n) by (unfold args; rewrite map_length, seq_length; lia).
    rewrite <- L. apply added_rel; [exact R|]. lia.
  - now apply added_rel.
  - destruct (get (w_objs w) i) as [[[] c]|] eqn:G; try (skipped w s R G i).
    destruct (vec_view w s i c R G) as (es & H & ->). cbn [v_room v_elems]. rewrite map_length.
    destruct (emplace_spec sz (w_next w) c es arg S0 H) as [(L & ->)|(L & X)]; unfold vec_capacity in L; cbn [bind].
    + destruct (N.leb_spec (b_bytes (c_buf c) / sz) (N.of_nat (length es))); [|lia]. done. now rewrite upd_same_get.
    + destruct (N.leb_spec (b_bytes (c_buf c) / sz) (N.of_nat (length es))); [lia|]. destruct arg as [v|].
      * destruct X as (c' & -> & H' & Eb). cbn [bind]. done.
        apply (rel_put w s i _ _ (Vec, c)); auto. apply (rel1_make Vec c' (es ++ [(w_next w, v)])); auto; [now apply vec_n|]. now rewrite map_app.
      * rewrite X. cbn [bind]. done. now rewrite upd_same_get.
  - destruct (get (w_objs w) i) as [[[] c]|] eqn:G; try (skipped w s R G i).
    destruct (vec_view w s i c R G) as (es & H & ->). cbn [v_room v_elems]. destruct es as [|e0 es0].
    + rewrite (pop_empty sz c H). cbn [bind fst snd]. done. apply (rel_put w s i _ _ (Vec, c)); auto. apply (rel1_make Vec c []); auto. now apply vec_n.
    + destruct (@exists_last _ (e0 :: es0)) as (es & e & E); [discriminate|]. rewrite E in *. destruct (pop_spec sz c es e S0 H) as (c' & -> & H' & Eb). cbn [bind fst snd].
      done. apply (rel_put w s i _ _ (Vec, c)); auto. apply (rel1_make Vec c' es); auto; [now apply vec_n|]. rewrite map_app. cbn [map]. now rewrite removelast_last.
  - destruct (get (w_objs w) i) as [[[] c]|] eqn:G; try (skipped w s R G i).
    destruct (vec_view w s i c R G) as (es & H & ->). cbn [v_room v_elems].
    destruct (clear_spec sz S0 es c (S (N.to_nat (c_n c)))) as (c' & -> & H' & Eb); [rewrite (vec_n c es H); lia|exact H|]. cbn [bind fst snd].
    done. apply (rel_put w s i _ _ (Vec, c)); auto. apply (rel1_make Vec c' []); auto. now apply vec_n.
  - destruct (get (w_objs w) i) as [[[] c]|] eqn:G; try (skipped w s R G i).
    destruct (vec_view w s i c R G) as (es & H & ->). cbn [v_room v_elems]. done.
    apply rel_snoc.
    + apply (rel_put w s i _ _ (Vec, c)); auto. apply (rel1_make Vec _ []); auto. now apply holds_none.
    + apply (rel1_make Arr c es); auto; [now apply (holds_any Vec), vec_n|now apply vec_n].
  - specialize (RG i). destruct (get (w_objs w) i) as [[k c]|] eqn:G; (destruct (vget s i) as [x|]; try contradiction); [|done; exact R].
    destruct RG as (es & H & En & ->). cbn [v_kind]. done. apply rel_snoc.
    + apply (rel_put w s i _ _ (k, c)); auto. apply (rel1_make k _ []); auto. now apply holds_none.
    + now apply (rel1_make k c es).
  - pose proof (RG i) as Ri. pose proof (RG j) as Rj. destruct (get (w_objs w) i) as [[k c]|] eqn:G; (destruct (vget s i) as [x|]; try contradiction); [|done; exact R].
    destruct (get (w_objs w) j) as [[k' c']|] eqn:G'; (destruct (vget s j) as [y|]; try contradiction); [|done; exact R].
    pose proof Ri as (es & H & En & Ex). pose proof Rj as (es' & H' & En' & Ey). subst x y. cbn [v_kind].
    assert (K : Bool.eqb (is_vec k) (is_vec k') = kind_eqb k k') by (destruct k, k'; reflexivity). rewrite K.
    destruct (kind_eqb k k') eqn:KE; [|done; exact R]. assert (k = k') as <- by (destruct k, k'; try reflexivity; discriminate). done.
    apply rel_upd; [|exact Ri|rewrite length_upd; now apply get_some in G'].
    apply (rel_put w s i _ _ (k, c)); auto.
  - destruct (get (w_objs w) i) as [[[] c]|] eqn:G; try (skipped w s R G i).
    destruct (vec_view w s i c R G) as (es & H & ->). cbn [v_room v_elems].
    unfold vec_dispose. rewrite (destroy_spec _ _ _ _ H). cbn [bind fst snd]. done.
    apply (rel_put w s i _ _ (Vec, c)); auto. apply (rel1_make Vec _ []); auto.
    destruct H as (r & B & L & Lt & _). apply (holds_make sz Vec _ 0 [] (length (b_slots (c_buf c)))); cbn [b_slots b_bytes]; auto. now rewrite repeat_length.
  - contradiction.
  - specialize (RG i). destruct (get (w_objs w) i) as [[kd c]|] eqn:G; (destruct (vget s i) as [x|] eqn:V; try contradiction); [|done; exact R].
    pose proof RG as (es & H & En & Ex). cbn [v_elems v_room v_kind]. subst x. cbn [v_elems v_room v_kind]. rewrite map_length.
    destruct (set_spec sz kd c es k v S0 H) as (c' & a & es' & E & H' & F & Q). rewrite E. cbn [bind fst snd].
    pose proof (set_n _ _ _ _ _ E) as En'. pose proof (set_bytes _ _ _ _ _ _ E) as Eb.
    assert (Rs : es' = es -> Forall2 rel1 (upd (w_objs w) i (Some (kd, c'))) s).
    { intros ->. rewrite <- (vput_same s i _ V). apply (rel_put w s i _ _ (kd, c)); auto. apply (rel1_make kd c' es); auto. congruence. }
    destruct (N.leb_spec (N.of_nat (length es)) k) as [L|L].
    + destruct Q as (-> & Q). done. auto.
    + destruct v as [y|]; destruct Q as (-> & Q); done.
      * apply (rel_put w s i _ _ (kd, c)); auto. apply (rel1_make kd c' es'); auto.
        -- rewrite En', En. apply (f_equal (@length _)) in F. rewrite !map_length in F. now rewrite F.
        -- rewrite Q. apply upd_sections. rewrite map_length. lia.
      * auto.
  - destruct arg as [v|]; [|contradiction].
    specialize (RG i). destruct (get (w_objs w) i) as [[kd c]|] eqn:G; (destruct (vget s i) as [x|] eqn:V; try contradiction); [|done; exact R].
    pose proof RG as (es & H & En & Ex). subst x. cbn [v_elems v_room v_kind]. rewrite map_length.
    destruct (view_emplace_spec sz (w_next w) kd c es k v S0 H) as [(L & ->)|(a & e & b & c' & E1 & La & E & H')]; cbn [bind].
    + destruct (N.leb_spec (N.of_nat (length es)) k) as [_|X]; [|lia]. done. now rewrite upd_same_get.
    + destruct (N.leb_spec (N.of_nat (length es)) k) as [X|_]; [rewrite E1, app_length in X; cbn [length] in X; lia|].
      destruct (emplace_n _ _ _ _ _ _ _ E) as (En' & Eb). rewrite E. cbn [bind]. done.
      apply (rel_put w s i _ _ (kd, c)); auto. apply (rel1_make kd c' (a ++ (w_next w, v) :: b)); auto.
      * rewrite En', En, E1, !app_length. reflexivity.
      * rewrite E1, !map_app. cbn [map snd]. rewrite <- La, firstn_map_app. do 2 f_equal.
        rewrite <- (map_length snd a). rewrite skipn_app. rewrite skipn_all2 by lia.
        now replace (S (length (map snd a)) - length (map snd a))%nat with 1%nat by lia.
  - specialize (RG i). destruct (get (w_objs w) i) as [[k c]|] eqn:G; (destruct (vget s i) as [x|] eqn:V; try contradiction); [|done; exact R].
    pose proof RG as (es & H & En & Ex). unfold vec_dispose, arr_dispose. rewrite (destroy_spec _ _ _ _ H). cbn [bind fst snd].
    destruct k; done; apply (rel_put w s i None None _ R Logic.I G).
Qed.

(** Copies are factory calls *)
Lemma copies_length fail (l : list A) : length (copies fail l) = length l.
Proof. destruct fail; cbn [copies]; rewrite ?length_upd, map_length; reflexivity. Qed.
Lemma copies_made fail (l : list A) :
  all_made (copies fail l) = if match fail with Some k => Nat.ltb k (length l) | None => false end then None else Some l.
Proof.
  destruct fail as [k|]; cbn [copies]; [|apply all_made_some].
  revert k; induction l as [|x l IH]; intros k; [reflexivity|]. destruct k as [|k]; [reflexivity|].
  cbn [map upd all_made]. rewrite IH. cbn [length]. change (Nat.ltb (S k) (S (length l))) with (Nat.ltb k (length l)).
  now destruct (Nat.ltb k (length l)).
Qed.
Lemma holds_room k c es : holds sz k c es -> sz * N.of_nat (length es) < 2 ^ 64.
Proof.
  intros (r & B & L & Lt & _). assert (N.of_nat (length es) <= b_bytes (c_buf c) / sz) by (rewrite <- L, B, app_length, map_length; lia).
  pose proof (div_mul_le sz _ _ S0 H). lia.
Qed.
(** The call of a factory a copy comes down to. *)
Definition copy_call (k : kind) (args : list (option A)) : cop A := match k with Vec => MakeVecOf args | Arr => MakeArrOf args end.
Lemma copy_is_make w i k c es fail : get (w_objs w) i = Some (k, c) -> holds sz k c es -> c_n c = N.of_nat (length es) ->
  vc_step eqb sz w (CopyC i true fail) = vc_step eqb sz w (Plain (copy_call k (copies fail (map snd es)))).
Proof.
  intros G H En. cbn [vc_step]. rewrite G.
  assert (L : N.of_nat (length (copies fail (map snd es))) = N.of_nat (length es)) by (rewrite copies_length, map_length; reflexivity).
  destruct k; cbn [copy_call cstep]; rewrite L.
  - unfold vec_copy. cbn [negb]. rewrite (contents_spec _ _ _ _ H). cbn [bind]. destruct H as (r & B & Ls & Lt & V & _). rewrite V.
    unfold added. destruct (make_cont _ _ _ _) as [[[[]]]| | | |]; reflexivity.
  - unfold arr_copy, arr_size. cbn [negb]. rewrite En. pose proof H as (r & B & Ls & Lt & V & _). rewrite B, app_length, map_length.
    destruct (N.ltb_spec (N.of_nat (length es + length (repeat (@None (nat * A)) r))) (N.of_nat (length es))); [lia|].
    rewrite Nat2N.id, firstn_map_app, values_some. cbn [bind].
    unfold added. destruct (make_cont _ _ _ _) as [[[[]]]| | | |]; reflexivity.
Qed.

(** Comparisons *)
Lemma same_elems_spec (es es' : list (nat * A)) : length es = length es' ->
  same_elems eqb (map Some es) (map Some es') = Ret (list_eqb eqb (map snd es) (map snd es')).
Proof.
  revert es'; induction es as [|e es IH]; intros [|e' es'] L; cbn in *; try discriminate; [reflexivity|].
  destruct (eqb (snd e) (snd e')); cbn; [apply IH; lia|reflexivity].
Qed.
Lemma same_values_spec (es : list (nat * A)) vs : length es = length vs ->
  same_values eqb (map Some es) vs = Ret (list_eqb eqb (map snd es) vs).
Proof.
  revert vs; induction es as [|e es IH]; intros [|v vs] L; cbn in *; try discriminate; [reflexivity|].
  destruct (eqb (snd e) v); cbn; [apply IH; lia|reflexivity].
Qed.
Lemma list_eqb_length (l l' : list A) : list_eqb eqb l l' = true -> length l = length l'.
Proof. revert l'; induction l as [|x l IH]; intros [|y l'] H; cbn in *; try discriminate; [reflexivity|]. apply andb_prop in H as [_ H]. f_equal. auto. Qed.
Lemma list_eqb_diff (l l' : list A) : length l <> length l' -> list_eqb eqb l l' = false.
Proof. intros H. destruct (list_eqb eqb l l') eqn:E; [|reflexivity]. now apply list_eqb_length in E. Qed.
Lemma equals_spec k c c' es es' same : holds sz k c es -> holds sz k c' es' ->
  cont_equals eqb sz same c c' = Ret (same || list_eqb eqb (map snd es) (map snd es'))%bool.
Proof.
  intros H H'. unfold cont_equals. destruct same; [reflexivity|]. cbn [orb].
  rewrite (elems_holds _ _ _ _ H), (elems_holds _ _ _ _ H'). destruct H as (r & _ & _ & _ & V & _), H' as (r' & _ & _ & _ & V' & _). rewrite V, V'.
  destruct (N.eqb_spec (N.of_nat (length es)) (N.of_nat (length es'))) as [E|E]; cbn [negb].
  - apply same_elems_spec. lia.
  - f_equal. symmetry. apply list_eqb_diff. rewrite !map_length. lia.
Qed.
Lemma equals_list_spec c es vs : holds sz Arr c es -> c_n c = N.of_nat (length es) -> arr_equals_list eqb sz c vs = Ret (list_eqb eqb (map snd es) vs).
Proof.
  intros H En. unfold arr_equals_list, arr_size. rewrite En, (elems_holds _ _ _ _ H).
  destruct (N.eqb_spec (N.of_nat (length es)) (N.of_nat (length vs))) as [E|E]; cbn [negb].
  - apply same_values_spec. lia.
  - f_equal. symmetry. apply list_eqb_diff. rewrite map_length. lia.
Qed.
Lemma compared_spec neg w s i j : rel w s ->
  compared eqb sz neg w i j = Ret (w, [], snd (says s (option_map (fun b => if neg then negb b else b) (equal_vals eqb s i j)))).
Proof.
  intros R. unfold compared, equal_vals, says. pose proof (rel_get w s i R) as Ri. pose proof (rel_get w s j R) as Rj.
  destruct (get (w_objs w) i) as [[k c]|], (vget s i) as [x|]; try contradiction; [|reflexivity].
  destruct (get (w_objs w) j) as [[k' c']|], (vget s j) as [y|]; try contradiction; [|reflexivity].
  destruct Ri as (es & H & _ & ->), Rj as (es' & H' & _ & ->). cbn [v_kind v_elems].
  assert (K : Bool.eqb (is_vec k) (is_vec k') = kind_eqb k k') by (destruct k, k'; reflexivity). rewrite K.
  destruct (kind_eqb k k') eqn:KE; [|reflexivity]. assert (k' = k) as -> by (destruct k, k'; try reflexivity; discriminate).
  rewrite (equals_spec k c c' es es' _ H H'). reflexivity.
Qed.
Lemma null_spec k c es : holds sz k c es -> c_n c = N.of_nat (length es) -> is_null k c = null_val (mkVal k (b_bytes (c_buf c)) (map snd es)).
Proof.
  intros H En. unfold is_null, null_val. cbn [v_kind v_elems v_room]. destruct k; [|reflexivity]. unfold vec_empty. rewrite En. destruct es; reflexivity.
Qed.

Lemma step_rel w s o : rel w s -> tidy sz o ->
  exists w' ev, vc_step eqb sz w o = Ret (w', ev, snd (val_step eqb sz s o)) /\ rel w' (fst (val_step eqb sz s o)).
Proof.
  intros R T. destruct o.
  - cbn [vc_step val_step]. destruct (plain_tidy_step w s o R T) as (w' & ev & a & E & R' & Ea). rewrite E. cbn [bind]. rewrite Ea. eauto.
  - pose proof (rel_get w s i R) as Ri. destruct ok.
    + cbn [val_step]. destruct (get (w_objs w) i) as [[k c]|] eqn:G, (vget s i) as [x|] eqn:V; try contradiction; [|cbn [vc_step]; rewrite G; eauto].
      destruct Ri as (es & H & En & ->). rewrite (copy_is_make w i k c es fail G H En). cbn [vc_step negb v_elems v_kind].
      destruct (plain_tidy_step w s (copy_call k (copies fail (map snd es))) R) as (w' & ev & a & E & R' & Ea).
      { pose proof (holds_room k c es H). destruct k; cbn [copy_call tidy orderly]; rewrite copies_length, map_length; assumption. }
      rewrite E. cbn [bind]. rewrite Ea. exists w', ev.
      assert (Q : plain_step sz s (copy_call k (copies fail (map snd es))) = made sz k s (all_made (copies fail (map snd es)))) by (destruct k; reflexivity).
      rewrite Q in *. rewrite copies_made in *. destruct (match fail with Some _ => _ | None => _ end); cbn [made fst snd] in *; split; auto.
    + cbn [vc_step val_step]. destruct (get (w_objs w) i) as [[k c]|] eqn:G, (vget s i) as [x|] eqn:V; try contradiction; [|eauto].
      cbn [negb]. exists (mkWorld (w_objs w) (w_next w)), []. split; [destruct k; reflexivity|exact R].
  - cbn [vc_step val_step]. rewrite (compared_spec false w s i j R). exists w, []. split; [|exact R]. unfold says. now destruct (equal_vals eqb s i j).
  - cbn [vc_step val_step]. rewrite (compared_spec true w s i j R). exists w, []. split; [|exact R]. reflexivity.
  - cbn [vc_step val_step]. pose proof (rel_get w s i R) as Ri. destruct (get (w_objs w) i) as [[k c]|] eqn:G, (vget s i) as [x|] eqn:V; try contradiction; [|eauto].
    destruct Ri as (es & H & En & ->). cbn [v_kind v_elems]. destruct k; [eauto|]. rewrite (equals_list_spec c es vs H En). cbn [bind]. eauto.
  - cbn [vc_step val_step]. pose proof (rel_get w s i R) as Ri. destruct (get (w_objs w) i) as [[k c]|] eqn:G, (vget s i) as [x|] eqn:V; try contradiction; [|eauto].
    destruct Ri as (es & H & En & ->). rewrite (null_spec k c es H En). eauto.
  - cbn [vc_step val_step]. pose proof (rel_get w s i R) as Ri. destruct (get (w_objs w) i) as [[k c]|] eqn:G, (vget s i) as [x|] eqn:V; try contradiction; [|eauto].
    destruct Ri as (es & H & En & ->). rewrite (null_spec k c es H En). eauto.
  - cbn [vc_step val_step]. pose proof (rel_get w s i R) as Ri. destruct (get (w_objs w) i) as [[k c]|] eqn:G, (vget s i) as [x|] eqn:V; try contradiction; [|eauto].
    destruct Ri as (es & H & En & ->). rewrite (contents_spec _ _ _ _ H). cbn [bind v_elems]. rewrite En, map_length. eauto.
Qed.
Lemma run_rel os : forall w s, rel w s -> Forall (tidy sz) os ->
  exists w' ev, vc_run eqb sz w os = Ret (w', ev, snd (val_run eqb sz s os)) /\ rel w' (fst (val_run eqb sz s os)).
Proof.
  induction os as [|o os IH]; intros w s R F; [exists w, []; split; [reflexivity|exact R]|]. inversion F as [|? ? F1 F2]; subst.
  destruct (step_rel w s o R F1) as (w1 & ev & E & R1). cbn [vc_run val_run]. rewrite E. cbn [bind].
  destruct (IH w1 _ R1 F2) as (w2 & ev2 & E2 & R2). rewrite E2. cbn [bind fst snd]. eauto.
Qed.

(** Lifetimes with copies *)
Lemma step_lives w s log o w' ev a : rel w s -> winv sz w log -> tidy sz o -> vc_step eqb sz w o = Ret (w', ev, a) -> winv sz w' (log ++ ev).
Proof.
  intros R W T E.
  assert (P : forall o, tidy sz (Plain o) -> vc_step eqb sz w (Plain o) = Ret (w', ev, a) -> winv sz w' (log ++ ev)).
  { intros o0 T0 E0. cbn [vc_step] in E0. destruct (cstep_ok sz w log o0 S0 W) as (w1 & ev1 & a1 & E1 & W1).
    { destruct o0; cbn [tidy orderly] in *; auto. }
    rewrite E1 in E0. cbn [bind] in E0. injection E0 as <- <- _. exact W1. }
  assert (Q : forall x : cans, Ret (w, [], x) = Ret (w', ev, a) -> winv sz w' (log ++ ev)).
  { intros x E0. injection E0 as <- <- _. now rewrite app_nil_r. }
  destruct o.
  - now apply (P o).
  - pose proof (rel_get w s i R) as Ri. destruct (get (w_objs w) i) as [[k c]|] eqn:G, (vget s i) as [x|] eqn:V; try contradiction.
    + destruct Ri as (es & H & En & ->). destruct ok.
      * rewrite (copy_is_make w i k c es fail G H En) in E. apply (P _ ) in E; [exact E|].
        pose proof (holds_room k c es H). destruct k; cbn [copy_call tidy orderly]; rewrite copies_length, map_length; assumption.
      * cbn [vc_step] in E. rewrite G in E. destruct k; cbn in E; injection E as <- <- _; rewrite app_nil_r; destruct w; exact W.
    + cbn [vc_step] in E. rewrite G in E. eapply Q. exact E.
  - cbn [vc_step] in E. rewrite (compared_spec false w s i j R) in E. eapply Q. exact E.
  - cbn [vc_step] in E. rewrite (compared_spec true w s i j R) in E. eapply Q. exact E.
  - cbn [vc_step] in E. destruct (get (w_objs w) i) as [[[] c]|]; try (eapply Q; exact E).
    destruct (arr_equals_list eqb sz c vs) as [b| | | |]; try discriminate. eapply Q. exact E.
  - cbn [vc_step] in E. destruct (get (w_objs w) i) as [[k c]|]; eapply Q; exact E.
  - cbn [vc_step] in E. destruct (get (w_objs w) i) as [[k c]|]; eapply Q; exact E.
  - cbn [vc_step] in E. destruct (get (w_objs w) i) as [[k c]|]; [|eapply Q; exact E].
    destruct (contents_of sz c) as [b| | | |]; try discriminate. eapply Q. exact E.
Qed.
Lemma run_lives os : forall w s log, rel w s -> winv sz w log -> Forall (tidy sz) os -> forall w' ev xs,
  vc_run eqb sz w os = Ret (w', ev, xs) -> winv sz w' (log ++ ev).
Proof.
  induction os as [|o os IH]; intros w s log R W F w' ev xs E.
  - injection E as <- <- <-. now rewrite app_nil_r.
  - inversion F as [|? ? F1 F2]; subst. destruct (step_rel w s o R F1) as (w1 & ev1 & E1 & R1). cbn [vc_run] in E. rewrite E1 in E. cbn [bind] in E.
    destruct (vc_run eqb sz w1 os) as [[[w2 ev2] xs2]| | | |] eqn:E2; try discriminate. cbn [bind] in E. injection E as <- <- <-.
    rewrite app_assoc. exact (IH w1 _ _ R1 (step_lives w s log o w1 ev1 _ R W F1 E1) F2 w2 ev2 xs2 E2).
Qed.
Lemma rel0 : rel world0 [].
Proof. constructor. Qed.
End Proofs.
