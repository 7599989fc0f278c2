From Verif Require Import Base BaseLemmas MemViewModel MemoryModel MemoryProofs ContainerModel ContainerSpec ContainerProofs ContainerAllSpec.
From Coq Require Import Permutation.
Local Arguments get : simpl never.

(** The places [ss], holes included, are counted; the others are raw. *)
Definition hholds {A} (sz : N) (k : kind) (c : cont A) (ss : list (slot A)) : Prop :=
  exists r, b_slots (c_buf c) = ss ++ repeat None r /\
    N.of_nat (length (b_slots (c_buf c))) = b_bytes (c_buf c) / sz /\ b_bytes (c_buf c) < 2 ^ 64 /\
    view_size sz (cont_view sz c) = N.of_nat (length ss) /\ v_size (cont_view sz c) <= b_bytes (c_buf c) /\
    v_addr (cont_view sz c) = Some 0 /\ (k = Vec -> c_n c = N.of_nat (length ss)).
Lemma holds_hholds {A} sz k (c : cont A) es : holds sz k c es <-> hholds sz k c (map Some es).
Proof. unfold holds, hholds. rewrite map_length. reflexivity. Qed.
Lemma hholds_make {A} sz k (b : buf A) n ss r : 0 < sz -> b_slots b = ss ++ repeat None r ->
  N.of_nat (length (b_slots b)) = b_bytes b / sz -> b_bytes b < 2 ^ 64 -> n = N.of_nat (length ss) -> hholds sz k (mkCont b n) ss.
Proof.
  intros S B L Lt ->. exists r. rewrite cont_view_is. cbn [c_buf c_n v_size v_addr]. repeat split; try assumption; try reflexivity; [|lia].
  assert (N.of_nat (length ss) <= b_bytes b / sz) by (rewrite <- L, B, app_length; lia).
  pose proof (div_mul_le sz _ _ S H). unfold u64. rewrite N.mod_small by lia. unfold view_size. cbn [v_size]. rewrite N.min_l by assumption.
  rewrite N.mul_comm. apply N.div_mul. lia.
Qed.
Lemma hholds_same {A} sz k (c : cont A) (ss ss' : list (slot A)) s r : hholds sz k c ss -> length ss' = length ss -> s = ss' ++ repeat None r ->
  length s = length (b_slots (c_buf c)) -> hholds sz k (mkCont (mkBuf (b_bytes (c_buf c)) s) (c_n c)) ss'.
Proof.
  intros (r0 & B & L & Lt & V & Vle & Va & K) E -> Ls. exists r. rewrite cont_view_is in *. cbn [c_buf c_n b_slots b_bytes v_size v_addr] in *. rewrite E, Ls. auto 10.
Qed.
Lemma hholds_arr {A} sz k (c : cont A) ss : hholds sz Vec c ss -> hholds sz k c ss.
Proof. intros (r & H1 & H2 & H3 & H4 & H5 & H6 & H7). exists r. auto 10. Qed.
Definition vals {A} (ss : list (slot A)) : list (option A) := map (option_map snd) ss.
Lemma vals_some {A} (es : list (nat * A)) : vals (map Some es) = map Some (map snd es).
Proof. unfold vals. now rewrite !map_map. Qed.
Lemma whole_some {A} (ss : list (slot A)) : whole (vals ss) = true -> exists es, ss = map Some es.
Proof.
  induction ss as [|[e|] ss IH]; cbn; intros H; [now exists []| |discriminate]. destruct (IH H) as (es & ->). now exists (e :: es).
Qed.
Lemma whole_map {A} (l : list A) : whole (map Some l) = true.
Proof. induction l; cbn; auto. Qed.
Lemma whole_values {A} (l : list (option A)) : whole l = true -> exists vs, l = map Some vs.
Proof. induction l as [|[v|] l IH]; cbn; intros H; [now exists []| |discriminate]. destruct (IH H) as (vs & ->). now exists (v :: vs). Qed.
Lemma whole_app {A} (a b : list (option A)) : whole (a ++ b) = whole a && whole b.
Proof. apply forallb_app. Qed.

Lemma hemplace_spec {A} sz next (c : cont A) ss arg : 0 < sz -> hholds sz Vec c ss ->
  vec_capacity sz c <= N.of_nat (length ss) /\ vec_emplace sz next c arg = Ret (c, [], next, AError BasicOverflow) \/
  N.of_nat (length ss) < vec_capacity sz c /\
  match arg with
  | None => vec_emplace sz next c arg = Ret (c, [], next, ARaised UserException)
  | Some v => exists c', vec_emplace sz next c arg = Ret (c', [Ctor next], S next, AOk) /\ hholds sz Vec c' (ss ++ [Some (next, v)]) /\
      b_bytes (c_buf c') = b_bytes (c_buf c)
  end.
Proof.
  intros S H. pose proof H as (r & B & L & Lt & V & Vle & Va & K). specialize (K eq_refl). unfold vec_emplace, vec_size. rewrite K.
  destruct (N.leb_spec (vec_capacity sz c) (N.of_nat (length ss))) as [C|C]; [now left|right]. split; [exact C|].
  unfold vec_capacity in C. unfold bytes_view. rewrite place_is by assumption. cbn [v_size].
  destruct (N.eqb_spec sz 0); [lia|]. rewrite place_slot_is by assumption. cbn [bind]. rewrite Nat2N.id.
  destruct arg as [v|]; [|reflexivity]. unfold ctor_at.
  assert (LS : (length ss < length (b_slots (c_buf c)))%nat) by lia. destruct (Nat.ltb_spec (length ss) (length (b_slots (c_buf c)))); [|lia]. cbn [bind].
  eexists. split; [reflexivity|]. split; [|reflexivity].
  destruct r as [|r]; [rewrite B, app_length in LS; cbn in LS; lia|].
  assert (B' : upd (b_slots (c_buf c)) (length ss) (Some (next, v)) = (ss ++ [Some (next, v)]) ++ repeat None r).
  { rewrite B. cbn [repeat]. rewrite upd_app_r, <- app_assoc. reflexivity. }
  apply (hholds_make sz Vec _ _ _ r); cbn [b_slots b_bytes]; try assumption.
  - now rewrite length_upd.
  - unfold u64. rewrite app_length. cbn [length]. rewrite N.mod_small; [lia|]. assert (b_bytes (c_buf c) / sz <= b_bytes (c_buf c)) by (apply N.div_le_upper_bound; nia). lia.
Qed.
Lemma hpop_spec {A} sz (c : cont A) ss s : 0 < sz -> hholds sz Vec c (ss ++ [s]) ->
  match s with
  | None => vec_pop sz c = UB
  | Some e => exists c', vec_pop sz c = Ret (c', [Dtor (fst e)]) /\ hholds sz Vec c' ss /\ b_bytes (c_buf c') = b_bytes (c_buf c)
  end.
Proof.
  intros S (r & B & L & Lt & V & Vle & Va & K). specialize (K eq_refl). rewrite app_length in K. cbn [length] in K.
  assert (CAP : c_n c <= b_bytes (c_buf c) / sz) by (rewrite <- L, B, !app_length; cbn [length]; lia).
  assert (b_bytes (c_buf c) / sz <= b_bytes (c_buf c)) by (apply N.div_le_upper_bound; nia).
  unfold vec_pop, vec_size. destruct (N.ltb_spec (c_n c) 1); [lia|].
  assert (SB : sub64 (c_n c) 1 = N.of_nat (length ss)) by (unfold sub64, sub_wrap; symmetry; apply N.mod_unique with 1; lia). rewrite SB.
  unfold bytes_view. rewrite place_is by (try assumption; lia). rewrite place_slot_is by assumption. cbn [bind]. rewrite Nat2N.id.
  unfold dtor_at. rewrite B, <- app_assoc. cbn [app]. rewrite nth_error_mid. destruct s as [e|]; [|reflexivity]. cbn [bind fst snd].
  eexists. split; [reflexivity|]. split; [|reflexivity]. rewrite upd_app_r.
  apply (hholds_make sz Vec _ _ _ (Datatypes.S r)); cbn [b_slots b_bytes]; try assumption; try reflexivity.
  rewrite <- L, B, <- app_assoc, !app_length. cbn [length app]. reflexivity.
Qed.
Lemma hclear_hole {A} sz : 0 < sz -> forall ss (c : cont A) fuel, (length ss < fuel)%nat -> hholds sz Vec c ss -> whole (vals ss) = false -> vec_clear fuel sz c = UB.
Proof.
  intros S ss. induction ss as [|s ss IH] using rev_ind; intros c fuel F H W; [discriminate|]. destruct fuel as [|fuel]; [lia|]. cbn [vec_clear]. unfold vec_size.
  pose proof H as (r & _ & _ & _ & _ & _ & _ & K). rewrite (K eq_refl). rewrite app_length in *. cbn [length] in *.
  destruct (N.ltb_spec 0 (N.of_nat (length ss + 1))); [|lia]. pose proof (hpop_spec sz c ss s S H) as P. unfold vals in W. rewrite map_app, whole_app in W. destruct s as [e|].
  - destruct P as (c1 & -> & H1 & _). cbn [bind fst snd]. rewrite (IH c1 fuel); [reflexivity|lia|exact H1|]. cbn in W. now rewrite andb_true_r in W.
  - rewrite P. reflexivity.
Qed.
Lemma dtors_hole {A} (ss : list (slot A)) : whole (vals ss) = false -> dtors ss = UB.
Proof. induction ss as [|[e|] ss IH]; cbn [vals map whole forallb dtors]; intros H; [discriminate| |reflexivity]. cbn in H. rewrite IH by exact H. reflexivity. Qed.
Lemma hdestroy_hole {A} sz k (c : cont A) ss : hholds sz k c ss -> whole (vals ss) = false -> destroy_all sz c = UB.
Proof.
  intros (r & B & L & Lt & V & _) W. unfold destroy_all. rewrite V, Nat2N.id, B, app_length.
  destruct (Nat.ltb_spec (length ss + length (repeat (@None (nat * A)) r)) (length ss)); [lia|].
  rewrite firstn_app, Nat.sub_diag, firstn_all. cbn [firstn]. rewrite app_nil_r, dtors_hole by exact W. reflexivity.
Qed.
Lemma helems {A} sz k (c : cont A) ss : hholds sz k c ss -> elems sz c = ss.
Proof. intros (r & B & L & Lt & V & _). unfold elems. rewrite V, Nat2N.id, B, firstn_app, Nat.sub_diag, firstn_all. apply app_nil_r. Qed.
Lemma values_hole {A} (ss : list (slot A)) : whole (vals ss) = false -> values ss = UB.
Proof. induction ss as [|[e|] ss IH]; cbn [vals map whole forallb values]; intros H; [discriminate| |reflexivity]. cbn in H. rewrite IH by exact H. reflexivity. Qed.
Lemma hview_bytes {A} sz k (c : cont A) ss i : 0 < sz -> hholds sz k c ss -> i < N.of_nat (length ss) -> sz * i + sz <= v_size (cont_view sz c) < 2 ^ 64.
Proof.
  intros S (r & B & L & Lt & V & Vle & _) I. unfold view_size in V. split; [|lia].
  replace (sz * i + sz) with (sz * (i + 1)) by lia. apply div_mul_le; [assumption|lia].
Qed.
Lemma hat_spec {A} sz k (c : cont A) ss i : 0 < sz -> hholds sz k c ss ->
  elem_at sz c i = match nth_error (vals ss) (N.to_nat i) with None => Throws IndexOutOfRange | Some None => UB | Some (Some x) => Ret x end.
Proof.
  intros S H. pose proof H as (r & B & L & Lt & V & _). unfold elem_at. rewrite V. unfold vals. rewrite nth_error_map.
  destruct (N.leb_spec (N.of_nat (length ss)) i) as [C|C].
  - assert (E : nth_error ss (N.to_nat i) = None) by (apply nth_error_None; lia). now rewrite E.
  - pose proof (hview_bytes sz k c ss i S H C) as VB. unfold u64. rewrite (N.mod_small (sz * i)) by lia. rewrite N.mod_small by lia.
    destruct (N.ltb_spec (v_size (cont_view sz c)) (sz * i + sz)); [lia|]. rewrite B, nth_error_app1 by lia.
    destruct (nth_error ss (N.to_nat i)) as [[e|]|] eqn:E; [reflexivity|reflexivity|]. apply nth_error_None in E. lia.
Qed.
Lemma upd_app_l {A} (a b : list A) i x : (i < length a)%nat -> upd (a ++ b) i x = upd a i x ++ b.
Proof. revert i; induction a as [|y a IH]; intros [|i] H; cbn [length] in H; try lia; cbn; [reflexivity|]. now rewrite IH by lia. Qed.
Lemma map_upd {A B} (f : A -> B) l i x : map f (upd l i x) = upd (map f l) i (f x).
Proof. revert i; induction l as [|y l IH]; intros [|i]; cbn; try reflexivity. now rewrite IH. Qed.
Lemma slot_ids_upd {A} (ss : list (slot A)) i (e e' : nat * A) : nth_error ss i = Some (Some e) ->
  fst e' = fst e -> slot_ids (upd ss i (Some e')) = slot_ids ss.
Proof.
  revert i; induction ss as [|s ss IH]; intros [|i] H F; cbn in H; try discriminate.
  - injection H as ->. cbn. now rewrite F.
  - cbn. f_equal. now apply IH.
Qed.
Lemma hset_spec {A} sz k (c : cont A) ss i v : 0 < sz -> hholds sz k c ss ->
  match nth_error ss (N.to_nat i), v with
  | None, _ => elem_set sz c i v = Ret (c, ARaised IndexOutOfRange)
  | Some None, _ => elem_set sz c i v = UB
  | Some (Some e), None => elem_set sz c i v = Ret (c, ARaised UserException)
  | Some (Some e), Some x => exists c', elem_set sz c i v = Ret (c', AOk) /\ hholds sz k c' (upd ss (N.to_nat i) (Some (fst e, x))) /\ b_bytes (c_buf c') = b_bytes (c_buf c) /\ c_n c' = c_n c
  end.
Proof.
  intros S H. pose proof H as (r & B & L & Lt & V & _). unfold elem_set. rewrite V.
  destruct (N.leb_spec (N.of_nat (length ss)) i) as [C|C].
  { assert (E : nth_error ss (N.to_nat i) = None) by (apply nth_error_None; lia). now rewrite E. }
  pose proof (hview_bytes sz k c ss i S H C) as VB. unfold u64. rewrite (N.mod_small (sz * i)) by lia. rewrite N.mod_small by lia.
  destruct (N.ltb_spec (v_size (cont_view sz c)) (sz * i + sz)); [lia|]. rewrite B, nth_error_app1 by lia.
  destruct (nth_error ss (N.to_nat i)) as [[e|]|] eqn:E; [|reflexivity|apply nth_error_None in E; lia].
  destruct v as [v|]; [|reflexivity]. rewrite upd_app_l by lia. eexists. split; [reflexivity|]. split; [|split; reflexivity].
  eapply hholds_same; [exact H|apply length_upd|reflexivity|]. rewrite B, !app_length, length_upd. reflexivity.
Qed.
Lemma hview_emplace_spec {A} sz next k (c : cont A) ss i arg : 0 < sz -> hholds sz k c ss ->
  match nth_error ss (N.to_nat i) with
  | None => elem_emplace sz next c i arg = Ret (c, [], next, ARaised IndexOutOfRange)
  | Some None => elem_emplace sz next c i arg = UB
  | Some (Some e) => exists c', hholds sz k c' (upd ss (N.to_nat i) (option_map (pair next) arg)) /\ b_bytes (c_buf c') = b_bytes (c_buf c) /\ c_n c' = c_n c /\
      elem_emplace sz next c i arg = match arg with
        | None => Ret (c', [Dtor (fst e)], next, ARaised UserException)
        | Some v => Ret (c', [Dtor (fst e); Ctor next], S next, AOk)
        end
  end.
Proof.
  intros S H. pose proof H as (r & B & L & Lt & V & Vle & Va & _). unfold elem_emplace. rewrite V.
  destruct (N.leb_spec (N.of_nat (length ss)) i) as [C|C].
  { assert (E : nth_error ss (N.to_nat i) = None) by (apply nth_error_None; lia). now rewrite E. }
  assert (CV : cont_view sz c = mkView (Some 0) (v_size (cont_view sz c))) by (rewrite cont_view_is; reflexivity).
  rewrite CV, place_is by (try assumption; try lia; fold (view_size sz (cont_view sz c)); lia). rewrite place_slot_is by assumption. cbn [bind].
  unfold dtor_at. rewrite B, nth_error_app1 by lia. destruct (nth_error ss (N.to_nat i)) as [[e|]|] eqn:E; [|reflexivity|apply nth_error_None in E; lia].
  cbn [bind fst snd]. rewrite upd_app_l by lia. assert (LS : length (upd ss (N.to_nat i) None ++ repeat None r) = length (b_slots (c_buf c))) by (rewrite B, !app_length, length_upd; reflexivity).
  destruct arg as [v|]; cbn [option_map].
  - unfold ctor_at. cbn [b_slots b_bytes]. rewrite LS. destruct (Nat.ltb_spec (N.to_nat i) (length (b_slots (c_buf c)))) as [Q|Q]; [|rewrite B, app_length in Q; lia].
    cbn [bind app]. rewrite upd_app_l by (rewrite length_upd; lia).
    assert (U : upd (upd ss (N.to_nat i) None) (N.to_nat i) (Some (next, v)) = upd ss (N.to_nat i) (Some (next, v))).
    { generalize (N.to_nat i). generalize (@None (nat * A)). clear. induction ss as [|y ss IH]; intros o [|m]; cbn; try reflexivity. now rewrite IH. }
    rewrite U. eexists. split; [|split; [|split; [|reflexivity]]]; [|reflexivity|reflexivity].
    eapply hholds_same; [exact H|apply length_upd|reflexivity|]. rewrite B, !app_length, length_upd. reflexivity.
  - eexists. split; [|split; [|split; [|reflexivity]]]; [|reflexivity|reflexivity]. eapply hholds_same; [exact H|apply length_upd|reflexivity|]. exact LS.
Qed.

(** Lifetimes. *)
Record linv {A : Type} (w : world A) (log : list life) : Prop := mkLinv {
  l_perm : Permutation (destroyed log ++ alive w) (built log);
  l_nodup : NoDup (built log);
  l_fresh : Forall (fun i => (i < w_next w)%nat) (built log);
  l_order : forall a x b, log = a ++ Dtor x :: b -> In x (built a)
}.
Lemma linv0 {A} : linv (@world0 A) [].
Proof. constructor; cbn; try constructor. intros [|? ?] x b H; discriminate. Qed.
Lemma linv_evolve {A} (w : world A) log (objs : list (option (kind * cont A))) nx ev nb : linv w log ->
  built ev = seq (w_next w) nb -> nx = (w_next w + nb)%nat ->
  Permutation (alive w ++ seq (w_next w) nb) (destroyed ev ++ flat_map obj_ids objs) -> (nb = O \/ in_order w ev) ->
  linv (mkWorld objs nx) (log ++ ev).
Proof.
  intros [W2 W3 W4 W5] B -> P O. constructor; cbn [w_objs w_next].
  - rewrite destroyed_app, built_app, B. unfold alive. cbn [w_objs]. rewrite <- app_assoc, <- P, app_assoc. now apply Permutation_app_tail.
  - rewrite built_app, B. clear - W3 W4. induction (built log) as [|x l IH]; [apply seq_NoDup|]. inversion W3; inversion W4; subst. cbn [app]. constructor; [|now apply IH].
    rewrite in_app_iff, in_seq. intros [X|X]; [contradiction|lia].
  - rewrite built_app, B. apply Forall_app. split; [eapply Forall_impl; [|exact W4]; cbn; intros; lia|]. apply Forall_forall. intros x X. apply in_seq in X. lia.
  - intros a x b E. apply app_eq_app in E as (l & [(-> & E)|(-> & ->)]).
    + destruct l as [|y l]; cbn [app] in E.
      * rewrite app_nil_r in W2. subst ev. pose proof (order_ev w a [] x b nb W2 (ex_intro _ _ P) O) as X. cbn in X. now rewrite app_nil_r in X.
      * injection E as <- ->. now apply (W5 a x l).
    + rewrite built_app. eapply order_ev; eauto.
Qed.
Lemma linv_replace {A} (w : world A) log i k c (x : option (kind * cont A)) ev nb nx : linv w log -> get (w_objs w) i = Some (k, c) ->
  built ev = seq (w_next w) nb -> nx = (w_next w + nb)%nat ->
  Permutation (obj_ids (Some (k, c)) ++ seq (w_next w) nb) (destroyed ev ++ obj_ids x) -> nb = O \/ in_order w ev ->
  linv (mkWorld (upd (w_objs w) i x) nx) (log ++ ev).
Proof.
  intros W G B E P O. eapply linv_evolve; try eassumption.
  destruct (flat_upd obj_ids (w_objs w) i (k, c) x G) as (m & P1 & P2). unfold alive. rewrite P1, P2.
  rewrite <- app_assoc, (Permutation_app_comm m), app_assoc, P, <- app_assoc. reflexivity.
Qed.
Lemma linv_add {A} (w : world A) log k (c : cont A) ev nb nx : linv w log ->
  built ev = seq (w_next w) nb -> nx = (w_next w + nb)%nat ->
  Permutation (seq (w_next w) nb) (destroyed ev ++ slot_ids (b_slots (c_buf c))) -> nb = O \/ in_order w ev ->
  linv (mkWorld (w_objs w ++ [Some (k, c)]) nx) (log ++ ev).
Proof.
  intros W B E P O. eapply linv_evolve; try eassumption.
  rewrite P, flat_map_app. cbn [flat_map obj_ids]. rewrite app_nil_r. fold (alive w). apply Permutation_app_swap_app.
Qed.
Lemma hids {A} sz k (c : cont A) ss : hholds sz k c ss -> slot_ids (b_slots (c_buf c)) = slot_ids ss.
Proof. intros (r & B & _). rewrite B. unfold slot_ids. rewrite flat_map_app. fold (slot_ids ss). fold (slot_ids (repeat (@None (nat * A)) r)). now rewrite ids_none, app_nil_r. Qed.

(** The state shows the abstract state. *)
Definition rel {A} (sz : N) (x : option (kind * cont A)) (y : option (shown A)) : Prop :=
  match x, y with
  | None, None => True
  | Some (k, c), Some h => k = h_kind h /\ b_bytes (c_buf c) = h_room h /\ c_n c = h_size h /\
      (h_size h = N.of_nat (length (h_vals h)) \/ h_room h / sz < h_size h) /\ exists ss, hholds sz k c ss /\ h_vals h = vals ss
  | _, _ => False
  end.
Definition habs {A} (sz : N) (objs : list (option (kind * cont A))) (aw : list (option (shown A))) : Prop :=
  length objs = length aw /\ forall i, rel sz (get objs i) (get aw i).
Lemma habs_upd {A} sz (objs : list (option (kind * cont A))) aw i x y : habs sz objs aw -> rel sz x y -> habs sz (upd objs i x) (upd aw i y).
Proof. intros (L & H) R. split; [now rewrite !length_upd|]. intros j. rewrite !get_upd, L. destruct andb; [exact R|apply H]. Qed.
Lemma habs_add {A} sz (objs : list (option (kind * cont A))) aw x y : habs sz objs aw -> rel sz x y -> habs sz (objs ++ [x]) (aw ++ [y]).
Proof. intros (L & H) R. split; [now rewrite !app_length, L|]. intros j. rewrite !get_app, L. destruct Nat.eqb; [exact R|apply H]. Qed.
Lemma habs_same {A} sz (objs : list (option (kind * cont A))) aw i x : habs sz objs aw -> get objs i = x -> habs sz (upd objs i x) aw.
Proof. intros (L & H) R. split; [now rewrite length_upd|]. intros j. rewrite get_upd. destruct (Nat.eqb_spec i j) as [<-|]; cbn [andb]; [|apply H]. destruct Nat.ltb; [rewrite <- R|]; apply H. Qed.

Lemma fit_or_wrap sz n m : 0 < sz -> m = u64 (n * sz) / sz -> n = m \/ u64 (n * sz) / sz < n.
Proof.
  intros S ->. assert (u64 (n * sz) <= n * sz) as L by (apply N.mod_le; lia).
  assert (u64 (n * sz) / sz <= n) by (apply N.div_le_upper_bound; lia). lia.
Qed.
Lemma rel_vec {A} sz (c : cont A) ss room n l : hholds sz Vec c ss -> b_bytes (c_buf c) = room -> n = N.of_nat (length ss) -> l = vals ss ->
  rel sz (Some (Vec, c)) (Some (mkShown Vec room n l)).
Proof.
  intros H E -> ->. pose proof H as (r & _ & _ & _ & _ & _ & _ & K). cbn [rel h_kind h_room h_size h_vals]. split; [reflexivity|]. split; [exact E|]. split; [now apply K|].
  split; [left; unfold vals; now rewrite map_length|]. exists ss. auto.
Qed.
Lemma made {A} sz (w : world A) aw log k n (args : list (option A)) : 0 < sz -> habs sz (w_objs w) aw -> linv w log ->
  N.of_nat (length args) = u64 (n * sz) / sz -> (k = Vec -> n = N.of_nat (length args)) ->
  exists w' ev, added w k (make_cont sz (w_next w) n args) = Ret (w', ev, if whole args then AOk else ARaised UserException) /\ linv w' (log ++ ev) /\
    habs sz (w_objs w') (if whole args then aw ++ [Some (mkShown k (u64 (n * sz)) n args)] else aw).
Proof.
  intros S R W L K. unfold added. destruct (make_spec sz (w_next w) n args S L) as [(vs & c & E1 & E2 & H & En & Eb)|(vs & rest & E1 & E2)]; rewrite E2; cbn [bind].
  - assert (whole args = true) as -> by (rewrite E1; apply whole_map). eexists _, _. split; [reflexivity|]. split.
    + unfold add. apply (linv_add w log k c _ (length vs)); [exact W|apply built_ctor|reflexivity| |].
      * rewrite destroyed_ctor, (ids_holds _ _ _ _ H), map_fst_combine by apply seq_length. reflexivity.
      * right. left. rewrite destroyed_ctor. intros x [].
    + unfold add. cbn [w_objs]. apply habs_add; [exact R|]. cbn [rel h_kind h_room h_size h_vals]. split; [reflexivity|]. split; [exact Eb|]. split; [exact En|]. split; [now apply fit_or_wrap|].
      exists (map Some (combine (seq (w_next w) (length vs)) vs)). split.
      * apply holds_hholds. destruct k; [|exact H]. destruct H as (r & H1 & H2 & H3 & H4 & H5 & H6 & H7).
        exists r. repeat (split; [assumption|]). intros _. rewrite En, (K eq_refl), combine_length, seq_length, E1, map_length. f_equal. lia.
      * rewrite vals_some, map_snd_combine by apply seq_length. exact E1.
  - assert (whole args = false) as -> by (rewrite E1, whole_app; cbn; apply andb_false_r). eexists _, _. split; [reflexivity|]. split; [|exact R].
    eapply linv_evolve; [exact W| |reflexivity| |].
    + rewrite built_app, built_ctor, built_dtor. apply app_nil_r.
    + rewrite destroyed_app, destroyed_ctor, destroyed_dtor. cbn [app]. rewrite Permutation_app_comm. apply Permutation_app_tail. apply Permutation_rev.
    + right. right. eexists _, _. split; [reflexivity|]. intros x X. now apply in_rev.
Qed.
Definition stepped {A} sz (w : world A) aw log o : Prop :=
  match shows sz aw o with
  | None => cstep sz w o = UB
  | Some (aw', a) => exists w' ev, cstep sz w o = Ret (w', ev, a) /\ linv w' (log ++ ev) /\ habs sz (w_objs w') aw'
  end.
Lemma linv_same {A} (w : world A) log i x : linv w log -> get (w_objs w) i = Some x -> linv (mkWorld (upd (w_objs w) i (Some x)) (w_next w)) (log ++ []).
Proof.
  intros W G. destruct x as [k c]. apply (linv_replace w log i k c _ [] 0); auto; try lia; try (now left). cbn [seq]. rewrite app_nil_r. reflexivity.
Qed.
Lemma linv_nil {A} (w : world A) log : linv w log -> linv w (log ++ []).
Proof. now rewrite app_nil_r. Qed.
Lemma ids_upd {A} (ss : list (slot A)) i e s : nth_error ss i = Some (Some e) ->
  exists m, Permutation (slot_ids ss) (fst e :: m) /\ Permutation (slot_ids (upd ss i s)) (match s with Some x => [fst x] | None => [] end ++ m).
Proof.
  intros H. apply nth_error_split in H as (a & b & -> & <-). rewrite upd_app_r. exists (slot_ids a ++ slot_ids b). unfold slot_ids. rewrite !flat_map_app. cbn [flat_map app].
  split; [symmetry; apply Permutation_middle|]. apply Permutation_app_swap_app.
Qed.

Lemma cstep_all {A} sz (w : world A) aw log o : 0 < sz -> habs sz (w_objs w) aw -> linv w log -> fits sz o -> stepped sz w aw log o.
Proof.
  intros S R W F. assert (SKIP : exists w' ev, Ret (w, [], AOk) = Ret (w', ev, AOk) /\ linv w' (log ++ ev) /\ habs sz (w_objs w') aw).
  { exists w, []. split; [reflexivity|]. split; [now apply linv_nil|exact R]. }
  assert (C : forall i, rel sz (get (w_objs w) i) (get aw i)) by (intros; apply R).
  assert (NB : forall k, rel (A := A) sz (Some (k, mkCont no_buf 0)) (Some (mkShown k 0 0 []))).
  { intros k. cbn. split; [reflexivity|]. split; [reflexivity|]. split; [reflexivity|]. split; [now left|]. exists []. split; [|reflexivity]. apply (proj1 (holds_hholds sz k _ [])), holds_none, S. }
  assert (RB : forall bytes, bytes < 2 ^ 64 -> rel (A := A) sz (Some (Vec, mkCont (raw_buf sz bytes) 0)) (Some (mkShown Vec bytes 0 []))).
  { intros bytes B. cbn. split; [reflexivity|]. split; [reflexivity|]. split; [reflexivity|]. split; [now left|]. exists []. split; [|reflexivity]. apply (proj1 (holds_hholds sz Vec _ [])), holds_raw; assumption. }
  unfold stepped. destruct o as [bytes|n|args|n f|args|i arg|i|i|i|i|i j|i|i|i k v|i k arg|i]; cbn [shows cstep fits] in *.
  - eexists _, _. split; [reflexivity|]. split; [|unfold add; cbn [w_objs]; apply habs_add; auto].
    apply (linv_add w log Vec _ [] 0); [exact W|reflexivity|lia| |now left]. cbn [seq destroyed flat_map app c_buf raw_buf b_slots]. rewrite ids_none. constructor.
  - eexists _, _. split; [reflexivity|]. split; [|unfold add; cbn [w_objs]; apply habs_add; [exact R|apply RB, N.mod_lt; lia]].
    apply (linv_add w log Vec _ [] 0); [exact W|reflexivity|lia| |now left]. cbn [seq destroyed flat_map app c_buf raw_buf b_slots]. rewrite ids_none. constructor.
  - destruct (made sz w aw log Vec (N.of_nat (length args)) args S R W) as (w' & ev & E & I & H).
    { unfold u64. rewrite N.mod_small by lia. symmetry. apply N.div_mul. lia. }
    { reflexivity. }
    unfold u64 in H. rewrite N.mod_small in H by lia. rewrite E. destruct (whole args); exists w', ev; auto.
  - set (args := map f _). destruct (made sz w aw log Arr n args S R W) as (w' & ev & E & I & H).
    { unfold args. rewrite map_length, seq_length, N2Nat.id. reflexivity. }
    { discriminate. }
    rewrite E. unfold u64 in *. destruct (whole args); exists w', ev; auto.
  - destruct (made sz w aw log Arr (N.of_nat (length args)) args S R W) as (w' & ev & E & I & H).
    { unfold u64. rewrite N.mod_small by lia. symmetry. apply N.div_mul. lia. }
    { discriminate. }
    unfold u64 in H. rewrite N.mod_small in H by lia. rewrite E. destruct (whole args); exists w', ev; auto.
  - (* Emplace *)
    pose proof (C i) as Ci. unfold rel in Ci. destruct (get (w_objs w) i) as [[k c]|] eqn:G; destruct (get aw i) as [[kd room n l]|] eqn:G'; try contradiction; try exact SKIP.
    cbn [h_kind h_room h_size h_vals] in Ci. destruct Ci as (-> & Er & En & Iv & ss & H & ->). destruct kd; [|exact SKIP].
    unfold vals at 1. rewrite map_length. destruct (hemplace_spec sz (w_next w) c ss arg S H) as [(Cp & E)|(Cp & X)]; unfold vec_capacity in Cp; rewrite Er in Cp.
    + rewrite (proj2 (N.leb_le _ _) Cp), E. cbn [bind]. eexists _, _. split; [reflexivity|]. split; [now apply linv_same|now apply habs_same].
    + rewrite (proj2 (N.leb_gt _ _) Cp). destruct arg as [v|].
      * destruct X as (c' & -> & H' & Eb). cbn [bind]. eexists _, _. split; [reflexivity|]. split.
        -- apply (linv_replace w log i Vec c _ [Ctor (w_next w)] 1); auto; try lia.
           ++ cbn [obj_ids destroyed flat_map app]. rewrite (hids _ _ _ _ H), (hids _ _ _ _ H'). unfold slot_ids. rewrite flat_map_app. reflexivity.
           ++ right. left. intros x [].
        -- cbn [w_objs]. apply habs_upd; [exact R|]. apply (rel_vec sz c' (ss ++ [Some (w_next w, v)])); [exact H'|congruence| |unfold vals; now rewrite map_app]. destruct H as (r & _ & _ & _ & _ & _ & _ & K). rewrite <- En, (K eq_refl), app_length. cbn [length]. lia.
      * rewrite X. cbn [bind]. eexists _, _. split; [reflexivity|]. split; [now apply linv_same|now apply habs_same].
  - (* Pop *)
    pose proof (C i) as Ci. unfold rel in Ci. destruct (get (w_objs w) i) as [[k c]|] eqn:G; destruct (get aw i) as [[kd room n l]|] eqn:G'; try contradiction; try exact SKIP.
    cbn [h_kind h_room h_size h_vals] in Ci. destruct Ci as (-> & Er & En & Iv & ss & H & ->). destruct kd; [|exact SKIP].
    assert (ss = [] \/ ss <> []) as [->|NE] by (destruct ss; [now left|right; discriminate]).
    + cbn [vals map]. rewrite (pop_empty sz c (proj2 (holds_hholds sz Vec c []) H)). cbn [bind fst snd]. eexists _, _. split; [reflexivity|]. split; [now apply linv_same|now apply habs_same].
    + destruct (exists_last NE) as (ss0 & s & ->). pose proof (hpop_spec sz c ss0 s S H) as P. unfold vals. rewrite map_app. cbn [map].
      rewrite removelast_last. destruct (map (option_map snd) ss0 ++ [option_map snd s]) as [|z zs] eqn:Z; [now destruct (map (option_map snd) ss0)|]. rewrite <- Z, last_last. clear z zs Z.
      destruct s as [e|]; cbn [option_map]; [|rewrite P; reflexivity].
      destruct P as (c' & -> & H' & Eb). cbn [bind fst snd]. eexists _, _. split; [reflexivity|]. split.
      * apply (linv_replace w log i Vec c _ [Dtor (fst e)] 0); auto; try lia; try (now left).
        cbn [obj_ids destroyed flat_map app seq]. rewrite (hids _ _ _ _ H), (hids _ _ _ _ H'), app_nil_r. unfold slot_ids. rewrite flat_map_app. cbn [flat_map app]. symmetry. apply Permutation_cons_append.
      * unfold put. cbn [w_objs]. apply habs_upd; [exact R|]. apply (rel_vec sz c' ss0); [exact H'|congruence| |reflexivity]. destruct H as (r & _ & _ & _ & _ & _ & _ & K). rewrite <- En, (K eq_refl), app_length. cbn [length]. lia.
  - (* Clear *)
    pose proof (C i) as Ci. unfold rel in Ci. destruct (get (w_objs w) i) as [[k c]|] eqn:G; destruct (get aw i) as [[kd room n l]|] eqn:G'; try contradiction; try exact SKIP.
    cbn [h_kind h_room h_size h_vals] in Ci. destruct Ci as (-> & Er & En & Iv & ss & H & ->). destruct kd; [|exact SKIP].
    assert (Fu : c_n c = N.of_nat (length ss)) by (destruct H as (r & _ & _ & _ & _ & _ & _ & K); now apply K).
    destruct (whole (vals ss)) eqn:Wh; [|rewrite (hclear_hole sz S ss c); [reflexivity|lia|exact H|exact Wh]].
    destruct (whole_some ss Wh) as (es & ->). rewrite map_length in Fu. apply holds_hholds in H.
    destruct (clear_spec sz S es c (Datatypes.S (N.to_nat (c_n c)))) as (c' & -> & H' & Eb); [lia|exact H|]. cbn [bind fst snd].
    eexists _, _. split; [reflexivity|]. rewrite map_dtor. split.
    + apply (linv_replace w log i Vec c _ _ 0); auto; try lia; try (now left); [apply built_dtor|].
      rewrite destroyed_dtor. cbn [obj_ids seq]. rewrite (ids_holds _ _ _ _ H), (ids_holds _ _ _ _ H'). cbn [map]. rewrite !app_nil_r, map_rev. apply Permutation_rev.
    + unfold put. cbn [w_objs]. apply habs_upd; [exact R|]. apply (rel_vec sz c' []); [now apply (proj1 (holds_hholds sz Vec c' []))|congruence|reflexivity|reflexivity].
  - (* ToArray *)
    pose proof (C i) as Ci. unfold rel in Ci. destruct (get (w_objs w) i) as [[k c]|] eqn:G; destruct (get aw i) as [[kd room n l]|] eqn:G'; try contradiction; try exact SKIP.
    cbn [h_kind h_room h_size h_vals] in Ci. destruct Ci as (-> & Er & En & Iv & ss & H & ->). destruct kd; [|exact SKIP].
    eexists _, _. split; [reflexivity|]. unfold add, put. cbn [w_objs]. split.
    + eapply (linv_evolve w log _ _ [] 0); [exact W|reflexivity|lia| |now left].
      destruct (flat_upd obj_ids (w_objs w) i (Vec, c) (Some (Vec, mkCont no_buf 0)) G) as (m & P1 & P2). unfold alive. cbn [seq destroyed flat_map app].
      rewrite flat_map_app, P2, P1, app_nil_r. cbn [obj_ids no_buf c_buf b_slots slot_ids flat_map app]. rewrite app_nil_r. apply Permutation_app_comm.
    + apply habs_add; [apply habs_upd; auto|]. cbn [rel h_kind h_room h_size h_vals]. split; [reflexivity|]. split; [exact Er|]. split; [exact En|]. split; [exact Iv|]. exists ss. split; [now apply hholds_arr|reflexivity].
  - (* MoveC *)
    pose proof (C i) as Ci. destruct (get (w_objs w) i) as [[k c]|] eqn:G; destruct (get aw i) as [h|] eqn:G'; try contradiction; try exact SKIP.
    eexists _, _. split; [reflexivity|]. unfold add, put. cbn [w_objs]. split.
    + eapply (linv_evolve w log _ _ [] 0); [exact W|reflexivity|lia| |now left].
      destruct (flat_upd obj_ids (w_objs w) i (k, c) (Some (k, mkCont no_buf 0)) G) as (m & P1 & P2). unfold alive. cbn [seq destroyed flat_map app].
      rewrite flat_map_app, P2, P1, app_nil_r. cbn [obj_ids no_buf c_buf b_slots slot_ids flat_map app]. rewrite app_nil_r. apply Permutation_app_comm.
    + pose proof (proj1 Ci) as K. apply habs_add; [apply habs_upd; [exact R|rewrite K; apply NB]|exact Ci].
  - (* SwapC *)
    pose proof (C i) as Ci. pose proof (C j) as Cj. destruct (get (w_objs w) i) as [[k c]|] eqn:G; destruct (get aw i) as [h|] eqn:G'; try contradiction; try exact SKIP.
    destruct (get (w_objs w) j) as [[k' c']|] eqn:Gj; destruct (get aw j) as [h'|] eqn:Gj'; try contradiction; try exact SKIP.
    pose proof (proj1 Ci) as Ki. pose proof (proj1 Cj) as Kj. assert (Bool.eqb (is_vec (h_kind h)) (is_vec (h_kind h')) = Bool.eqb (is_vec k) (is_vec k')) as EQ by congruence. rewrite EQ. clear EQ. destruct (Bool.eqb (is_vec k) (is_vec k')) eqn:K; try exact SKIP.
    assert (k' = k) as E by (destruct k, k'; try reflexivity; discriminate). clear Ki Kj. rewrite E in *. clear E k' K.
    eexists _, _. split; [reflexivity|]. unfold put. cbn [w_objs w_next]. split.
    + eapply (linv_evolve w log _ _ [] 0); [exact W|reflexivity|lia| |now left].
      cbn [seq destroyed flat_map app]. rewrite app_nil_r. unfold alive. destruct (flat_upd obj_ids (w_objs w) i (k, c) (Some (k, c')) G) as (m & P & Q).
      destruct (Nat.eq_dec i j) as [<-|Nij].
      * rewrite G in Gj. injection Gj as <-.
        destruct (flat_upd obj_ids (upd (w_objs w) i (Some (k, c))) i (k, c) (Some (k, c)) (get_upd_same _ _ _ _ G)) as (m2 & P2 & Q2). rewrite Q2, <- P2, Q, <- P. reflexivity.
      * destruct (flat_upd obj_ids (upd (w_objs w) i (Some (k, c'))) j (k, c') (Some (k, c))) as (m2 & P2 & Q2); [now rewrite get_upd_other|].
        rewrite Q2, P. rewrite Q in P2. apply Permutation_app_inv_l in P2. now rewrite P2.
    + apply habs_upd; [apply habs_upd; [exact R|exact Cj]|exact Ci].
  - (* VecNull *)
    pose proof (C i) as Ci. unfold rel in Ci. destruct (get (w_objs w) i) as [[k c]|] eqn:G; destruct (get aw i) as [[kd room n l]|] eqn:G'; try contradiction; try exact SKIP.
    cbn [h_kind h_room h_size h_vals] in Ci. destruct Ci as (-> & Er & En & Iv & ss & H & ->). destruct kd; [|exact SKIP].
    unfold vec_dispose. destruct (whole (vals ss)) eqn:Wh; [|rewrite (hdestroy_hole _ _ _ _ H Wh); reflexivity].
    destruct (whole_some ss Wh) as (es & ->). apply holds_hholds in H. rewrite (destroy_spec _ _ _ _ H). cbn [bind fst snd]. eexists _, _. split; [reflexivity|]. rewrite map_dtor. split.
    + apply (linv_replace w log i Vec c _ _ 0); auto; try lia; try (now left); [apply built_dtor|].
      rewrite destroyed_dtor. cbn [obj_ids seq c_buf b_slots]. rewrite (ids_holds _ _ _ _ H), ids_none, !app_nil_r. reflexivity.
    + unfold put. cbn [w_objs]. apply habs_upd; [exact R|]. apply (rel_vec sz _ []); [|exact Er|reflexivity|reflexivity].
      destruct H as (r & B & L & Lt & _). apply (hholds_make sz Vec _ 0 [] (length (b_slots (c_buf c)))); cbn [b_slots b_bytes]; auto. now rewrite repeat_length.
  - (* ArrNull *)
    pose proof (C i) as Ci. unfold rel in Ci. destruct (get (w_objs w) i) as [[k c]|] eqn:G; destruct (get aw i) as [[kd room n l]|] eqn:G'; try contradiction; try exact SKIP.
    cbn [h_kind h_room h_size h_vals] in Ci. destruct Ci as (-> & Er & En & Iv & ss & H & ->). destruct kd; [exact SKIP|].
    unfold arr_dispose. destruct (whole (vals ss)) eqn:Wh; [|rewrite (hdestroy_hole _ _ _ _ H Wh); reflexivity].
    destruct (whole_some ss Wh) as (es & ->). pose proof H as HH. apply holds_hholds in H. rewrite (destroy_spec _ _ _ _ H). cbn [bind fst snd]. eexists _, _. split; [reflexivity|]. rewrite map_dtor. split.
    + apply (linv_replace w log i Arr c _ _ 0); auto; try lia; try (now left); [apply built_dtor|].
      rewrite destroyed_dtor. cbn [obj_ids seq c_buf b_slots]. rewrite (ids_holds _ _ _ _ H), ids_none, !app_nil_r. reflexivity.
    + unfold put. cbn [w_objs]. apply habs_upd; [exact R|]. cbn [rel h_kind h_room h_size h_vals c_n c_buf b_bytes]. split; [reflexivity|]. split; [exact Er|]. split; [exact En|]. split; [rewrite map_length; exact Iv|]. exists (repeat None (length es)). split.
      * pose proof HH as (r & B & _). apply (hholds_same sz Arr c (map Some es) _ _ r HH); [now rewrite repeat_length, map_length| |now rewrite repeat_length].
        rewrite <- repeat_app. f_equal. now rewrite B, app_length, map_length, repeat_length.
      * unfold vals. rewrite !map_map. clear. induction es as [|e es IH]; cbn; [reflexivity|now rewrite IH].
  - (* SetElem *)
    pose proof (C i) as Ci. unfold rel in Ci. destruct (get (w_objs w) i) as [[kd0 c]|] eqn:G; destruct (get aw i) as [[kd room n l]|] eqn:G'; try contradiction; try exact SKIP.
    cbn [h_kind h_room h_size h_vals] in Ci. destruct Ci as (-> & Er & En & Iv & ss & H & ->).
    pose proof (hset_spec sz kd c ss k v S H) as P. unfold vals at 1. rewrite nth_error_map. destruct (nth_error ss (N.to_nat k)) as [[e|]|] eqn:E; cbn [option_map].
    + destruct v as [x|].
      * destruct P as (c' & -> & H' & Eb & Ec). cbn [bind fst snd]. eexists _, _. split; [reflexivity|]. split.
        -- apply (linv_replace w log i kd c _ [] 0); auto; try lia; try (now left). cbn [obj_ids seq destroyed flat_map app].
           rewrite (hids _ _ _ _ H), (hids _ _ _ _ H'), app_nil_r. rewrite (slot_ids_upd ss (N.to_nat k) e); [reflexivity|exact E|reflexivity].
        -- unfold put. cbn [w_objs]. apply habs_upd; [exact R|]. cbn [rel h_kind h_room h_size h_vals]. split; [reflexivity|]. split; [congruence|]. split; [congruence|]. split; [rewrite length_upd; exact Iv|]. eexists. split; [exact H'|]. unfold vals. now rewrite map_upd.
      * rewrite P. cbn [bind fst snd]. eexists _, _. split; [reflexivity|]. unfold put. split; [now apply linv_same|now apply habs_same].
    + rewrite P. reflexivity.
    + rewrite P. cbn [bind fst snd]. destruct v; eexists _, _; (split; [reflexivity|]); unfold put; (split; [now apply linv_same|now apply habs_same]).
  - (* ViewEmplace *)
    pose proof (C i) as Ci. unfold rel in Ci. destruct (get (w_objs w) i) as [[kd0 c]|] eqn:G; destruct (get aw i) as [[kd room n l]|] eqn:G'; try contradiction; try exact SKIP.
    cbn [h_kind h_room h_size h_vals] in Ci. destruct Ci as (-> & Er & En & Iv & ss & H & ->).
    pose proof (hview_emplace_spec sz (w_next w) kd c ss k arg S H) as P. unfold vals at 1. rewrite nth_error_map. destruct (nth_error ss (N.to_nat k)) as [[e|]|] eqn:E; cbn [option_map].
    + destruct P as (c' & H' & Eb & Ec & ->). destruct (ids_upd ss (N.to_nat k) e (option_map (pair (w_next w)) arg) E) as (m & P1 & P2).
      assert (RR : habs sz (upd (w_objs w) i (Some (kd, c'))) (upd aw i (Some (mkShown kd room n (upd (vals ss) (N.to_nat k) arg))))).
      { apply habs_upd; [exact R|]. cbn [rel h_kind h_room h_size h_vals]. split; [reflexivity|]. split; [congruence|]. split; [congruence|]. split; [rewrite length_upd; exact Iv|]. eexists. split; [exact H'|]. unfold vals. rewrite map_upd. now destruct arg. }
      assert (IN : In (fst e) (alive w)).
      { unfold alive. apply in_flat_map. exists (Some (kd, c)). split; [unfold get in G; rewrite <- G; apply nth_In; now apply get_some in G|].
        cbn [obj_ids]. rewrite (hids _ _ _ _ H). eapply Permutation_in; [symmetry; exact P1|now left]. }
      destruct arg as [v|]; cbn [bind option_map] in *; (eexists _, _; split; [reflexivity|]; split; [|exact RR]).
      * apply (linv_replace w log i kd c _ [Dtor (fst e); Ctor (w_next w)] 1); auto; try lia.
        -- cbn [obj_ids seq destroyed flat_map app]. rewrite (hids _ _ _ _ H), (hids _ _ _ _ H'), P1, P2. cbn [app fst]. constructor. symmetry. apply Permutation_cons_append.
        -- right. left. intros x [<-|[]]. exact IN.
      * apply (linv_replace w log i kd c _ [Dtor (fst e)] 0); auto; try lia; try (now left).
        cbn [obj_ids seq destroyed flat_map app]. rewrite (hids _ _ _ _ H), (hids _ _ _ _ H'), P1, P2, app_nil_r. reflexivity.
    + rewrite P. reflexivity.
    + rewrite P. cbn [bind fst snd]. eexists _, _. split; [reflexivity|]. split; [now apply linv_same|now apply habs_same].
  - (* DropC *)
    pose proof (C i) as Ci. unfold rel in Ci. destruct (get (w_objs w) i) as [[k c]|] eqn:G; destruct (get aw i) as [h|] eqn:G'; try contradiction; try exact SKIP.
    destruct Ci as (-> & Er & En & Iv & ss & H & Ev). rewrite Ev. unfold vec_dispose, arr_dispose. destruct (whole (vals ss)) eqn:Wh.
    2:{ rewrite (hdestroy_hole _ _ _ _ H Wh). destruct (h_kind h); reflexivity. }
    destruct (whole_some ss Wh) as (es & ->). apply holds_hholds in H. rewrite (destroy_spec _ _ _ _ H). cbn [bind fst snd].
    assert (X : linv (put w i None) (log ++ map (fun e => Dtor (fst e)) es)).
    { rewrite map_dtor. unfold put. apply (linv_replace w log i (h_kind h) c None _ 0); auto; try lia; try (now left); [apply built_dtor|].
      rewrite destroyed_dtor. cbn [obj_ids seq]. rewrite (ids_holds _ _ _ _ H), !app_nil_r. reflexivity. }
    assert (RR : habs sz (w_objs (put w i None)) (upd aw i None)) by (unfold put; cbn [w_objs]; apply habs_upd; [exact R|exact I]).
    destruct (h_kind h); eexists _, _; (split; [reflexivity|]; split; [exact X|exact RR]).
Qed.
