From Verif Require Import Base BaseLemmas MemViewModel MemoryModel MemoryProofs ContainerModel ContainerSpec.
From Coq Require Import Permutation.
Local Arguments get : simpl never.

(** The elements [es] are in the first places of the buffer, the others are raw. *)
Definition holds {A} (sz : N) (k : kind) (c : cont A) (es : list (nat * A)) : Prop :=
  exists r, b_slots (c_buf c) = map Some es ++ repeat None r /\
    N.of_nat (length (b_slots (c_buf c))) = b_bytes (c_buf c) / sz /\ b_bytes (c_buf c) < 2 ^ 64 /\
    view_size sz (cont_view sz c) = N.of_nat (length es) /\ v_size (cont_view sz c) <= b_bytes (c_buf c) /\
    v_addr (cont_view sz c) = Some 0 /\ (k = Vec -> c_n c = N.of_nat (length es)).

Lemma slice_prefix b t : mview_slice (mkView (Some 0) b) 0 t = mkView (Some 0) (N.min t b).
Proof.
  unfold mview_slice. cbn [v_addr v_size ptr_add]. destruct (N.eqb_spec 0 t) as [<-|H]; [now rewrite N.min_0_l|].
  rewrite N.min_0_l. cbn [ptr_add]. f_equal. rewrite N.max_l by lia. lia.
Qed.
Lemma cont_view_is {A} sz (c : cont A) : cont_view sz c = mkView (Some 0) (N.min (u64 (sz * c_n c)) (b_bytes (c_buf c))).
Proof. unfold cont_view, bytes_view. apply slice_prefix. Qed.
Lemma div_mul_le sz n b : 0 < sz -> n <= b / sz -> sz * n <= b.
Proof. intros H1 H2. transitivity (sz * (b / sz)); [now apply N.mul_le_mono_l|]. apply N.mul_div_le. lia. Qed.

Lemma holds_make {A} sz k (b : buf A) n es r : 0 < sz -> b_slots b = map Some es ++ repeat None r ->
  N.of_nat (length (b_slots b)) = b_bytes b / sz -> b_bytes b < 2 ^ 64 -> n = N.of_nat (length es) -> holds sz k (mkCont b n) es.
Proof.
  intros S B L Lt ->. exists r. rewrite cont_view_is. cbn [c_buf c_n v_size v_addr]. repeat split; try assumption; try reflexivity; [|lia].
  assert (N.of_nat (length es) <= b_bytes b / sz) by (rewrite <- L, B, app_length, map_length; lia).
  pose proof (div_mul_le sz _ _ S H). unfold u64. rewrite N.mod_small by lia. unfold view_size. cbn [v_size]. rewrite N.min_l by assumption.
  rewrite N.mul_comm. apply N.div_mul. lia.
Qed.
Lemma holds_raw {A} sz k bytes : 0 < sz -> bytes < 2 ^ 64 -> holds sz k (mkCont (@raw_buf A sz bytes) 0) [].
Proof.
  intros S B. eapply (holds_make sz k _ 0 [] (N.to_nat (bytes / sz))); cbn [raw_buf b_slots b_bytes]; auto. rewrite repeat_length. lia.
Qed.
Lemma holds_none {A} sz k : 0 < sz -> holds (A := A) sz k (mkCont no_buf 0) [].
Proof. intros S. apply (holds_make sz k _ 0 [] 0); cbn; auto; try lia. Qed.
Lemma holds_kind {A} sz k (c : cont A) es : holds sz Vec c es -> holds sz k c es.
Proof. intros (r & H1 & H2 & H3 & H4 & H5 & H6 & H7). exists r. auto 10. Qed.

Lemma place_is sz b i : 0 < sz -> b < 2 ^ 64 -> i < b / sz -> place sz (mkView (Some 0) b) i = mkView (Some (i * sz)) sz.
Proof.
  intros S B I. assert (J : sz * (i + 1) <= b) by (apply div_mul_le; lia).
  assert (J2 : (i + 1) * sz <= b) by lia. assert (J3 : i * sz + sz <= b) by lia.
  assert (I2 : i + 1 < 2 ^ 64) by nia.
  unfold place, u64. rewrite (N.mod_small (i + 1)) by lia. rewrite !N.mod_small by lia. unfold mview_slice. cbn [v_addr v_size].
  destruct (N.eqb_spec (i * sz) ((i + 1) * sz)) as [E|E]; [lia|]. rewrite (N.min_l (i * sz) b) by lia. rewrite (N.max_l ((i + 1) * sz)) by lia.
  rewrite N.min_l by lia. cbn [ptr_add]. f_equal. lia.
Qed.
Lemma place_slot_is sz i : 0 < sz -> place_slot sz (mkView (Some (i * sz)) sz) = Ret (N.to_nat i).
Proof.
  intros S. unfold place_slot. cbn [v_size v_addr]. rewrite N.leb_refl, N.mod_mul by lia. cbn. rewrite N.div_mul by lia. reflexivity.
Qed.

Lemma upd_app_r {A} (a b : list A) x y : upd (a ++ x :: b) (length a) y = a ++ y :: b.
Proof. induction a as [|z a IH]; cbn; [reflexivity|now rewrite IH]. Qed.
Lemma nth_error_mid {A} (a b : list A) x : nth_error (a ++ x :: b) (length a) = Some x.
Proof. rewrite nth_error_app2, Nat.sub_diag by lia. reflexivity. Qed.

Lemma upd_map_mid {A B} (f : A -> B) a b x y : upd (map f a ++ x :: b) (length a) y = map f a ++ y :: b.
Proof. rewrite <- (map_length f a). apply upd_app_r. Qed.
Lemma nth_map_mid {A B} (f : A -> B) a b x : nth_error (map f a ++ x :: b) (length a) = Some x.
Proof. rewrite <- (map_length f a). apply nth_error_mid. Qed.
Lemma firstn_map_app {A B} (f : A -> B) a b : firstn (length a) (map f a ++ b) = map f a.
Proof. rewrite <- (map_length f a). rewrite firstn_app, Nat.sub_diag, firstn_all. cbn [firstn]. apply app_nil_r. Qed.
Lemma skipn_map_app {A B} (f : A -> B) a b : skipn (length a) (map f a ++ b) = b.
Proof. rewrite <- (map_length f a). now rewrite skipn_app, Nat.sub_diag, skipn_all. Qed.

(** Element constructors and destructors on a container in order. *)
Lemma emplace_spec {A} sz next (c : cont A) es arg : 0 < sz -> holds sz Vec c es ->
  vec_capacity sz c <= N.of_nat (length es) /\ vec_emplace sz next c arg = Ret (c, [], next, AError BasicOverflow) \/
  N.of_nat (length es) < vec_capacity sz c /\
  match arg with
  | None => vec_emplace sz next c arg = Ret (c, [], next, ARaised UserException)
  | Some v => exists c', vec_emplace sz next c arg = Ret (c', [Ctor next], S next, AOk) /\ holds sz Vec c' (es ++ [(next, v)]) /\
      b_bytes (c_buf c') = b_bytes (c_buf c)
  end.
Proof.
  intros S H. pose proof H as (r & B & L & Lt & V & Vle & Va & K). specialize (K eq_refl). unfold vec_emplace, vec_size. rewrite K.
  destruct (N.leb_spec (vec_capacity sz c) (N.of_nat (length es))) as [C|C]; [now left|right]. split; [exact C|].
  unfold vec_capacity in C. unfold bytes_view. rewrite place_is by assumption. cbn [v_size].
  destruct (N.eqb_spec sz 0); [lia|]. rewrite place_slot_is by assumption. cbn [bind]. rewrite Nat2N.id.
  destruct arg as [v|]; [|reflexivity]. unfold ctor_at.
  assert (LS : (length es < length (b_slots (c_buf c)))%nat) by lia. destruct (Nat.ltb_spec (length es) (length (b_slots (c_buf c)))); [|lia]. cbn [bind].
  eexists. split; [reflexivity|]. split; [|reflexivity].
  destruct r as [|r]; [rewrite B, app_length, map_length in LS; cbn in LS; lia|].
  assert (B' : upd (b_slots (c_buf c)) (length es) (Some (next, v)) = map Some (es ++ [(next, v)]) ++ repeat None r).
  { rewrite B. cbn [repeat]. rewrite upd_map_mid, map_app, <- app_assoc. reflexivity. }
  apply (holds_make sz Vec _ _ _ r); cbn [b_slots b_bytes]; try assumption.
  - now rewrite length_upd.
  - unfold u64. rewrite app_length. cbn [length]. rewrite N.mod_small; [lia|]. assert (b_bytes (c_buf c) / sz <= b_bytes (c_buf c)) by (apply N.div_le_upper_bound; nia). lia.
Qed.
Lemma pop_spec {A} sz (c : cont A) es e : 0 < sz -> holds sz Vec c (es ++ [e]) ->
  exists c', vec_pop sz c = Ret (c', [Dtor (fst e)]) /\ holds sz Vec c' es /\ b_bytes (c_buf c') = b_bytes (c_buf c).
Proof.
  intros S (r & B & L & Lt & V & Vle & Va & K). specialize (K eq_refl). rewrite app_length in K. cbn [length] in K.
  assert (CAP : c_n c <= b_bytes (c_buf c) / sz) by (rewrite <- L, B, app_length, map_length, app_length; cbn [length]; lia).
  assert (b_bytes (c_buf c) / sz <= b_bytes (c_buf c)) by (apply N.div_le_upper_bound; nia).
  unfold vec_pop, vec_size. destruct (N.ltb_spec (c_n c) 1); [lia|].
  assert (SB : sub64 (c_n c) 1 = N.of_nat (length es)) by (unfold sub64, sub_wrap; symmetry; apply N.mod_unique with 1; lia). rewrite SB.
  unfold bytes_view. rewrite place_is by (try assumption; lia). rewrite place_slot_is by assumption. cbn [bind]. rewrite Nat2N.id.
  unfold dtor_at. rewrite B, map_app, <- app_assoc. cbn [map app]. rewrite nth_map_mid. cbn [bind fst snd].
  eexists. split; [reflexivity|]. split; [|reflexivity]. rewrite upd_map_mid.
  apply (holds_make sz Vec _ _ _ (Datatypes.S r)); cbn [b_slots b_bytes]; try assumption; try reflexivity.
  rewrite <- L, B, map_app, <- app_assoc, !app_length. cbn [length map app]. reflexivity.
Qed.
Lemma pop_empty {A} sz (c : cont A) : holds sz Vec c [] -> vec_pop sz c = Ret (c, []).
Proof. intros (r & _ & _ & _ & _ & _ & _ & K). unfold vec_pop, vec_size. rewrite (K eq_refl). reflexivity. Qed.
Lemma clear_spec {A} sz : 0 < sz -> forall es (c : cont A) fuel, (length es < fuel)%nat -> holds sz Vec c es ->
  exists c', vec_clear fuel sz c = Ret (c', map (fun e => Dtor (fst e)) (rev es)) /\ holds sz Vec c' [] /\ b_bytes (c_buf c') = b_bytes (c_buf c).
Proof.
  intros S es. induction es as [|e es IH] using rev_ind; intros c fuel F H; (destruct fuel as [|fuel]; [lia|]); cbn [vec_clear]; unfold vec_size.
  - pose proof H as (r & _ & _ & _ & _ & _ & _ & K). rewrite (K eq_refl). cbn. exists c. auto.
  - pose proof H as (r & _ & _ & _ & _ & _ & _ & K). rewrite (K eq_refl). rewrite app_length in *. cbn [length] in *.
    destruct (N.ltb_spec 0 (N.of_nat (length es + 1))); [|lia]. destruct (pop_spec sz c es e S H) as (c1 & -> & H1 & E1). cbn [bind fst snd].
    destruct (IH c1 fuel) as (c2 & -> & H2 & E2); [lia|exact H1|]. cbn [bind fst snd]. exists c2. rewrite rev_app_distr. cbn [rev app map]. split; [reflexivity|]. split; [exact H2|congruence].
Qed.
Lemma dtors_some {A} (es : list (nat * A)) : dtors (map Some es) = Ret (repeat None (length es), map (fun e => Dtor (fst e)) es).
Proof. induction es as [|e es IH]; cbn [map dtors length repeat]; [reflexivity|]. rewrite IH. reflexivity. Qed.
Lemma destroy_spec {A} sz k (c : cont A) es : holds sz k c es ->
  destroy_all sz c = Ret (mkBuf (b_bytes (c_buf c)) (repeat None (length (b_slots (c_buf c)))), map (fun e => Dtor (fst e)) es).
Proof.
  intros (r & B & L & Lt & V & _). unfold destroy_all. rewrite V, Nat2N.id.
  assert (LS : length (b_slots (c_buf c)) = (length es + r)%nat) by (rewrite B, app_length, map_length, repeat_length; reflexivity).
  destruct (Nat.ltb_spec (length (b_slots (c_buf c))) (length es)); [lia|].
  rewrite LS, B, firstn_map_app, dtors_some, skipn_map_app. cbn [bind fst snd]. now rewrite <- repeat_app.
Qed.
Lemma values_some {A} (es : list (nat * A)) : values (map Some es) = Ret (map snd es).
Proof. induction es as [|e es IH]; cbn [map values]; [reflexivity|]. rewrite IH. reflexivity. Qed.
Lemma elems_holds {A} sz k (c : cont A) es : holds sz k c es -> elems sz c = map Some es.
Proof.
  intros (r & B & L & Lt & V & _). unfold elems. rewrite V, Nat2N.id, B. apply firstn_map_app.
Qed.
Lemma contents_spec {A} sz k (c : cont A) es : holds sz k c es -> contents_of sz c = Ret (map snd es).
Proof. intros H. unfold contents_of. rewrite (elems_holds _ _ _ _ H). apply values_some. Qed.
Lemma view_bytes {A} sz k (c : cont A) es i : 0 < sz -> holds sz k c es -> i < N.of_nat (length es) -> sz * i + sz <= v_size (cont_view sz c) < 2 ^ 64.
Proof.
  intros S (r & B & L & Lt & V & Vle & _) I. unfold view_size in V. split; [|lia].
  replace (sz * i + sz) with (sz * (i + 1)) by lia. apply div_mul_le; [assumption|lia].
Qed.
Lemma at_spec {A} sz k (c : cont A) es i : 0 < sz -> holds sz k c es ->
  elem_at sz c i = match nth_error (map snd es) (N.to_nat i) with Some x => Ret x | None => Throws IndexOutOfRange end.
Proof.
  intros S H. pose proof H as (r & B & L & Lt & V & _). unfold elem_at. rewrite V.
  destruct (N.leb_spec (N.of_nat (length es)) i) as [C|C].
  - assert (E : nth_error (map snd es) (N.to_nat i) = None) by (apply nth_error_None; rewrite map_length; lia). now rewrite E.
  - pose proof (view_bytes sz k c es i S H C) as VB. unfold u64. rewrite (N.mod_small (sz * i)) by lia. rewrite N.mod_small by lia.
    destruct (N.ltb_spec (v_size (cont_view sz c)) (sz * i + sz)); [lia|]. rewrite B, nth_error_app1 by (rewrite map_length; lia).
    rewrite !nth_error_map. destruct (nth_error es (N.to_nat i)) eqn:E; [reflexivity|]. apply nth_error_None in E. lia.
Qed.
Lemma index_spec_l {A} eqb (x : A) es : forall i, exists o, index_loop eqb x i (map Some es) = Ret (option_map (N.add i) o) /\ first_index eqb x (map snd es) o.
Proof.
  induction es as [|e es IH]; intros i; cbn [map index_loop].
  - exists None. split; [reflexivity|]. intros y [].
  - destruct (eqb x (snd e)) eqn:E.
    + exists (Some 0). cbn [option_map]. rewrite N.add_0_r. split; [reflexivity|]. exists (snd e). cbn. split; [reflexivity|]. split; [exact E|]. intros; lia.
    + destruct (IH (i + 1)) as (o & -> & F). destruct o as [j|]; cbn [option_map first_index] in *.
      * exists (Some (1 + j)). cbn [option_map]. split; [f_equal; f_equal; lia|]. destruct F as (y & F1 & F2 & F3). exists y.
        replace (N.to_nat (1 + j)) with (S (N.to_nat j)) by lia. cbn [nth_error]. split; [exact F1|]. split; [exact F2|].
        intros [|j'] z Hj; cbn [nth_error]; [intros [= <-]; exact E|]. apply F3. lia.
      * exists None. split; [reflexivity|]. intros y [<-|Y]; [exact E|now apply F].
Qed.

Lemma set_at {A} (es : list (nat * A)) r i e v : nth_error es i = Some e ->
  exists es', upd (map Some es ++ repeat None r) i (Some v) = map Some es' ++ repeat None r /\ length es' = length es /\ es' = upd es i v.
Proof.
  intros H. exists (upd es i v). split; [|split; [apply length_upd|reflexivity]]. revert i H; induction es as [|x es IH]; intros [|i] H; cbn in *; try discriminate; [reflexivity|].
  now rewrite (IH i H).
Qed.
Lemma upd_split {A} (l : list A) i x : nth_error l i = Some x -> exists a b, l = a ++ x :: b /\ length a = i /\ forall y, upd l i y = a ++ y :: b.
Proof.
  intros H. apply nth_error_split in H as (a & b & -> & <-). exists a, b. split; [reflexivity|]. split; [reflexivity|]. intros y. apply upd_app_r.
Qed.
Lemma holds_same {A} sz k (c : cont A) (es es' : list (nat * A)) s r : holds sz k c es -> length es' = length es -> s = map Some es' ++ repeat None r ->
  length s = length (b_slots (c_buf c)) -> holds sz k (mkCont (mkBuf (b_bytes (c_buf c)) s) (c_n c)) es'.
Proof.
  intros (r0 & B & L & Lt & V & Vle & Va & K) E -> Ls. exists r. rewrite cont_view_is in *. cbn [c_buf c_n b_slots b_bytes v_size v_addr] in *. rewrite E, Ls. auto 10.
Qed.
Lemma set_spec {A} sz k (c : cont A) es i v : 0 < sz -> holds sz k c es ->
  exists c' a es', elem_set sz c i v = Ret (c', a) /\ holds sz k c' es' /\ map fst es' = map fst es /\
    (if N.of_nat (length es) <=? i then a = ARaised IndexOutOfRange /\ es' = es
     else match v with None => a = ARaised UserException /\ es' = es | Some x => a = AOk /\ map snd es' = upd (map snd es) (N.to_nat i) x end).
Proof.
  intros S H. pose proof H as (r & B & L & Lt & V & _). unfold elem_set. rewrite V.
  destruct (N.leb_spec (N.of_nat (length es)) i) as [C|C]; [exists c, (ARaised IndexOutOfRange), es; auto|].
  pose proof (view_bytes sz k c es i S H C) as VB. unfold u64. rewrite (N.mod_small (sz * i)) by lia. rewrite N.mod_small by lia.
  destruct (N.ltb_spec (v_size (cont_view sz c)) (sz * i + sz)); [lia|]. rewrite B, nth_error_app1 by (rewrite map_length; lia). rewrite nth_error_map.
  destruct (nth_error es (N.to_nat i)) as [e|] eqn:E; [|apply nth_error_None in E; lia]. cbn [option_map].
  destruct v as [v|]; [|exists c, (ARaised UserException), es; auto].
  destruct (set_at (A := A) es r (N.to_nat i) e (fst e, v) E) as (es' & U & Le & Ee). rewrite U. eexists _, _, es'. split; [reflexivity|].
  split; [eapply holds_same; [exact H|exact Le|reflexivity|]; rewrite <- U, length_upd, B; reflexivity|]. subst es'.
  destruct (upd_split es (N.to_nat i) e E) as (a & b & Q1 & Q2 & Q3). rewrite Q3, Q1, !map_app. cbn [map fst snd]. split; [reflexivity|]. split; [reflexivity|].
  rewrite <- Q2, <- (map_length snd a). now rewrite upd_app_r.
Qed.
Lemma set_bytes {A} sz (c : cont A) i v c' a : elem_set sz c i v = Ret (c', a) -> b_bytes (c_buf c') = b_bytes (c_buf c).
Proof.
  unfold elem_set. destruct (_ <=? _); [congruence|]. destruct (_ <? _); [congruence|]. destruct nth_error as [[e|]|]; destruct v; intros E; inversion E; reflexivity.
Qed.
Lemma upd_sections {A} (l : list A) i x : (i < length l)%nat -> upd l i x = firstn i l ++ x :: skipn (S i) l.
Proof. revert i. induction l as [|y l IH]; intros [|i] H; cbn [length] in H; try lia; cbn; [reflexivity|]. f_equal. apply IH. lia. Qed.
Lemma view_emplace_spec {A} sz next k (c : cont A) es i v : 0 < sz -> holds sz k c es ->
  N.of_nat (length es) <= i /\ elem_emplace sz next c i (Some v) = Ret (c, [], next, ARaised IndexOutOfRange) \/
  exists a e b c', es = a ++ e :: b /\ length a = N.to_nat i /\
    elem_emplace sz next c i (Some v) = Ret (c', [Dtor (fst e); Ctor next], S next, AOk) /\ holds sz k c' (a ++ (next, v) :: b).
Proof.
  intros S H. pose proof H as (r & B & L & Lt & V & Vle & Va & _). unfold elem_emplace. rewrite V.
  destruct (N.leb_spec (N.of_nat (length es)) i) as [C|C]; [left; auto|right].
  assert (CV : cont_view sz c = mkView (Some 0) (v_size (cont_view sz c))) by (rewrite cont_view_is; reflexivity).
  rewrite CV, place_is by (try assumption; try lia; fold (view_size sz (cont_view sz c)); lia). rewrite place_slot_is by assumption. cbn [bind].
  destruct (nth_error es (N.to_nat i)) as [e|] eqn:E; [|apply nth_error_None in E; lia]. apply nth_error_split in E as (a & b & -> & La).
  exists a, e, b. unfold dtor_at. rewrite B, map_app, <- app_assoc. cbn [map app]. rewrite <- La. rewrite nth_map_mid. cbn [bind fst snd].
  unfold ctor_at. cbn [b_slots b_bytes]. rewrite !upd_map_mid.
  match goal with |- context [Nat.ltb ?x ?y] => destruct (Nat.ltb_spec x y) as [Q|Q] end.
  2:{ rewrite app_length, map_length in Q. cbn [length] in Q. lia. }
  cbn [bind app]. eexists. split; [reflexivity|]. split; [reflexivity|]. split; [reflexivity|].
  eapply holds_same; [exact H| | |].
  - rewrite !app_length. reflexivity.
  - rewrite map_app, <- app_assoc. cbn [map app]. reflexivity.
  - rewrite B, map_app, <- app_assoc. cbn [map app]. rewrite !(app_length (map Some a)). reflexivity.
Qed.

(** Factories. *)
Lemma guarded_spec {A} (args : list (option A)) : forall next (done : list (nat * A)) (rest : list (slot A)), (length args <= length rest)%nat ->
  (exists vs es, args = map Some vs /\ es = combine (seq next (length vs)) vs /\
     guarded next done args rest = Ret (Some (map Some (rev done ++ es) ++ skipn (length args) rest), map Ctor (seq next (length vs)), (next + length vs)%nat)) \/
  (exists vs rest', args = map Some vs ++ None :: rest' /\
     guarded next done args rest = Ret (None, map Ctor (seq next (length vs)) ++ map Dtor (rev (map fst (rev done) ++ seq next (length vs))), (next + length vs)%nat)).
Proof.
  induction args as [|[v|] args IH]; intros next done rest L; cbn [length] in L.
  - left. exists [], []. cbn [map combine seq length app skipn]. rewrite Nat.add_0_r. split; [reflexivity|]. split; [reflexivity|]. cbn [guarded]. now rewrite app_nil_r.
  - destruct rest as [|y rest]; cbn [length] in L; [lia|]. cbn [guarded].
    destruct (IH (S next) ((next, v) :: done) rest) as [(vs & es & E1 & E2 & E3)|(vs & rs & E1 & E3)]; [lia| |]; rewrite E3; cbn [bind].
    + left. exists (v :: vs), ((next, v) :: es). subst args es. cbn [map length seq combine skipn]. split; [reflexivity|]. split; [reflexivity|].
      cbn [rev]. rewrite <- app_assoc. cbn [app]. replace (next + Datatypes.S (length vs))%nat with (Datatypes.S next + length vs)%nat by lia. reflexivity.
    + right. exists (v :: vs), rs. subst args. cbn [map length seq app]. split; [reflexivity|]. cbn [rev].
      rewrite !map_app. cbn [map fst]. rewrite <- app_assoc. cbn [app]. replace (next + Datatypes.S (length vs))%nat with (Datatypes.S next + length vs)%nat by lia. reflexivity.
  - destruct rest as [|y rest]; cbn [length] in L; [lia|]. right. exists [], args. cbn [map app seq length guarded]. split; [reflexivity|]. rewrite Nat.add_0_r, app_nil_r, <- map_rev, rev_involutive, map_map. reflexivity.
Qed.

Lemma ids_some {A} (es : list (nat * A)) : slot_ids (map Some es) = map fst es.
Proof. induction es as [|e es IH]; cbn; [reflexivity|]. f_equal. exact IH. Qed.
Lemma ids_none {A} r : slot_ids (repeat (@None (nat * A)) r) = [].
Proof. induction r; cbn; auto. Qed.
Lemma ids_holds {A} sz k (c : cont A) es : holds sz k c es -> slot_ids (b_slots (c_buf c)) = map fst es.
Proof. intros (r & B & _). rewrite B. unfold slot_ids. rewrite flat_map_app. fold (slot_ids (map Some es)). fold (slot_ids (repeat (@None (nat * A)) r)). now rewrite ids_some, ids_none, app_nil_r. Qed.

Lemma flat_upd {A B} (f : option A -> list B) l i r x : get l i = Some r ->
  exists m, Permutation (flat_map f l) (f (Some r) ++ m) /\ Permutation (flat_map f (upd l i x)) (f x ++ m).
Proof.
  unfold get. revert i; induction l as [|y l IH]; intros i H; [destruct i; discriminate|]. destruct i as [|i]; cbn [nth] in H.
  - subst y. exists (flat_map f l). split; reflexivity.
  - destruct (IH i H) as (m & P & Q). exists (f y ++ m). cbn [flat_map upd]. split.
    + rewrite P. apply Permutation_app_swap_app.
    + rewrite Q. apply Permutation_app_swap_app.
Qed.
Lemma built_app a b : built (a ++ b) = built a ++ built b.
Proof. apply flat_map_app. Qed.
Lemma destroyed_app a b : destroyed (a ++ b) = destroyed a ++ destroyed b.
Proof. apply flat_map_app. Qed.
Lemma built_ctor l : built (map Ctor l) = l.
Proof. induction l; cbn; [reflexivity|now f_equal]. Qed.
Lemma built_dtor l : built (map Dtor l) = [].
Proof. induction l; auto. Qed.
Lemma destroyed_dtor l : destroyed (map Dtor l) = l.
Proof. induction l; cbn; [reflexivity|now f_equal]. Qed.
Lemma destroyed_ctor l : destroyed (map Ctor l) = [].
Proof. induction l; auto. Qed.
Lemma map_dtor {A} (es : list (nat * A)) : map (fun e => Dtor (fst e)) es = map Dtor (map fst es).
Proof. now rewrite map_map. Qed.

Record winv {A : Type} (sz : N) (w : world A) (log : list life) : Prop := mkWinv {
  w_holds : forall i k c, get (w_objs w) i = Some (k, c) -> exists es, holds sz k c es;
  w_perm : Permutation (destroyed log ++ alive w) (built log);
  w_nodup : NoDup (built log);
  w_fresh : Forall (fun i => (i < w_next w)%nat) (built log);
  w_order : forall a x b, log = a ++ Dtor x :: b -> In x (built a)
}.
(** The destructors among some events: of objects alive before, or built by the same events. *)
Definition in_order {A} (w : world A) (ev : list life) : Prop :=
  incl (destroyed ev) (alive w) \/ exists l m, ev = map Ctor l ++ map Dtor m /\ incl m l.
Lemma winv0 {A} sz : winv sz (@world0 A) [].
Proof. constructor; cbn; try constructor. - intros [|i] k c H; discriminate. - intros [|? ?] x b H; discriminate. Qed.

Lemma ctors_then l : forall m ev x b, map Ctor l ++ map Dtor m = ev ++ Dtor x :: b -> built ev = l /\ In x m.
Proof.
  induction l as [|a l IH]; intros m ev x b E; cbn [map app] in E.
  - revert ev E; induction m as [|y m IH]; intros [|e ev] E; try discriminate; cbn [map app] in E.
    + injection E as -> _. split; [reflexivity|now left].
    + injection E as <- E. destruct (IH ev E) as (B & I). split; [exact B|now right].
  - destruct ev as [|e ev]; [discriminate|]. injection E as <- E. destruct (IH m ev x b E) as (B & I). split; [cbn; now f_equal|exact I].
Qed.
Lemma order_ev {A} (w : world A) log ev x b nb : Permutation (destroyed log ++ alive w) (built log) ->
  (exists r, Permutation (alive w ++ seq (w_next w) nb) (destroyed (ev ++ Dtor x :: b) ++ r)) ->
  nb = O \/ in_order w (ev ++ Dtor x :: b) -> In x (built log ++ built ev).
Proof.
  intros W (r & P) O. assert (I : In x (destroyed (ev ++ Dtor x :: b))) by (rewrite destroyed_app; apply in_or_app; right; now left).
  assert (L : In x (alive w) -> In x (built log ++ built ev)).
  { intros X. apply in_or_app. left. eapply Permutation_in; [exact W|]. apply in_or_app. now right. }
  destruct O as [->|[O|(l & m & E & O)]].
  - apply L. cbn [seq] in P. rewrite app_nil_r in P. eapply Permutation_in; [symmetry; exact P|]. apply in_or_app. now left.
  - apply L. now apply O.
  - apply in_or_app. right. destruct (ctors_then l m ev x b (eq_sym E)) as (-> & M). now apply O.
Qed.
Lemma winv_evolve {A} sz (w : world A) log (objs : list (option (kind * cont A))) nx ev nb : winv sz w log ->
  (forall i k c, get objs i = Some (k, c) -> exists es, holds sz k c es) ->
  built ev = seq (w_next w) nb -> nx = (w_next w + nb)%nat ->
  Permutation (alive w ++ seq (w_next w) nb) (destroyed ev ++ flat_map obj_ids objs) -> (nb = O \/ in_order w ev) ->
  winv sz (mkWorld objs nx) (log ++ ev).
Proof.
  intros [W1 W2 W3 W4 W5] H B -> P O. constructor; cbn [w_objs w_next].
  - exact H.
  - rewrite destroyed_app, built_app, B. unfold alive. cbn [w_objs]. rewrite <- app_assoc, <- P, app_assoc. now apply Permutation_app_tail.
  - rewrite built_app, B. clear - W3 W4. induction (built log) as [|x l IH]; [apply seq_NoDup|]. inversion W3; inversion W4; subst. cbn [app]. constructor; [|now apply IH].
    rewrite in_app_iff, in_seq. intros [X|X]; [contradiction|lia].
  - rewrite built_app, B. apply Forall_app. split; [eapply Forall_impl; [|exact W4]; cbn; intros; lia|]. apply Forall_forall. intros x X. apply in_seq in X. lia.
  - intros a x b E. apply app_eq_app in E as (l & [(-> & E)|(-> & ->)]).
    + destruct l as [|y l]; cbn [app] in E.
      * rewrite app_nil_r in W2. subst ev. pose proof (order_ev w a [] x b nb W2 (ex_intro _ _ P) O) as X. cbn in X. now rewrite app_nil_r in X.
      * injection E as <- ->. now apply (W5 a x l).
    + rewrite built_app. eapply order_ev; eauto.
Qed.

Lemma get_upd_cases {A} (l : list (option A)) i j x y : get (upd l i x) j = Some y -> x = Some y \/ get l j = Some y.
Proof. rewrite get_upd. destruct andb; auto. Qed.
Lemma get_app_cases {A} (l : list (option A)) x j y : get (l ++ [x]) j = Some y -> x = Some y \/ get l j = Some y.
Proof. rewrite get_app. destruct Nat.eqb; auto. Qed.

(** One object replaced. *)
Lemma winv_replace {A} sz (w : world A) log i k c (x : option (kind * cont A)) ev nb nx : winv sz w log -> get (w_objs w) i = Some (k, c) ->
  (forall k' c', x = Some (k', c') -> exists es, holds sz k' c' es) ->
  built ev = seq (w_next w) nb -> nx = (w_next w + nb)%nat ->
  Permutation (obj_ids (Some (k, c)) ++ seq (w_next w) nb) (destroyed ev ++ obj_ids x) -> nb = O \/ in_order w ev ->
  winv sz (mkWorld (upd (w_objs w) i x) nx) (log ++ ev).
Proof.
  intros W G X B E P O. eapply winv_evolve; try eassumption.
  - intros j k' c' H. apply get_upd_cases in H as [H|H]; [now apply X|]. now apply (w_holds _ _ _ W j).
  - destruct (flat_upd obj_ids (w_objs w) i (k, c) x G) as (m & P1 & P2). unfold alive. rewrite P1, P2.
    rewrite <- app_assoc, (Permutation_app_comm m), app_assoc, P, <- app_assoc. reflexivity.
Qed.
Lemma winv_add {A} sz (w : world A) log k (c : cont A) ev nb nx : winv sz w log -> (exists es, holds sz k c es) ->
  built ev = seq (w_next w) nb -> nx = (w_next w + nb)%nat ->
  Permutation (seq (w_next w) nb) (destroyed ev ++ slot_ids (b_slots (c_buf c))) -> nb = O \/ in_order w ev ->
  winv sz (mkWorld (w_objs w ++ [Some (k, c)]) nx) (log ++ ev).
Proof.
  intros W X B E P O. eapply winv_evolve; try eassumption.
  - intros j k' c' H. apply get_app_cases in H as [H|H]; [injection H as <- <-; exact X|]. now apply (w_holds _ _ _ W j).
  - rewrite P, flat_map_app. cbn [flat_map obj_ids]. rewrite app_nil_r. fold (alive w). apply Permutation_app_swap_app.
Qed.
Lemma winv_same {A} sz (w : world A) log : winv sz w log -> winv sz w (log ++ []).
Proof. now rewrite app_nil_r. Qed.
Lemma skip_ok {A} sz (w : world A) log : winv sz w log -> exists w' ev a, Ret (w, [], AOk) = Ret (w', ev, a) /\ winv sz w' (log ++ ev).
Proof. intros W. exists w, [], AOk. split; [reflexivity|now apply winv_same]. Qed.

Lemma slots_len {A} sz bytes : length (b_slots (@raw_buf A sz bytes)) = N.to_nat (bytes / sz).
Proof. cbn [raw_buf b_slots]. apply repeat_length. Qed.
Lemma map_fst_combine {A} (l : list nat) (vs : list A) : length l = length vs -> map fst (combine l vs) = l.
Proof. revert vs; induction l as [|x l IH]; intros [|v vs] H; cbn in *; try discriminate; [reflexivity|]. f_equal. apply IH. lia. Qed.
Lemma map_snd_combine {A} (l : list nat) (vs : list A) : length l = length vs -> map snd (combine l vs) = vs.
Proof. revert vs; induction l as [|x l IH]; intros [|v vs] H; cbn in *; try discriminate; [reflexivity|]. f_equal. apply IH. lia. Qed.
Lemma skipn_repeat {A} (x : A) n m : skipn n (repeat x m) = repeat x (m - n).
Proof. revert m; induction n as [|n IH]; intros [|m]; cbn; auto. Qed.

(** A factory: either all elements are built, or a constructor threw and those built are gone. *)
Lemma make_spec {A} sz next n (args : list (option A)) : 0 < sz -> N.of_nat (length args) = u64 (n * sz) / sz ->
  (exists vs c, args = map Some vs /\ make_cont sz next n args = Ret (Some c, map Ctor (seq next (length vs)), (next + length vs)%nat) /\
     holds sz Arr c (combine (seq next (length vs)) vs) /\ c_n c = n /\ b_bytes (c_buf c) = u64 (n * sz)) \/
  (exists vs rest, args = map Some vs ++ None :: rest /\
     make_cont sz next n args = Ret (None, map Ctor (seq next (length vs)) ++ map Dtor (rev (seq next (length vs))), (next + length vs)%nat)).
Proof.
  intros S L. unfold make_cont. set (bytes := u64 (n * sz)) in *.
  assert (LB : length args = length (b_slots (@raw_buf A sz bytes))) by (rewrite slots_len; lia).
  destruct (guarded_spec args next [] (b_slots (@raw_buf A sz bytes))) as [(vs & es & E1 & E2 & E3)|(vs & rs & E1 & E3)]; [lia| |]; rewrite E3; cbn [bind].
  - left. exists vs. eexists. split; [exact E1|]. split; [reflexivity|]. cbn [c_n c_buf b_bytes]. split; [|split; reflexivity].
    assert (Le : length es = length args) by (rewrite E2, combine_length, seq_length, E1, map_length; lia).
    exists O. cbn [rev app c_buf b_slots b_bytes]. rewrite <- E2. cbn [repeat]. rewrite app_nil_r.
    rewrite LB, skipn_all, app_nil_r. split; [reflexivity|]. split; [rewrite map_length, Le; exact L|]. split; [apply N.mod_lt; lia|].
    rewrite cont_view_is. cbn [c_n c_buf b_bytes v_size v_addr]. replace (sz * n) with (n * sz) by lia. fold bytes. rewrite N.min_id. unfold view_size. cbn [v_size].
    repeat split; try lia; try discriminate.
  - right. exists vs, rs. split; [exact E1|]. cbn [rev map app]. reflexivity.
Qed.

Lemma added_ok {A} sz (w : world A) log k n args : 0 < sz -> winv sz w log -> N.of_nat (length args) = u64 (n * sz) / sz ->
  (k = Vec -> n = N.of_nat (length args)) ->
  exists w' ev a, added w k (make_cont sz (w_next w) n args) = Ret (w', ev, a) /\ winv sz w' (log ++ ev).
Proof.
  intros S W L K. unfold added. destruct (make_spec sz (w_next w) n args S L) as [(vs & c & E1 & E2 & H & En & Eb)|(vs & rest & E1 & E2)]; rewrite E2; cbn [bind].
  - eexists _, _, _. split; [reflexivity|]. unfold add. apply (winv_add sz w log k c _ (length vs)); [exact W| |apply built_ctor|reflexivity| |].
    + exists (combine (seq (w_next w) (length vs)) vs). destruct k; [|exact H]. destruct H as (r & H1 & H2 & H3 & H4 & H5 & H6 & H7).
      exists r. repeat (split; [assumption|]). intros _. rewrite En, (K eq_refl), combine_length, seq_length, E1, map_length. f_equal. lia.
    + rewrite destroyed_ctor, (ids_holds _ _ _ _ H), map_fst_combine by apply seq_length. reflexivity.
    + right. left. rewrite destroyed_ctor. intros x [].
  - eexists _, _, _. split; [reflexivity|]. eapply winv_evolve; [exact W|exact (w_holds _ _ _ W)| |reflexivity| |].
    + rewrite built_app, built_ctor, built_dtor. apply app_nil_r.
    + rewrite destroyed_app, destroyed_ctor, destroyed_dtor. cbn [app]. rewrite Permutation_app_comm. apply Permutation_app_tail. apply Permutation_rev.
    + right. right. eexists _, _. split; [reflexivity|]. intros x X. now apply in_rev.
Qed.

Lemma cstep_ok {A} sz (w : world A) log o : 0 < sz -> winv sz w log -> orderly sz o ->
  exists w' ev a, cstep sz w o = Ret (w', ev, a) /\ winv sz w' (log ++ ev).
Proof.
  intros S W O. pose proof (w_holds _ _ _ W) as HW. destruct o; cbn [cstep orderly] in *.
  - eexists _, _, _. split; [reflexivity|]. apply (winv_add sz w log Vec _ [] 0); [exact W| |reflexivity|lia| |now left].
    + exists []. now apply holds_raw.
    + cbn [seq destroyed flat_map app c_buf raw_buf b_slots]. rewrite ids_none. constructor.
  - eexists _, _, _. split; [reflexivity|]. apply (winv_add sz w log Vec _ [] 0); [exact W| |reflexivity|lia| |now left].
    + exists []. apply holds_raw; [exact S|]. apply N.mod_lt. lia.
    + cbn [seq destroyed flat_map app c_buf raw_buf b_slots]. rewrite ids_none. constructor.
  - apply added_ok; try assumption; [|reflexivity]. unfold u64. rewrite N.mod_small by lia. symmetry. apply N.div_mul. lia.
  - apply added_ok; try assumption; [|discriminate]. rewrite map_length, seq_length. lia.
  - apply added_ok; try assumption; [|reflexivity]. unfold u64. rewrite N.mod_small by lia. symmetry. apply N.div_mul. lia.
  - destruct (get (w_objs w) i) as [[[] c]|] eqn:G; try (now apply skip_ok). destruct (HW _ _ _ G) as (es & H).
    destruct (emplace_spec sz (w_next w) c es arg S H) as [(_ & ->)|(_ & X)]; cbn [bind].
    + eexists _, _, _. split; [reflexivity|]. apply (winv_replace sz w log i Vec c _ [] 0); auto; try lia; try (now left).
      * intros k' c' [= <- <-]. eauto.
      * cbn [seq]. rewrite app_nil_r. reflexivity.
    + destruct arg as [v|].
      * destruct X as (c' & -> & H' & _). cbn [bind]. eexists _, _, _. split; [reflexivity|]. apply (winv_replace sz w log i Vec c _ [Ctor (w_next w)] 1); auto; try lia; try (now left).
        -- intros k' c'' [= <- <-]. eauto.
        -- cbn [obj_ids destroyed flat_map app]. rewrite (ids_holds _ _ _ _ H), (ids_holds _ _ _ _ H'), map_app. reflexivity.
        -- right. left. intros x [].
      * rewrite X. cbn [bind]. eexists _, _, _. split; [reflexivity|]. apply (winv_replace sz w log i Vec c _ [] 0); auto; try lia; try (now left).
        -- intros k' c' [= <- <-]. eauto.
        -- cbn [seq]. rewrite app_nil_r. reflexivity.
  - destruct (get (w_objs w) i) as [[[] c]|] eqn:G; try (now apply skip_ok). destruct (HW _ _ _ G) as (es & H).
    destruct es as [|e0 es0].
    + rewrite (pop_empty sz c H). cbn [bind fst snd]. eexists _, _, _. split; [reflexivity|]. apply (winv_replace sz w log i Vec c _ [] 0); auto; try lia; try (now left).
      * intros k' c' [= <- <-]. eauto.
      * cbn [seq]. rewrite app_nil_r. reflexivity.
    + destruct (@exists_last _ (e0 :: es0)) as (es & e & E); [discriminate|]. rewrite E in H. destruct (pop_spec sz c es e S H) as (c' & -> & H' & _). cbn [bind fst snd].
      eexists _, _, _. split; [reflexivity|]. apply (winv_replace sz w log i Vec c _ [Dtor (fst e)] 0); auto; try lia; try (now left).
      * intros k' c'' [= <- <-]. eauto.
      * cbn [obj_ids destroyed flat_map app seq]. rewrite (ids_holds _ _ _ _ H), (ids_holds _ _ _ _ H'), map_app, app_nil_r. symmetry. apply Permutation_cons_append.
  - destruct (get (w_objs w) i) as [[[] c]|] eqn:G; try (now apply skip_ok). destruct (HW _ _ _ G) as (es & H).
    assert (F : c_n c = N.of_nat (length es)) by (destruct H as (r & _ & _ & _ & _ & _ & _ & K); now apply K).
    destruct (clear_spec sz S es c (Datatypes.S (N.to_nat (c_n c)))) as (c' & -> & H' & _); [lia|exact H|]. cbn [bind fst snd].
    eexists _, _, _. split; [reflexivity|]. rewrite map_dtor. apply (winv_replace sz w log i Vec c _ _ 0); auto; try lia; try (now left).
    + intros k' c'' [= <- <-]. eauto.
    + apply built_dtor.
    + rewrite destroyed_dtor. cbn [obj_ids seq]. rewrite (ids_holds _ _ _ _ H), (ids_holds _ _ _ _ H'). cbn [map]. rewrite !app_nil_r, map_rev. apply Permutation_rev.
  - destruct (get (w_objs w) i) as [[[] c]|] eqn:G; try (now apply skip_ok). destruct (HW _ _ _ G) as (es & H).
    eexists _, _, _. split; [reflexivity|]. unfold add, put. cbn [w_objs].
    assert (W1 : winv sz (mkWorld (upd (w_objs w) i (Some (Vec, mkCont no_buf 0)) ++ [Some (Arr, c)]) (w_next w)) (log ++ [])).
    { eapply (winv_evolve sz w log _ _ [] 0); [exact W| |reflexivity|lia| |now left].
      - intros j k' c' X. apply get_app_cases in X as [X|X]; [injection X as <- <-; exists es; now apply holds_kind|].
        apply get_upd_cases in X as [X|X]; [injection X as <- <-; exists []; now apply holds_none|eauto].
      - destruct (flat_upd obj_ids (w_objs w) i (Vec, c) (Some (Vec, mkCont no_buf 0)) G) as (m & P1 & P2). unfold alive. cbn [seq destroyed flat_map app].
        rewrite flat_map_app, P2, P1, app_nil_r. cbn [obj_ids no_buf c_buf b_slots slot_ids flat_map app]. rewrite app_nil_r. apply Permutation_app_comm. }
    exact W1.
  - destruct (get (w_objs w) i) as [[k c]|] eqn:G; try (now apply skip_ok). destruct (HW _ _ _ G) as (es & H).
    eexists _, _, _. split; [reflexivity|]. unfold add, put. cbn [w_objs].
    eapply (winv_evolve sz w log _ _ [] 0); [exact W| |reflexivity|lia| |now left].
    + intros j k' c' X. apply get_app_cases in X as [X|X]; [injection X as <- <-; eauto|].
      apply get_upd_cases in X as [X|X]; [injection X as <- <-; exists []; now apply holds_none|eauto].
    + destruct (flat_upd obj_ids (w_objs w) i (k, c) (Some (k, mkCont no_buf 0)) G) as (m & P1 & P2). unfold alive. cbn [seq destroyed flat_map app].
      rewrite flat_map_app, P2, P1, app_nil_r. cbn [obj_ids no_buf c_buf b_slots slot_ids flat_map app]. rewrite app_nil_r. apply Permutation_app_comm.
  - destruct (get (w_objs w) i) as [[k c]|] eqn:G; try (now apply skip_ok). destruct (get (w_objs w) j) as [[k' c']|] eqn:G'; try (now apply skip_ok).
    destruct (Bool.eqb (is_vec k) (is_vec k')) eqn:K; try (now apply skip_ok).
    assert (k = k') as <- by (destruct k, k'; try reflexivity; discriminate). clear K.
    destruct (HW _ _ _ G) as (es & H). destruct (HW _ _ _ G') as (es' & H').
    eexists _, _, _. split; [reflexivity|]. unfold put. cbn [w_objs w_next].
    eapply (winv_evolve sz w log _ _ [] 0); [exact W| |reflexivity|lia| |now left].
    + intros x k2 c2 X. apply get_upd_cases in X as [X|X]; [injection X as <- <-; eauto|]. apply get_upd_cases in X as [X|X]; [injection X as <- <-; eauto|eauto].
    + cbn [seq destroyed flat_map app]. rewrite app_nil_r. unfold alive. destruct (flat_upd obj_ids (w_objs w) i (k, c) (Some (k, c')) G) as (m & P & Q).
      destruct (Nat.eq_dec i j) as [<-|Nij].
      * rewrite G in G'. injection G' as <-.
        destruct (flat_upd obj_ids (upd (w_objs w) i (Some (k, c))) i (k, c) (Some (k, c)) (get_upd_same _ _ _ _ G)) as (m2 & P2 & Q2). rewrite Q2, <- P2, Q, <- P. reflexivity.
      * destruct (flat_upd obj_ids (upd (w_objs w) i (Some (k, c'))) j (k, c') (Some (k, c))) as (m2 & P2 & Q2); [now rewrite get_upd_other|].
        rewrite Q2, P. rewrite Q in P2. apply Permutation_app_inv_l in P2. now rewrite P2.
  - destruct (get (w_objs w) i) as [[[] c]|] eqn:G; try (now apply skip_ok). destruct (HW _ _ _ G) as (es & H).
    unfold vec_dispose. rewrite (destroy_spec _ _ _ _ H). cbn [bind fst snd]. eexists _, _, _. split; [reflexivity|]. rewrite map_dtor.
    apply (winv_replace sz w log i Vec c _ _ 0); auto; try lia; try (now left).
    + intros k' c' [= <- <-]. exists []. destruct H as (r & B & L & Lt & _). apply (holds_make sz Vec _ 0 [] (length (b_slots (c_buf c)))); cbn [b_slots b_bytes]; auto. now rewrite repeat_length.
    + apply built_dtor.
    + rewrite destroyed_dtor. cbn [obj_ids seq c_buf b_slots]. rewrite (ids_holds _ _ _ _ H), ids_none, !app_nil_r. reflexivity.
  - contradiction.
  - destruct (get (w_objs w) i) as [[kd c]|] eqn:G; try (now apply skip_ok). destruct (HW _ _ _ G) as (es & H).
    destruct (set_spec sz kd c es k v S H) as (c' & a & es' & -> & H' & F & _). cbn [bind fst snd]. eexists _, _, _. split; [reflexivity|].
    apply (winv_replace sz w log i kd c _ [] 0); auto; try lia; try (now left).
    + intros k' c'' [= <- <-]. eauto.
    + cbn [obj_ids seq destroyed flat_map app]. rewrite (ids_holds _ _ _ _ H), (ids_holds _ _ _ _ H'), F, app_nil_r. reflexivity.
  - destruct arg as [v|]; [|contradiction].
    destruct (get (w_objs w) i) as [[kd c]|] eqn:G; try (now apply skip_ok). destruct (HW _ _ _ G) as (es & H).
    destruct (view_emplace_spec sz (w_next w) kd c es k v S H) as [(_ & ->)|(a & e & b & c' & -> & _ & -> & H')]; cbn [bind].
    + eexists _, _, _. split; [reflexivity|]. apply (winv_replace sz w log i kd c _ [] 0); auto; try lia; try (now left).
      * intros k' c' [= <- <-]. eauto.
      * cbn [seq]. rewrite app_nil_r. reflexivity.
    + eexists _, _, _. split; [reflexivity|]. apply (winv_replace sz w log i kd c _ [Dtor (fst e); Ctor (w_next w)] 1); auto; try lia; try (now left).
      * intros k' c'' [= <- <-]. eauto.
      * cbn [obj_ids seq destroyed flat_map app]. rewrite (ids_holds _ _ _ _ H), (ids_holds _ _ _ _ H'), !map_app. cbn [map].
        rewrite <- app_assoc. cbn [app]. rewrite <- (Permutation_middle (map fst a)). constructor. apply Permutation_app_head. symmetry. apply Permutation_cons_append.
      * right. left. intros x [<-|[]]. unfold alive. apply in_flat_map. exists (Some (kd, c)). split; [unfold get in G; rewrite <- G; apply nth_In; now apply get_some in G|].
        cbn [obj_ids]. rewrite (ids_holds _ _ _ _ H), map_app. apply in_or_app. right. now left.
  - destruct (get (w_objs w) i) as [[k c]|] eqn:G; try (now apply skip_ok). destruct (HW _ _ _ G) as (es & H).
    unfold vec_dispose, arr_dispose. rewrite (destroy_spec _ _ _ _ H). cbn [bind fst snd].
    assert (X : winv sz (put w i None) (log ++ map (fun e => Dtor (fst e)) es)).
    { rewrite map_dtor. unfold put. apply (winv_replace sz w log i k c None _ 0); auto; try lia; try (now left).
      - discriminate.
      - apply built_dtor.
      - rewrite destroyed_dtor. cbn [obj_ids seq]. rewrite (ids_holds _ _ _ _ H), !app_nil_r. reflexivity. }
    destruct k; eexists _, _, _; (split; [reflexivity|exact X]).
Qed.
Lemma crun_ok {A} sz ops : 0 < sz -> forall (w : world A) log, winv sz w log -> Forall (orderly sz) ops ->
  exists w' ev, crun sz w ops = Ret (w', ev) /\ winv sz w' (log ++ ev).
Proof.
  intros S. induction ops as [|o ops IH]; intros w log W F; [exists w, []; split; [reflexivity|now rewrite app_nil_r]|]. inversion F as [|? ? F1 F2]; subst.
  destruct (cstep_ok sz w log o S W F1) as (w1 & ev & a & E & W1). cbn [crun]. rewrite E. cbn [bind].
  destruct (IH w1 _ W1 F2) as (w2 & ev2 & E2 & W2). rewrite E2. cbn [bind fst snd]. exists w2, (ev ++ ev2). split; [reflexivity|]. now rewrite app_assoc.
Qed.

Lemma vec_obs_spec {A} sz (c : cont A) es : holds sz Vec c es -> vec_obs sz c = Ret (observed (vec_capacity sz c) (map snd es)).
Proof.
  intros H. unfold vec_obs. rewrite (contents_spec _ _ _ _ H). cbn [bind]. unfold observed, vec_full, vec_size, vec_empty. destruct H as (r & _ & _ & _ & _ & _ & _ & K).
  rewrite (K eq_refl), map_length. destruct es; reflexivity.
Qed.
Lemma vec_op_spec {A} eqb sz next (c : cont A) es o : 0 < sz -> holds sz Vec c es ->
  exists c' nx a es', vec_op eqb sz next c o = Ret (c', nx, a) /\ holds sz Vec c' es' /\ b_bytes (c_buf c') = b_bytes (c_buf c) /\
    vspec eqb (vec_capacity sz c) (map snd es) o (map snd es') a.
Proof.
  intros S H. destruct o; cbn [vec_op vspec]; rewrite ?map_length.
  - destruct (emplace_spec sz next c es arg S H) as [(C & ->)|(C & X)]; cbn [bind].
    + eexists _, _, _, es. split; [reflexivity|]. split; [exact H|]. split; [reflexivity|]. destruct (N.leb_spec (vec_capacity sz c) (N.of_nat (length es))); [auto|lia].
    + destruct (N.leb_spec (vec_capacity sz c) (N.of_nat (length es))); [lia|]. destruct arg as [v|].
      * destruct X as (c' & -> & H' & E). cbn [bind]. eexists _, _, _, _. split; [reflexivity|]. split; [exact H'|]. split; [exact E|]. rewrite map_app. auto.
      * rewrite X. cbn [bind]. eexists _, _, _, es. auto.
  - destruct es as [|e0 es0].
    + rewrite (pop_empty sz c H). cbn [bind fst]. eexists _, _, _, []. auto.
    + destruct (@exists_last _ (e0 :: es0)) as (es & e & E); [discriminate|]. rewrite E in *. destruct (pop_spec sz c es e S H) as (c' & -> & H' & Eb). cbn [bind fst].
      eexists _, _, _, es. split; [reflexivity|]. split; [exact H'|]. split; [exact Eb|]. rewrite map_app. cbn [map]. rewrite removelast_last. auto.
  - assert (F : c_n c = N.of_nat (length es)) by (destruct H as (r & _ & _ & _ & _ & _ & _ & K); now apply K).
    destruct (clear_spec sz S es c (Datatypes.S (N.to_nat (c_n c)))) as (c' & -> & H' & Eb); [lia|exact H|]. cbn [bind fst]. eexists _, _, _, []. auto.
  - rewrite (at_spec sz Vec c es i S H). destruct (nth_error (map snd es) (N.to_nat i)); eexists _, _, _, es; auto.
  - unfold elem_indexOf. rewrite (elems_holds _ _ _ _ H). destruct (index_spec_l eqb x es 0) as (o & -> & F). cbn [bind]. eexists _, _, _, es.
    split; [reflexivity|]. split; [exact H|]. split; [reflexivity|]. split; [reflexivity|]. eexists; split; [reflexivity|]. destruct o; exact F.
  - destruct (set_spec sz Vec c es i arg S H) as (c' & a & es' & E & H' & _ & P). rewrite E. cbn [bind fst snd]. eexists _, _, _, es'.
    split; [reflexivity|]. split; [exact H'|]. split; [eapply set_bytes; exact E|]. destruct (N.leb_spec (N.of_nat (length es)) i) as [C|C].
    + destruct P as (-> & ->). destruct (nth_error (map snd es) (N.to_nat i)) eqn:X; [|auto]. assert (nth_error (map snd es) (N.to_nat i) <> None) as Y by congruence.
      apply nth_error_Some in Y. rewrite map_length in Y. lia.
    + destruct (nth_error (map snd es) (N.to_nat i)) eqn:X; [|apply nth_error_None in X; rewrite map_length in X; lia].
      destruct arg as [x|]; [|destruct P as (-> & ->); auto]. destruct P as (-> & ->). split; [|reflexivity]. apply upd_sections. rewrite map_length. lia.
Qed.
