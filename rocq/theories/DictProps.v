(** Properties of Dictionary (C40, C41). *)
From Verif Require Import Base BaseLemmas MemViewModel MemoryModel MemoryProofs ContainerModel ContainerSpec ContainerProofs DictModel DictSpec.

(** A dictionary in order: as many keys as values. *)
Definition dholds {K V} (szk szv : N) (d : dict K V) (ks : list (nat * K)) (vs : list (nat * V)) : Prop :=
  holds szk Vec (d_keys d) ks /\ holds szv Vec (d_values d) vs /\ length ks = length vs.
Definition pairs {K V} (ks : list (nat * K)) (vs : list (nat * V)) : list (K * V) := combine (map snd ks) (map snd vs).

Lemma find_spec {K V} eqb (k : K) ks (vs : list (nat * V)) r : length ks = length vs ->
  find_loop eqb k (map Some ks) (map Some vs ++ r) = Ret (lookup eqb k (pairs ks vs)).
Proof.
  revert vs; induction ks as [|e ks IH]; intros [|v vs] L; try discriminate; [reflexivity|]. cbn [map find_loop pairs combine lookup app tl].
  destruct (eqb (snd e) k); [reflexivity|]. cbn in L. apply IH. lia.
Qed.
Lemma entries_spec {K V} (ks : list (nat * K)) (vs : list (nat * V)) : length ks = length vs -> entries_loop (map Some ks) (map Some vs) = Ret (pairs ks vs).
Proof.
  revert vs; induction ks as [|e ks IH]; intros [|v vs] L; try discriminate; [reflexivity|]. cbn [map entries_loop]. cbn in L. rewrite IH by lia. reflexivity.
Qed.
Lemma pairs_app {K V} (ks : list (nat * K)) (vs : list (nat * V)) a b : length ks = length vs -> pairs (ks ++ [a]) (vs ++ [b]) = pairs ks vs ++ [(snd a, snd b)].
Proof.
  revert vs; induction ks as [|e ks IH]; intros [|v vs] L; try discriminate; [reflexivity|]. cbn in L. unfold pairs in *. cbn [app map combine]. f_equal. apply IH. lia.
Qed.
Lemma length_pairs {K V} (ks : list (nat * K)) (vs : list (nat * V)) : length ks = length vs -> length (pairs ks vs) = length vs.
Proof. intros L. unfold pairs. rewrite combine_length, !map_length. lia. Qed.
Lemma map_fst_pairs {K V} (ks : list (nat * K)) (vs : list (nat * V)) : length ks = length vs -> map fst (pairs ks vs) = map snd ks.
Proof.
  revert vs; induction ks as [|e ks IH]; intros [|v vs] L; try discriminate; [reflexivity|]. cbn in L |- *. f_equal. apply IH. lia.
Qed.
Lemma holds_capacity {A} sz (c : cont A) es : holds sz Vec c es -> N.of_nat (length es) <= vec_capacity sz c.
Proof. intros (r & B & L & _). unfold vec_capacity. rewrite <- L, B, app_length, map_length. lia. Qed.

(** The number of entries both vectors have room for. *)
Definition room {K V} (szk szv : N) (d : dict K V) : N := N.min (vec_capacity szk (d_keys d)) (vec_capacity szv (d_values d)).

Lemma put_spec {K V} szk szv next (d : dict K V) ks vs k v : 0 < szk -> 0 < szv -> dholds szk szv d ks vs -> (k <> None \/ v = None \/ room szk szv d <= N.of_nat (length vs)) ->
  exists d' nx a ks' vs', dict_put szk szv next d k v = Ret (d', nx, a) /\ dholds szk szv d' ks' vs' /\
    vec_capacity szk (d_keys d') = vec_capacity szk (d_keys d) /\ vec_capacity szv (d_values d') = vec_capacity szv (d_values d) /\
    if room szk szv d <=? N.of_nat (length vs) then
      ((v = None /\ N.of_nat (length vs) < vec_capacity szv (d_values d) /\ a = ARaised UserException) \/ a = AError BasicOverflow) /\ ks' = ks /\ vs' = vs
    else match k, v with
         | Some k, Some v => a = AOk /\ ks' = ks ++ [(S next, k)] /\ vs' = vs ++ [(next, v)]
         | _, _ => a = ARaised UserException /\ ks' = ks /\ vs' = vs
         end.
Proof.
  intros Sk Sv (Hk & Hv & L) G. unfold dict_put, room in *. pose proof (holds_capacity _ _ _ Hk) as Ck. pose proof (holds_capacity _ _ _ Hv) as Cv.
  destruct (emplace_spec szv next (d_values d) vs v Sv Hv) as [(C & ->)|(C & X)]; cbn [bind].
  - eexists _, _, _, ks, vs. split; [reflexivity|]. destruct d as [dk dv]; cbn [d_keys d_values] in *. repeat split; try assumption.
    destruct (N.leb_spec (N.min (vec_capacity szk dk) (vec_capacity szv dv)) (N.of_nat (length vs))); [auto|lia].
  - destruct v as [v|].
    + destruct X as (c' & -> & Hv' & Eb). cbn [bind]. destruct (emplace_spec szk (S next) (d_keys d) ks k Sk Hk) as [(C2 & ->)|(C2 & Y)]; cbn [bind].
      * destruct (pop_spec szv c' vs (next, v) Sv Hv') as (c2 & -> & Hv2 & Eb2). cbn [bind fst]. eexists _, _, _, ks, vs. split; [reflexivity|]. cbn [d_keys d_values].
        split; [repeat split; assumption|]. split; [reflexivity|]. split; [unfold vec_capacity; congruence|]. destruct (N.leb_spec (N.min (vec_capacity szk (d_keys d)) (vec_capacity szv (d_values d))) (N.of_nat (length vs))); [auto|lia].
      * destruct k as [k|].
        -- destruct Y as (c2 & -> & Hk2 & Eb2). cbn [bind]. eexists _, _, _, _, _. split; [reflexivity|]. cbn [d_keys d_values].
           split; [repeat split; try eassumption; rewrite !app_length; cbn; lia|]. split; [unfold vec_capacity; congruence|]. split; [unfold vec_capacity; congruence|].
           destruct (N.leb_spec (N.min (vec_capacity szk (d_keys d)) (vec_capacity szv (d_values d))) (N.of_nat (length vs))); [lia|auto].
        -- exfalso. destruct G as [G|[G|G]]; [congruence|discriminate|lia].
    + rewrite X. cbn [bind]. eexists _, _, _, ks, vs. split; [reflexivity|]. destruct d as [dk dv]; cbn [d_keys d_values] in *. repeat split; try assumption.
      destruct (N.leb_spec (N.min (vec_capacity szk dk) (vec_capacity szv dv)) (N.of_nat (length vs))); [split; [left|]; auto|destruct k; auto].
Qed.

Lemma index_existsb {A} eqb (x : A) es : forall i, exists o, index_loop eqb x i (map Some es) = Ret o /\
  match o with Some _ => true | None => false end = existsb (fun y => eqb x y) (map snd es).
Proof.
  induction es as [|e es IH]; intros i; cbn [map index_loop existsb]; [exists None; auto|]. destruct (eqb x (snd e)); [exists (Some i); auto|]. apply IH.
Qed.
Lemma existsb_map {A B} (f : A -> B) p l : existsb p (map f l) = existsb (fun x => p (f x)) l.
Proof. induction l as [|x l IH]; cbn; [reflexivity|now rewrite IH]. Qed.

Lemma dict_op_spec {K V} eqb szk szv next (d : dict K V) ks vs o : 0 < szk -> 0 < szv -> dholds szk szv d ks vs -> sturdy_key o ->
  exists d' nx a ks' vs', dict_op eqb szk szv next d o = Ret (d', nx, a) /\ dholds szk szv d' ks' vs' /\ room szk szv d' = room szk szv d /\
    dspec eqb (room szk szv d) (pairs ks vs) o (pairs ks' vs') a.
Proof.
  intros Sk Sv H O. pose proof H as (Hk & Hv & L). destruct o as [k v|k|k]; cbn [dict_op dspec].
  - destruct k as [k|]; [|contradiction]. destruct (put_spec szk szv next d ks vs (Some k) v Sk Sv H) as (d' & nx & a & ks' & vs' & -> & H' & C1 & C2 & X); [left; discriminate|].
    cbn [bind]. eexists _, _, _, ks', vs'. split; [reflexivity|]. split; [exact H'|]. split; [unfold room; congruence|].
    rewrite length_pairs by exact L. destruct (room szk szv d <=? N.of_nat (length vs)).
    + destruct X as ([(-> & _ & ->)| ->] & -> & ->); auto.
    + destruct v as [v|]; destruct X as (-> & -> & ->); [rewrite pairs_app by exact L|]; auto.
  - unfold dict_find. rewrite (elems_holds _ _ _ _ Hk). pose proof Hv as (r & -> & _). rewrite find_spec by exact L. cbn [bind]. eexists _, _, _, ks, vs. auto.
  - unfold dict_contains, elem_indexOf. rewrite (elems_holds _ _ _ _ Hk). destruct (index_existsb eqb k ks 0) as (o & -> & E). cbn [bind].
    eexists _, _, _, ks, vs. split; [reflexivity|]. split; [exact H|]. split; [reflexivity|]. split; [reflexivity|]. rewrite E, <- (map_fst_pairs ks vs L), existsb_map. reflexivity.
Qed.
Lemma map_snd_pairs {K V} (ks : list (nat * K)) (vs : list (nat * V)) : length ks = length vs -> map snd (pairs ks vs) = map snd vs.
Proof.
  revert vs; induction ks as [|e ks IH]; intros [|v vs] L; try discriminate; [reflexivity|]. cbn in L |- *. f_equal. apply IH. lia.
Qed.
Lemma dict_run_spec {K V} (eqb : K -> K -> bool) szk szv ops : 0 < szk -> 0 < szv -> Forall (@sturdy_key K V) ops -> forall next d ks vs, dholds szk szv d ks vs ->
  exists r, dict_run eqb szk szv next d ops = Ret r /\ dbehaves eqb (room szk szv d) (pairs ks vs) ops r.
Proof.
  intros Sk Sv F. induction F as [|o ops O F IH]; intros next d ks vs H; [exists []; split; [reflexivity|constructor]|].
  destruct (dict_op_spec eqb szk szv next d ks vs o Sk Sv H O) as (d' & nx & a & ks' & vs' & E & H' & R & X). cbn [dict_run]. rewrite E. cbn [bind].
  unfold dict_entries, dict_keys, dict_values, dict_size, dict_empty. pose proof H' as (Hk' & Hv' & L'). rewrite (contents_spec _ _ _ _ Hk'), (contents_spec _ _ _ _ Hv').
  rewrite (elems_holds _ _ _ _ Hk'), (elems_holds _ _ _ _ Hv'), entries_spec by exact L'. cbn [bind].
  destruct (IH nx d' ks' vs' H') as (r & E2 & B). rewrite E2. cbn [bind].
  assert (Ob : mkDobs (pairs ks' vs') (map snd ks') (map snd vs') (vec_size (d_values d')) (vec_empty (d_values d')) = observe (pairs ks' vs')).
  { unfold observe, vec_empty, vec_size. pose proof Hv' as (q & _ & _ & _ & _ & _ & _ & K0). rewrite (K0 eq_refl), map_fst_pairs, map_snd_pairs, length_pairs by exact L'.
    f_equal. destruct vs', ks'; try discriminate; reflexivity. }
  rewrite Ob. eexists. split; [reflexivity|]. econstructor; [exact X|]. rewrite <- R. exact B.
Qed.
Lemma dholds_make {K V} szk szv kb vb : 0 < szk -> 0 < szv -> kb < 2 ^ 64 -> vb < 2 ^ 64 -> dholds szk szv (@dict_make K V szk szv kb vb) [] [].
Proof. intros. split; [now apply holds_raw|]. split; [now apply holds_raw|reflexivity]. Qed.

(** C40: a dictionary built on two buffers answers every history of put, find and contains
    as a map of at most min(keys buffer, values buffer) entries does; after every operation
    iteration, keys(), values(), size() and empty() show its entries in order. *)
Theorem C40_map_partial : forall K V (eqb : K -> K -> bool) szk szv kbytes vbytes next ops, 0 < szk -> 0 < szv -> kbytes < 2 ^ 64 -> vbytes < 2 ^ 64 ->
  Forall (@sturdy_key K V) ops ->
  exists r, dict_run eqb szk szv next (dict_make szk szv kbytes vbytes) ops = Ret r /\
    dbehaves eqb (N.min (kbytes / szk) (vbytes / szv)) [] ops r.
Proof. intros. apply (dict_run_spec eqb szk szv ops) with (d := dict_make szk szv kbytes vbytes) (ks := []) (vs := []); try assumption. now apply dholds_make. Qed.
Print Assumptions C40_map_partial.
(** makeDictionary(n): the dictionary holds [n] entries, unless the number of bytes it asks
    for wraps around. *)
Theorem C40_for_n_partial : forall K V (eqb : K -> K -> bool) szk szv n next ops, 0 < szk -> 0 < szv -> Forall (@sturdy_key K V) ops ->
  exists r capacity, dict_run eqb szk szv next (dict_make_n szk szv n) ops = Ret r /\ dbehaves eqb capacity [] ops r /\
    capacity = N.min ((n * szk) mod 2 ^ 64 / szk) ((n * szv) mod 2 ^ 64 / szv) /\
    (n * szk < 2 ^ 64 -> n * szv < 2 ^ 64 -> capacity = n /\ dict_capacity szv (@dict_make_n K V szk szv n) = n).
Proof.
  intros K V eqb szk szv n next ops Sk Sv St.
  destruct (C40_map_partial K V eqb szk szv ((n * szk) mod 2 ^ 64) ((n * szv) mod 2 ^ 64) next ops Sk Sv) as (r & E & B); try exact St; try (apply N.mod_upper_bound; discriminate).
  exists r. eexists. split; [exact E|]. split; [exact B|]. split; [reflexivity|]. intros Lk Lv.
  unfold dict_capacity, dict_make_n, dict_make, vec_capacity, u64. cbn [d_values c_buf raw_buf b_bytes].
  rewrite !N.mod_small by assumption. rewrite !N.div_mul by lia. split; [apply N.min_id|reflexivity].
Qed.
Print Assumptions C40_for_n_partial.
Example C40_for_n_case : exists r, dict_run N.eqb 8 4 0 (dict_make_n 8 4 2) [DPut (Some 1) (Some 10); DPut (Some 2) (Some 20); DPut (Some 3) (Some 30); DFind 2] = Ret r /\
  map snd r = [DDone; DDone; DRefused BasicOverflow; DFound (Some 20)] /\ Forall (@sturdy_key N N) [DPut (Some 1) (Some 10); DFind 2].
Proof. eexists. split; [vm_compute; reflexivity|]. split; [vm_compute; reflexivity|]. repeat constructor. Qed.
(** find answers "some" exactly for the keys put, with a value put under that key. *)
Lemma lookup_spec {K V} eqb (k : K) (l : list (K * V)) :
  match lookup eqb k l with
  | Some v => exists k', In (k', v) l /\ eqb k' k = true
  | None => forall k' v, In (k', v) l -> eqb k' k = false
  end.
Proof.
  induction l as [|[k' v'] l IH]; cbn [lookup]; [intros ? ? []|]. destruct (eqb k' k) eqn:E; [exists k'; split; [now left|exact E]|].
  destruct (lookup eqb k l) as [v|]; [destruct IH as (k2 & I & E2); exists k2; split; [now right|exact E2]|]. intros k2 v [[= <- <-]|I]; eauto.
Qed.
Theorem C40_find : forall K V (eqb : K -> K -> bool) (l : list (K * V)) k,
  (forall v, lookup eqb k l = Some v -> exists k', In (k', v) l /\ eqb k' k = true) /\
  (lookup eqb k l = None <-> forall k' v, In (k', v) l -> eqb k' k = false).
Proof.
  intros K V eqb l k. pose proof (lookup_spec eqb k l) as H. destruct (lookup eqb k l) as [v|]; split; try discriminate; try (split; auto).
  - intros v' [= <-]. exact H.
  - discriminate.
  - intros X. destruct H as (k' & I & E). specialize (X k' v I). congruence.
Qed.
Print Assumptions C40_find.
Example C40_case : exists r, dict_run N.eqb 8 16 0 (dict_make 8 16 40 32)
    [DPut (Some 3) (Some 30); DFind 3; DFind 4; DPut (Some 5) None; DPut (Some 5) (Some 50); DPut (Some 6) (Some 60); DContains 6; DContains 5] = Ret r /\
  map snd r = [DDone; DFound (Some 30); DFound None; DThrew UserException; DDone; DRefused BasicOverflow; DHas false; DHas true] /\
  map (fun x => do_entries (fst x)) r = [[(3, 30)]; [(3, 30)]; [(3, 30)]; [(3, 30)]; [(3, 30); (5, 50)]; [(3, 30); (5, 50)]; [(3, 30); (5, 50)]; [(3, 30); (5, 50)]].
Proof. eexists. split; [vm_compute; reflexivity|]. split; vm_compute; reflexivity. Qed.

(** What is missing: if moving the key throws, the value has already been stored and stays.
    From then on size() disagrees with the keys, and the next key put gets that value. *)
Theorem C40_throwing_key_refuted : forall K V (eqb : K -> K -> bool) szk szv k v1 v2 n, 0 < szk -> 0 < szv -> 2 <= n -> n * szk < 2 ^ 64 -> n * szv < 2 ^ 64 ->
  eqb k k = true ->
  exists d d' nx nx', dict_put szk szv 0 (@dict_make_n K V szk szv n) None (Some v1) = Ret (d, nx, ARaised UserException) /\
    dict_size d = 1 /\ dict_keys szk d = Ret [] /\
    dict_put szk szv nx d (Some k) (Some v2) = Ret (d', nx', AOk) /\ dict_find eqb szk d' k = Ret (Some v1) /\ dict_entries szk szv d' = UB.
Proof.
  intros K V eqb szk szv k v1 v2 n Sk Sv N2 Lk Lv Ek. unfold dict_make_n, u64. rewrite !N.mod_small by lia. unfold dict_make.
  set (kv := mkCont (@raw_buf K szk (n * szk)) 0). set (vv := mkCont (@raw_buf V szv (n * szv)) 0).
  assert (Hk : holds szk Vec kv []) by (apply holds_raw; assumption). assert (Hv : holds szv Vec vv []) by (apply holds_raw; assumption).
  assert (Ck : vec_capacity szk kv = n) by (unfold vec_capacity; cbn; apply N.div_mul; lia). assert (Cv : vec_capacity szv vv = n) by (unfold vec_capacity; cbn; apply N.div_mul; lia).
  unfold dict_put at 1. cbn [d_values d_keys].
  destruct (emplace_spec szv 0 vv [] (Some v1) Sv Hv) as [(C & _)|(_ & c1 & -> & Hv1 & Eb1)]; [cbn in C; lia|]. cbn [bind].
  destruct (emplace_spec szk 1 kv [] None Sk Hk) as [(C & _)|(_ & ->)]; [cbn in C; lia|]. cbn [bind].
  assert (Cv1 : vec_capacity szv c1 = n) by (unfold vec_capacity in *; congruence).
  destruct (emplace_spec szv 1 c1 _ (Some v2) Sv Hv1) as [(C & _)|(_ & c2 & E2 & Hv2 & Eb2)]; [cbn in C; lia|].
  destruct (emplace_spec szk 2 kv [] (Some k) Sk Hk) as [(C & _)|(_ & k2 & E3 & Hk2 & _)]; [cbn in C; lia|].
  exists (mkDict kv c1), (mkDict k2 c2), 1%nat, 3%nat. split; [reflexivity|]. unfold dict_size, dict_keys, vec_size, dict_put, dict_find, dict_entries. cbn [d_values d_keys].
  split; [destruct Hv1 as (? & _ & _ & _ & _ & _ & _ & X); rewrite (X eq_refl); reflexivity|]. split; [rewrite (contents_spec _ _ _ _ Hk); reflexivity|].
  rewrite E2. cbn [bind]. rewrite E3. cbn [bind]. split; [reflexivity|]. rewrite (elems_holds _ _ _ _ Hk2), (elems_holds _ _ _ _ Hv2). destruct Hv2 as (r & -> & _).
  cbn [map app find_loop snd]. rewrite Ek. split; reflexivity.
Qed.
Print Assumptions C40_throwing_key_refuted.
(** capacity() counts the values buffer only, so it may promise more than can be put. *)
Theorem C40_capacity_refuted : exists d nx, dict_put 8 8 0 (@dict_make N N 8 8 0 80) (Some 1) (Some 1) = Ret (d, nx, AError BasicOverflow) /\
  dict_capacity 8 (@dict_make N N 8 8 0 80) = 10.
Proof. eexists _, _. split; vm_compute; reflexivity. Qed.

Lemma dbehaves_app {K V} (eqb : K -> K -> bool) cap a : forall l b r, @dbehaves K V eqb cap l (a ++ b) r ->
  exists r1 r2 l1, r = r1 ++ r2 /\ dbehaves eqb cap l1 b r2.
Proof.
  induction a as [|o a IH]; intros l b r H; [exists [], r, l; auto|]. cbn [app] in H. inversion H as [|? ? l' x ? r' X Y]; subst.
  destruct (IH _ _ _ Y) as (r1 & r2 & l1 & -> & Z). exists ((observe l', x) :: r1), r2, l1. auto.
Qed.
Lemma lookup_app {K V} eqb (k : K) (l : list (K * V)) m : lookup eqb k (l ++ m) = match lookup eqb k l with Some v => Some v | None => lookup eqb k m end.
Proof. induction l as [|[k' v] l IH]; cbn [app lookup]; [reflexivity|]. destruct (eqb k' k); auto. Qed.

(** C41: find before a put, the put, and find after it. *)
Lemma C41_all {K V} (eqb : K -> K -> bool) szk szv kbytes vbytes next ops k v : 0 < szk -> 0 < szv -> kbytes < 2 ^ 64 -> vbytes < 2 ^ 64 ->
  Forall (@sturdy_key K V) ops -> eqb k k = true ->
  exists r o1 o2 o3 before a after,
    dict_run eqb szk szv next (dict_make szk szv kbytes vbytes) (ops ++ [DFind k; DPut (Some k) (Some v); DFind k]) =
      Ret (r ++ [(o1, DFound before); (o2, a); (o3, DFound after)]) /\
    (a = DDone \/ a = DRefused BasicOverflow /\ after = before) /\
    (before = None -> a = DDone -> after = Some v) /\ (forall w, before = Some w -> after = Some w).
Proof.
  intros Sk Sv Bk Bv F E. destruct (C40_map_partial K V eqb szk szv kbytes vbytes next (ops ++ [DFind k; DPut (Some k) (Some v); DFind k])) as (r & R & B); try assumption.
  { apply Forall_app. split; [exact F|]. repeat constructor. }
  destruct (dbehaves_app _ _ _ _ _ _ B) as (r1 & r2 & l & -> & B2). clear B.
  inversion B2 as [|? ? l1 a1 ? q1 X1 Y1]; subst. inversion Y1 as [|? ? l2 a2 ? q2 X2 Y2]; subst. inversion Y2 as [|? ? l3 a3 ? q3 X3 Y3]; subst. inversion Y3; subst.
  cbn [dspec] in *. destruct X1 as (-> & ->). destruct X3 as (-> & ->). eexists r1, _, _, _, _, a2, _. split; [exact R|].
  destruct (N.leb_spec (N.min (kbytes / szk) (vbytes / szv)) (N.of_nat (length l))).
  - destruct X2 as (-> & [-> |(? & _)]); [|discriminate]. split; [right; split; reflexivity|]. split; [discriminate|auto].
  - destruct X2 as (-> & ->). split; [now left|]. rewrite lookup_app. split; [intros -> _; cbn; now rewrite E|]. now intros w ->.
Qed.
Theorem C41_new_key_partial : forall K V (eqb : K -> K -> bool) szk szv kbytes vbytes next ops k v, 0 < szk -> 0 < szv -> kbytes < 2 ^ 64 -> vbytes < 2 ^ 64 ->
  Forall (@sturdy_key K V) ops -> eqb k k = true ->
  exists r o1 o2 o3 before a after,
    dict_run eqb szk szv next (dict_make szk szv kbytes vbytes) (ops ++ [DFind k; DPut (Some k) (Some v); DFind k]) =
      Ret (r ++ [(o1, DFound before); (o2, a); (o3, DFound after)]) /\
    (before = None -> a = DDone -> after = Some v).
Proof. intros. destruct (C41_all eqb szk szv kbytes vbytes next ops k v) as (r & o1 & o2 & o3 & b & a & f & E & _ & X & _); try assumption. exists r, o1, o2, o3, b, a, f. auto. Qed.
Print Assumptions C41_new_key_partial.
(** When the key is already there, put never replaces: find goes on returning the old value. *)
Theorem C41_replace_refuted : forall K V (eqb : K -> K -> bool) szk szv kbytes vbytes next ops k v, 0 < szk -> 0 < szv -> kbytes < 2 ^ 64 -> vbytes < 2 ^ 64 ->
  Forall (@sturdy_key K V) ops -> eqb k k = true ->
  exists r o1 o2 o3 before a after,
    dict_run eqb szk szv next (dict_make szk szv kbytes vbytes) (ops ++ [DFind k; DPut (Some k) (Some v); DFind k]) =
      Ret (r ++ [(o1, DFound before); (o2, a); (o3, DFound after)]) /\
    (forall w, before = Some w -> after = Some w).
Proof. intros. destruct (C41_all eqb szk szv kbytes vbytes next ops k v) as (r & o1 & o2 & o3 & b & a & f & E & _ & _ & X); try assumption. exists r, o1, o2, o3, b, a, f. auto. Qed.
Print Assumptions C41_replace_refuted.
Example C41_case : exists r, dict_run N.eqb 8 8 0 (dict_make 8 8 80 80)
    [DFind 1; DPut (Some 1) (Some 10); DFind 1; DPut (Some 1) (Some 11); DFind 1] = Ret r /\
  map snd r = [DFound None; DDone; DFound (Some 10); DDone; DFound (Some 10)].
Proof. eexists. split; vm_compute; reflexivity. Qed.
