(** C134: what a Dictionary does, whatever throws. *)
From Verif Require Import Base BaseLemmas MemViewModel MemoryModel MemoryProofs ContainerModel ContainerSpec ContainerProofs DictModel DictSpec DictProps ColumnsSpec.

(** The modelled Dictionary under a history: after each operation keys(), values(), size(),
    empty() and capacity(), and the answer. *)
Fixpoint dict_watch {K V} (eqb : K -> K -> bool) (szk szv : N) (next : nat) (d : dict K V) (ops : list (dop K V))
  : outcome (list (list K * list V * N * bool * N * dans V) * dict K V) :=
  match ops with
  | [] => Ret ([], d)
  | o :: ops' =>
      let! p := dict_op eqb szk szv next d o in
      let '(d', nx, a) := p in
      let! ks := dict_keys szk d' in
      let! vs := dict_values szv d' in
      let! r := dict_watch eqb szk szv nx d' ops' in
      Ret ((ks, vs, dict_size d', dict_empty d', dict_capacity szv d', a) :: fst r, snd r)
  end.
(** The same of the columns. *)
Definition shown {K V} (vcap : N) (p : columns K V * dans V) : list K * list V * N * bool * N * dans V :=
  (col_keys (fst p), col_values (fst p), N.of_nat (length (col_values (fst p))),
   match col_values (fst p) with [] => true | _ => false end, vcap, snd p).
Definition last_of {K V} (c : columns K V) (l : list (columns K V * dans V)) : columns K V := fst (last l (c, DDone)).

Lemma find_row {K V} eqb (k : K) ks (vs : list (nat * V)) r : (length ks <= length vs)%nat ->
  find_loop eqb k (map Some ks) (map Some vs ++ r) = Ret (row eqb k (map snd ks) (map snd vs)).
Proof.
  revert vs; induction ks as [|e ks IH]; intros [|v vs] L; try reflexivity; [cbn in L; lia|]. cbn [map find_loop row app tl].
  destruct (eqb (snd e) k); [reflexivity|]. cbn in L. apply IH. lia.
Qed.
Definition hcols {K V} (szk szv : N) (d : dict K V) (ks : list (nat * K)) (vs : list (nat * V)) : Prop :=
  holds szk Vec (d_keys d) ks /\ holds szv Vec (d_values d) vs /\ (length ks <= length vs)%nat.

Lemma col_op_spec {K V} eqb szk szv next (d : dict K V) ks vs o : 0 < szk -> 0 < szv -> hcols szk szv d ks vs ->
  exists d' nx a ks' vs', dict_op eqb szk szv next d o = Ret (d', nx, a) /\ hcols szk szv d' ks' vs' /\
    vec_capacity szk (d_keys d') = vec_capacity szk (d_keys d) /\ vec_capacity szv (d_values d') = vec_capacity szv (d_values d) /\
    col_op eqb (vec_capacity szk (d_keys d)) (vec_capacity szv (d_values d)) (mkColumns (map snd ks) (map snd vs)) o =
      (mkColumns (map snd ks') (map snd vs'), a).
Proof.
  intros Sk Sv (Hk & Hv & L). pose proof (holds_capacity _ _ _ Hk) as Ck. pose proof (holds_capacity _ _ _ Hv) as Cv.
  destruct o as [k v|k|k]; cbn [dict_op col_op col_keys col_values].
  - rewrite !map_length. unfold dict_put. destruct (emplace_spec szv next (d_values d) vs v Sv Hv) as [(C & ->)|(C & X)]; cbn [bind].
    + eexists _, _, _, ks, vs. split; [reflexivity|]. split; [repeat split; assumption|]. cbn [d_keys d_values]. split; [reflexivity|]. split; [reflexivity|].
      destruct (N.leb_spec (vec_capacity szv (d_values d)) (N.of_nat (length vs))); [reflexivity|lia].
    + destruct (N.leb_spec (vec_capacity szv (d_values d)) (N.of_nat (length vs))); [lia|]. destruct v as [v|].
      * destruct X as (c' & -> & Hv' & Eb). cbn [bind].
        destruct (emplace_spec szk (S next) (d_keys d) ks k Sk Hk) as [(C2 & ->)|(C2 & Y)]; cbn [bind].
        -- destruct (pop_spec szv c' vs (next, v) Sv Hv') as (c2 & -> & Hv2 & Eb2). cbn [bind fst]. eexists _, _, _, ks, vs.
           split; [reflexivity|]. cbn [d_keys d_values]. split; [repeat split; assumption|]. split; [reflexivity|]. split; [unfold vec_capacity; congruence|].
           destruct (N.leb_spec (vec_capacity szk (d_keys d)) (N.of_nat (length ks))); [reflexivity|lia].
        -- destruct (N.leb_spec (vec_capacity szk (d_keys d)) (N.of_nat (length ks))); [lia|]. destruct k as [k|].
           ++ destruct Y as (c2 & -> & Hk2 & Eb2). cbn [bind]. eexists _, _, _, _, _. split; [reflexivity|]. cbn [d_keys d_values].
              split; [repeat split; try eassumption; rewrite !app_length; cbn; lia|]. split; [unfold vec_capacity; congruence|]. split; [unfold vec_capacity; congruence|].
              rewrite !map_app. reflexivity.
           ++ rewrite Y. cbn [bind]. eexists _, _, _, _, _. split; [reflexivity|]. cbn [d_keys d_values].
              split; [repeat split; try eassumption; rewrite ?app_length; cbn; lia|]. split; [reflexivity|]. split; [unfold vec_capacity; congruence|].
              rewrite map_app. reflexivity.
      * rewrite X. cbn [bind]. eexists _, _, _, ks, vs. split; [reflexivity|]. cbn [d_keys d_values]. repeat split; assumption.
  - unfold dict_find. rewrite (elems_holds _ _ _ _ Hk). pose proof Hv as (r & -> & _). rewrite find_row by exact L. cbn [bind].
    eexists _, _, _, ks, vs. split; [reflexivity|]. repeat split; assumption.
  - unfold dict_contains, elem_indexOf. rewrite (elems_holds _ _ _ _ Hk). destruct (index_existsb eqb k ks 0) as (o & -> & E). cbn [bind].
    eexists _, _, _, ks, vs. split; [reflexivity|]. split; [repeat split; assumption|]. split; [reflexivity|]. split; [reflexivity|]. now rewrite E.
Qed.
Lemma last_of_cons {K V} (c : columns K V) p l : last_of c (p :: l) = last_of (fst p) l.
Proof. unfold last_of. destruct l; [reflexivity|]. cbn [last]. revert p0. induction l as [|q l IH]; intros p0; [reflexivity|]. apply IH. Qed.
Lemma watch_spec {K V} (eqb : K -> K -> bool) szk szv ops : 0 < szk -> 0 < szv -> forall next (d : dict K V) ks vs, hcols szk szv d ks vs ->
  let r := col_run eqb (vec_capacity szk (d_keys d)) (vec_capacity szv (d_values d)) (mkColumns (map snd ks) (map snd vs)) ops in
  exists d' ks' vs', dict_watch eqb szk szv next d ops = Ret (map (shown (vec_capacity szv (d_values d))) r, d') /\
    hcols szk szv d' ks' vs' /\ last_of (mkColumns (map snd ks) (map snd vs)) r = mkColumns (map snd ks') (map snd vs').
Proof.
  intros Sk Sv. induction ops as [|o ops IH]; intros next d ks vs H; cbn [col_run]; [exists d, ks, vs; auto|].
  destruct (col_op_spec eqb szk szv next d ks vs o Sk Sv H) as (d1 & nx & a & ks1 & vs1 & E & H1 & C1 & C2 & X).
  rewrite X. cbn [fst]. destruct (IH nx d1 ks1 vs1 H1) as (d' & ks' & vs' & E2 & H' & Lst). rewrite C1, C2 in E2, Lst.
  exists d', ks', vs'. cbn [dict_watch]. rewrite E. cbn [bind]. pose proof H1 as (Hk & Hv & L). unfold dict_keys, dict_values.
  rewrite (contents_spec _ _ _ _ Hk), (contents_spec _ _ _ _ Hv). cbn [bind]. rewrite E2. cbn [bind fst snd map].
  split; [|split; [exact H'|rewrite last_of_cons; exact Lst]]. f_equal. f_equal. f_equal. unfold shown, dict_size, dict_empty, dict_capacity, vec_empty, vec_size. cbn [fst snd col_keys col_values].
  pose proof Hv as (q & _ & _ & _ & _ & _ & _ & K0). rewrite (K0 eq_refl), map_length, C2.
  destruct vs1; reflexivity.
Qed.

(** C134: a dictionary built on two buffers, under every history of put, find and contains,
    with constructors of keys and values throwing wherever they like, answers and shows
    exactly what the two columns do.  Nothing undefined happens. *)
Theorem C134_history : forall K V (eqb : K -> K -> bool) szk szv kbytes vbytes next ops, 0 < szk -> 0 < szv -> kbytes < 2 ^ 64 -> vbytes < 2 ^ 64 ->
  exists d, dict_watch eqb szk szv next (@dict_make K V szk szv kbytes vbytes) ops =
    Ret (map (shown (vbytes / szv)) (col_run eqb (kbytes / szk) (vbytes / szv) (mkColumns [] []) ops), d).
Proof.
  intros K V eqb szk szv kb vb next ops Sk Sv Lk Lv.
  destruct (watch_spec eqb szk szv ops Sk Sv next (@dict_make K V szk szv kb vb) [] []) as (d & ks & vs & E & _); [destruct (@dholds_make K V szk szv kb vb Sk Sv Lk Lv) as (A & B & _); split; [exact A|split; [exact B|apply le_n]]|].
  exists d. exact E.
Qed.
Print Assumptions C134_history.

(** There are at most as many keys as values; the difference is the number of puts whose
    key could not be made. *)
Fixpoint thrown_keys {K V} (eqb : K -> K -> bool) (kcap vcap : N) (c : columns K V) (ops : list (dop K V)) : nat :=
  match ops with
  | [] => 0
  | o :: ops' => let p := col_op eqb kcap vcap c o in
      (match o, snd p with DPut None (Some _), DThrew _ => 1 | _, _ => 0 end + thrown_keys eqb kcap vcap (fst p) ops')%nat
  end.
Lemma columns_differ {K V} (eqb : K -> K -> bool) kcap vcap ops : forall c : columns K V, (length (col_keys c) <= length (col_values c))%nat ->
  let c' := last_of c (col_run eqb kcap vcap c ops) in
  (length (col_values c') + length (col_keys c) = length (col_keys c') + length (col_values c) + thrown_keys eqb kcap vcap c ops)%nat.
Proof.
  induction ops as [|o ops IH]; intros c L; cbn [col_run thrown_keys]; [cbn; lia|]. cbv zeta. rewrite last_of_cons.
  assert (length (col_keys (fst (col_op eqb kcap vcap c o))) <= length (col_values (fst (col_op eqb kcap vcap c o))) /\
    length (col_values (fst (col_op eqb kcap vcap c o))) + length (col_keys c) = length (col_keys (fst (col_op eqb kcap vcap c o))) + length (col_values c) +
      match o, snd (col_op eqb kcap vcap c o) with DPut None (Some _), DThrew _ => 1 | _, _ => 0 end)%nat as (A & B).
  { destruct o as [[k|] [v|]|k|k]; cbn [col_op]; repeat (destruct (_ <=? _)); cbn [fst snd col_keys col_values]; rewrite ?app_length; cbn; lia. }
  specialize (IH _ A). cbv zeta in IH. lia.
Qed.
(** C134: iterating after any history meets the entries in order if no key was lost, and
    runs out of its range otherwise. *)
Theorem C134_iteration : forall K V (eqb : K -> K -> bool) szk szv kbytes vbytes next ops rows d, 0 < szk -> 0 < szv -> kbytes < 2 ^ 64 -> vbytes < 2 ^ 64 ->
  dict_watch eqb szk szv next (@dict_make K V szk szv kbytes vbytes) ops = Ret (rows, d) ->
  let c := last_of (mkColumns [] []) (col_run eqb (kbytes / szk) (vbytes / szv) (mkColumns [] []) ops) in
  let lost := thrown_keys eqb (kbytes / szk) (vbytes / szv) (mkColumns [] []) ops in
  (length (col_values c) = length (col_keys c) + lost)%nat /\
  dict_entries szk szv d = (if Nat.eqb lost 0 then Ret (combine (col_keys c) (col_values c)) else UB).
Proof.
  intros K V eqb szk szv kb vb next ops rows d Sk Sv Lk Lv E.
  destruct (watch_spec eqb szk szv ops Sk Sv next (@dict_make K V szk szv kb vb) [] []) as (d' & ks & vs & E' & H' & Lst); [destruct (@dholds_make K V szk szv kb vb Sk Sv Lk Lv) as (A & B & _); split; [exact A|split; [exact B|apply le_n]]|].
  rewrite E' in E. injection E as _ <-. cbv zeta. pose proof (columns_differ eqb (kb / szk) (vb / szv) ops (@mkColumns K V [] []) (le_n 0)) as D. cbv zeta in D.
  change (vec_capacity szk (d_keys (@dict_make K V szk szv kb vb))) with (kb / szk) in Lst. change (vec_capacity szv (d_values (@dict_make K V szk szv kb vb))) with (vb / szv) in Lst.
  cbn [map] in Lst. rewrite Lst in D |- *. cbn [col_keys col_values length] in D |- *. rewrite !map_length in D |- *. split; [lia|].
  destruct H' as (Hk & Hv & L). unfold dict_entries. rewrite (elems_holds _ _ _ _ Hk), (elems_holds _ _ _ _ Hv).
  destruct (Nat.eqb_spec (thrown_keys eqb (kb / szk) (vb / szv) (mkColumns [] []) ops) 0) as [Z|Z].
  - rewrite entries_spec by lia. reflexivity.
  - assert (length ks < length vs)%nat as M by lia. clear -M. revert vs M. induction ks as [|k ks IH]; intros [|v vs] M; cbn in M; try lia; [reflexivity|].
    cbn [map entries_loop]. rewrite IH by lia. reflexivity.
Qed.
Print Assumptions C134_iteration.

(** What find answers in terms of the puts alone: the value stored in the row of the first
    key that was put, not the value put with it. *)
Theorem C134_find : forall K V (eqb : K -> K -> bool) (c : columns K V) k, (length (col_keys c) <= length (col_values c))%nat ->
  match row eqb k (col_keys c) (col_values c) with
  | Some v => exists i k', nth_error (col_keys c) i = Some k' /\ eqb k' k = true /\ nth_error (col_values c) i = Some v /\
      forall j k'', (j < i)%nat -> nth_error (col_keys c) j = Some k'' -> eqb k'' k = false
  | None => forall k', In k' (col_keys c) -> eqb k' k = false
  end.
Proof.
  intros K V eqb [ks vs] k. cbn [col_keys col_values]. revert vs. induction ks as [|k1 ks IH]; intros [|v vs] L; cbn [length] in L; try lia; cbn [row]; try (intros ? []).
  destruct (eqb k1 k) eqn:E.
  - exists O, k1. repeat split; auto. intros j k'' J. lia.
  - specialize (IH vs ltac:(lia)). destruct (row eqb k ks vs) as [w|].
    + destruct IH as (i & k' & A & B & C & D). exists (S i), k'. repeat split; auto. intros [|j] k'' J X; [cbn in X; congruence|]. apply (D j k''); [lia|exact X].
    + intros k' [<-|I]; auto.
Qed.
Print Assumptions C134_find.
Example C134_ok :
  col_run N.eqb 4 3 (mkColumns [] []) [DPut (Some 1) (Some 10); DPut None (Some 20); DPut (Some 3) (Some 30); DFind 3; DPut (Some 4) None; DPut (Some 4) (Some 40); DContains 3] =
  [(mkColumns [1] [10], DDone); (mkColumns [1] [10; 20], DThrew UserException); (mkColumns [1; 3] [10; 20; 30], DDone);
   (mkColumns [1; 3] [10; 20; 30], DFound (Some 20)); (mkColumns [1; 3] [10; 20; 30], DRefused BasicOverflow);
   (mkColumns [1; 3] [10; 20; 30], DRefused BasicOverflow); (mkColumns [1; 3] [10; 20; 30], DHas true)] /\
  (exists d, dict_watch N.eqb 8 16 0 (@dict_make N N 8 16 32 48) [DPut (Some 1) (Some 10); DPut None (Some 20); DPut (Some 3) (Some 30); DFind 3] =
    Ret (map (shown 3) (col_run N.eqb 4 3 (mkColumns [] []) [DPut (Some 1) (Some 10); DPut None (Some 20); DPut (Some 3) (Some 30); DFind 3]), d)) /\
  thrown_keys N.eqb 4 3 (@mkColumns N N [] []) [DPut (Some 1) (Some 10); DPut None (Some 20); DPut (Some 3) (Some 30)] = 1%nat.
Proof. split; [reflexivity|]. split; [eexists; vm_compute; reflexivity|reflexivity]. Qed.
