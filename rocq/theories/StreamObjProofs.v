From Verif Require Import Base BaseLemmas MemoryModel MemoryProofs MemViewModel MemViewSpec MemViewProofs ByteIOModel ByteIOSpec ByteIOProofs StreamObjModel StreamObjSpec.
Local Arguments get : simpl never.
Local Arguments upd : simpl never.

Definition res_ok (h : list (option (list N))) (r : bres) : Prop :=
  match br_block r with
  | None => br_len r = 0 /\ br_own r = false
  | Some a => (a < length h)%nat /\
      forall bs, get h a = Some bs -> br_off r + br_len r <= size bs /\ (br_own r = true -> br_off r = 0 /\ br_len r = size bs)
  end.
Record binv (w : bworld) : Prop := {
  b_res : forall i o, bw_objs w i = Some o -> res_ok (bw_heap w) (res_of o);
  b_alive : forall i a, owns w i a -> in_use w a;
  b_one : forall i j a, owns w i a -> owns w j a -> i = j;
  b_owned : forall a, in_use w a -> exists i, owns w i a }.

Lemma start_inv : binv b_start.
Proof.
  split; unfold owns, in_use, b_start; cbn.
  - discriminate.
  - intros i a (o & X & _). discriminate.
  - intros i j a (o & X & _). discriminate.
  - intros a (bs & G). apply get_some in G. cbn in G. lia.
Qed.

Lemma get_upd2 {A} (l : list (option A)) i j x :
  get (upd l i x) j = if Nat.eqb i j then (if Nat.ltb i (length l) then x else None) else get l j.
Proof.
  rewrite get_upd. destruct (Nat.eqb_spec i j) as [->|]; cbn [andb]; [|reflexivity].
  destruct (Nat.ltb_spec j (length l)); [reflexivity|]. unfold get. now apply nth_overflow.
Qed.
Lemma bset_same {A} (f : nat -> A) i x : bset f i x i = x.
Proof. unfold bset. now rewrite Nat.eqb_refl. Qed.
Lemma bset_other {A} (f : nat -> A) i x k : k <> i -> bset f i x k = f k.
Proof. unfold bset. intros N1. destruct (Nat.eqb_spec k i); [easy|reflexivity]. Qed.

(** A table of variables [f] whose resources are those of [g], renamed by an injection,
    or own nothing. *)
Lemma inv_rename w f (m : nat -> option nat) : binv w ->
  (forall i o, f i = Some o -> res_ok (bw_heap w) (res_of o)) ->
  (forall i o, f i = Some o -> br_own (res_of o) = true -> exists j o', m i = Some j /\ bw_objs w j = Some o' /\ res_of o' = res_of o) ->
  (forall i j k, m i = Some k -> m j = Some k -> i = j) ->
  (forall j o', bw_objs w j = Some o' -> br_own (res_of o') = true -> exists i o, m i = Some j /\ f i = Some o /\ res_of o = res_of o') ->
  binv (mkBW (bw_heap w) f).
Proof.
  intros I R M J S1. split; cbn.
  - exact R.
  - intros i a (o & E & O & B). destruct (M i o E O) as (j & o' & Mi & E' & Q). cbn in E.
    apply (b_alive _ I j a). exists o'. now rewrite Q.
  - intros i j a (o & E & O & B) (o2 & E2 & O2 & B2). cbn in E, E2.
    destruct (M i o E O) as (k & o' & Mi & E' & Q). destruct (M j o2 E2 O2) as (k2 & o2' & Mj & E2' & Q2).
    assert (k = k2). { apply (b_one _ I k k2 a); [exists o'|exists o2']; [rewrite Q|rewrite Q2]; auto. }
    subst. eauto.
  - intros a H. destruct (b_owned _ I a H) as (j & o' & E & O & B).
    destruct (S1 j o' E O) as (i & o & Mi & Fi & Q). exists i, o. rewrite Q. auto.
Qed.

Lemma inv_add w i x : binv w -> bw_objs w i = None -> br_own (res_of x) = false -> res_ok (bw_heap w) (res_of x) ->
  binv (put_obj w i (Some x)).
Proof.
  intros I U O R. apply (inv_rename w _ (fun k => if Nat.eqb k i then None else Some k)); auto.
  - intros k o. unfold bset. destruct (Nat.eqb_spec k i); [intros [= <-]; exact R|apply (b_res _ I)].
  - intros k o. unfold bset. destruct (Nat.eqb_spec k i); [intros [= <-] C; congruence|]. intros E C. eauto.
  - intros k l z. destruct (Nat.eqb k i), (Nat.eqb l i); congruence.
  - intros k o' E C. exists k, o'. unfold bset. destruct (Nat.eqb_spec k i) as [->|]; [congruence|auto].
Qed.
Lemma inv_same w i x y : binv w -> bw_objs w i = Some x -> res_of y = res_of x -> binv (put_obj w i (Some y)).
Proof.
  intros I E Q. apply (inv_rename w _ (fun k => Some k)); auto.
  - intros k o. unfold bset. destruct (Nat.eqb_spec k i); [intros [= <-]; rewrite Q; subst; now apply (b_res _ I i)|apply (b_res _ I)].
  - intros k o. unfold bset. destruct (Nat.eqb_spec k i) as [->|]; [intros [= <-] C|]; eauto.
  - congruence.
  - intros k o' Ek C. unfold bset. destruct (Nat.eqb_spec k i) as [->|N1].
    + exists i, y. rewrite Nat.eqb_refl. repeat split; auto. congruence.
    + exists k, o'. destruct (Nat.eqb_spec k i); [easy|auto].
Qed.
Lemma null_ok h : res_ok h bres_null.
Proof. split; reflexivity. Qed.
Lemma inv_move w i j x x' y : binv w -> bw_objs w i = None -> bw_objs w j = Some x ->
  res_of x' = res_of x -> res_of y = bres_null -> binv (put_obj (put_obj w j (Some y)) i (Some x')).
Proof.
  intros I U E Q Z. assert (IJ : i <> j) by congruence.
  apply (inv_rename w _ (fun k => if Nat.eqb k i then Some j else if Nat.eqb k j then None else Some k)); auto.
  - intros k o. cbn. unfold bset. destruct (Nat.eqb_spec k i); [intros [= <-]; rewrite Q; now apply (b_res _ I j)|].
    destruct (Nat.eqb_spec k j); [intros [= <-]; rewrite Z; apply null_ok|apply (b_res _ I)].
  - intros k o. cbn. unfold bset. destruct (Nat.eqb_spec k i); [intros [= <-] C; exists j, x; auto|].
    destruct (Nat.eqb_spec k j); [intros [= <-] C; rewrite Z in C; discriminate|]. intros F C. eauto.
  - intros k l z. destruct (Nat.eqb_spec k i), (Nat.eqb_spec l i), (Nat.eqb_spec k j), (Nat.eqb_spec l j); congruence.
  - intros k o' F C. cbn. unfold bset. destruct (Nat.eqb_spec k j) as [->|N1].
    + exists i, x'. rewrite Nat.eqb_refl. repeat split; auto. congruence.
    + exists k, o'. assert (k <> i) by congruence. destruct (Nat.eqb_spec k i); [easy|]. destruct (Nat.eqb_spec k j); easy.
Qed.
Lemma inv_swap w i j x y : binv w -> bw_objs w i = Some x -> bw_objs w j = Some y ->
  binv (put_obj (put_obj w i (Some y)) j (Some x)).
Proof.
  intros I Ei Ej.
  apply (inv_rename w _ (fun k => if Nat.eqb k j then Some i else if Nat.eqb k i then Some j else Some k)); auto.
  - intros k o. cbn. unfold bset. destruct (Nat.eqb_spec k j); [intros [= <-]; now apply (b_res _ I i)|].
    destruct (Nat.eqb_spec k i); [intros [= <-]; now apply (b_res _ I j)|apply (b_res _ I)].
  - intros k o. cbn. unfold bset. destruct (Nat.eqb_spec k j); [intros [= <-] C; eauto|].
    destruct (Nat.eqb_spec k i); [intros [= <-] C; eauto|]. eauto.
  - intros k l z. destruct (Nat.eqb_spec k i), (Nat.eqb_spec l i), (Nat.eqb_spec k j), (Nat.eqb_spec l j); congruence.
  - intros k o' F C. cbn. unfold bset. destruct (Nat.eqb_spec k i) as [->|N1].
    + exists j, x. rewrite Nat.eqb_refl. repeat split; auto. congruence.
    + destruct (Nat.eqb_spec k j) as [->|N2].
      * exists i, y. rewrite Nat.eqb_refl. destruct (Nat.eqb_spec i j); [congruence|]. repeat split; auto. congruence.
      * exists k, o'. destruct (Nat.eqb_spec k j); [easy|]. destruct (Nat.eqb_spec k i); [easy|auto].
Qed.
Lemma inv_forget w i x : binv w -> bw_objs w i = Some x -> br_own (res_of x) = false -> binv (put_obj w i None).
Proof.
  intros I E O. apply (inv_rename w _ (fun k => Some k)); auto.
  - intros k o. unfold bset. destruct (Nat.eqb_spec k i); [discriminate|apply (b_res _ I)].
  - intros k o. unfold bset. destruct (Nat.eqb_spec k i); [discriminate|eauto].
  - congruence.
  - intros k o' F C. exists k, o'. unfold bset. destruct (Nat.eqb_spec k i) as [->|]; [congruence|auto].
Qed.
Lemma res_ok_none h a r : res_ok h r -> res_ok (upd h a None) r.
Proof.
  unfold res_ok. destruct (br_block r) as [b|]; [|auto]. rewrite length_upd. intros (L & H). split; [auto|].
  intros bs G. rewrite get_upd2 in G. destruct (Nat.eqb a b); [destruct (Nat.ltb _ _); discriminate|auto].
Qed.
Lemma inv_drop w i x a bs : binv w -> bw_objs w i = Some x -> br_own (res_of x) = true -> br_block (res_of x) = Some a ->
  get (bw_heap w) a = Some bs -> binv (mkBW (upd (bw_heap w) a None) (bset (bw_objs w) i None)).
Proof.
  intros I E O B G. assert (P : owns w i a) by (exists x; auto).
  split; cbn.
  - intros k o. unfold bset. destruct (Nat.eqb_spec k i); [discriminate|]. intros F. apply res_ok_none. now apply (b_res _ I k).
  - intros k c (o & F & Oo & Bo). cbn in F. unfold bset in F. destruct (Nat.eqb_spec k i); [discriminate|].
    assert (Q : owns w k c) by (exists o; auto). destruct (b_alive _ I k c Q) as (b2 & G2).
    exists b2. cbn. rewrite get_upd2. destruct (Nat.eqb_spec a c) as [->|]; [|exact G2].
    exfalso. now pose proof (b_one _ I k i c Q P).
  - intros k l c (o & F & Oo & Bo) (o2 & F2 & Oo2 & Bo2). cbn in F, F2. unfold bset in F, F2.
    destruct (Nat.eqb_spec k i); [discriminate|]. destruct (Nat.eqb_spec l i); [discriminate|].
    apply (b_one _ I k l c); [exists o|exists o2]; auto.
  - intros c (b2 & G2). cbn in G2. rewrite get_upd2 in G2. destruct (Nat.eqb_spec a c) as [->|N1].
    { destruct (Nat.ltb _ _); discriminate. }
    destruct (b_owned _ I c) as (k & o & F & Oo & Bo); [now exists b2|].
    exists k, o. cbn. unfold bset. destruct (Nat.eqb_spec k i) as [->|]; [|auto]. congruence.
Qed.
Lemma inv_alloc w i init : binv w -> bw_objs w i = None ->
  binv (mkBW (bw_heap w ++ [Some init]) (bset (bw_objs w) i (Some (OMem (mkBRes (Some (length (bw_heap w))) 0 (size init) true))))).
Proof.
  intros I U. split; cbn.
  - intros k o. unfold bset. destruct (Nat.eqb_spec k i).
    + intros [= <-]. unfold res_ok. cbn. rewrite app_length. cbn. split; [lia|]. intros bs G.
      rewrite get_app, Nat.eqb_refl in G. injection G as <-. split; [lia|auto].
    + intros F. apply (b_res _ I) in F. unfold res_ok in *. destruct (br_block (res_of o)) as [a|]; [|exact F].
      rewrite app_length. destruct F as (L & H). split; [lia|]. intros bs G. rewrite get_app in G.
      destruct (Nat.eqb_spec a (length (bw_heap w))); [lia|]. auto.
  - intros k a (o & F & O & B). cbn in F. unfold bset in F. unfold in_use. cbn. rewrite get_app.
    destruct (Nat.eqb_spec a (length (bw_heap w))); [eauto|]. destruct (Nat.eqb_spec k i).
    + injection F as <-. cbn in B. congruence.
    + apply (b_alive _ I k a). exists o; auto.
  - intros k l a (o & F & O & B) (o2 & F2 & O2 & B2). cbn in F, F2. unfold bset in F, F2.
    assert (Z : forall z oz, bw_objs w z = Some oz -> br_block (res_of oz) = Some a -> a = length (bw_heap w) -> False).
    { intros z oz Ez Bz ->. apply (b_res _ I) in Ez. unfold res_ok in Ez. rewrite Bz in Ez. lia. }
    destruct (Nat.eqb_spec k i), (Nat.eqb_spec l i); subst; auto.
    + injection F as <-. cbn in B. injection B as <-. exfalso. eapply Z; eauto.
    + injection F2 as <-. cbn in B2. injection B2 as <-. exfalso. eapply Z; eauto.
    + apply (b_one _ I k l a); [exists o|exists o2]; auto.
  - intros a (bs & G). cbn in G. rewrite get_app in G. destruct (Nat.eqb_spec a (length (bw_heap w))) as [->|N1].
    + exists i. eexists. cbn. rewrite bset_same. auto.
    + destruct (b_owned _ I a) as (k & o & F & O & B); [now exists bs|]. exists k, o. cbn. unfold bset.
      destruct (Nat.eqb_spec k i) as [->|]; [congruence|auto].
Qed.
Lemma inv_store w r buf : binv w -> (forall a bs, br_block r = Some a -> get (bw_heap w) a = Some bs -> br_off r + size buf <= size bs) ->
  binv (bres_store w r buf).
Proof.
  intros I L. unfold bres_store. destruct (br_block r) as [a|]; [|exact I].
  destruct (get (bw_heap w) a) as [bs|] eqn:G; [|exact I].
  specialize (L a bs eq_refl G). pose proof (size_overwrite bs buf (br_off r) L) as Z.
  assert (T : forall b, in_use (mkBW (upd (bw_heap w) a (Some (overwrite bs (br_off r) buf))) (bw_objs w)) b <-> in_use w b).
  { intros b. unfold in_use. cbn. rewrite get_upd2. destruct (Nat.eqb_spec a b) as [->|]; [|reflexivity].
    pose proof (get_some _ _ _ G) as X. apply Nat.ltb_lt in X. rewrite X. split; intros _; eauto. }
  split; cbn.
  - intros i o E. apply (b_res _ I) in E. unfold res_ok in *. destruct (br_block (res_of o)) as [b|]; [|exact E].
    rewrite length_upd. destruct E as (E1 & E2). split; [exact E1|]. intros b2 G2. rewrite get_upd2 in G2.
    destruct (Nat.eqb_spec a b) as [->|]; [|auto]. destruct (Nat.ltb _ _); [|discriminate].
    injection G2 as <-. rewrite Z. auto.
  - intros i b O. apply T. exact (b_alive _ I i b O).
  - intros i j b O1 O2. exact (b_one _ I i j b O1 O2).
  - intros b H. apply T in H. exact (b_owned _ I b H).
Qed.

(** ** Windows of windows *)
Lemma sub_ok h r v : res_ok h r -> match v_addr v with Some k => k + v_size v <= br_len r | None => v_size v = 0 end ->
  res_ok h (bres_sub r v).
Proof.
  unfold res_ok, bres_sub. cbn. destruct (br_block r) as [a|].
  - intros (L & H) V. split; [exact L|]. intros bs G. destruct (H bs G) as (P & _). split; [|discriminate].
    destruct (v_addr v); lia.
  - intros (L & _) V. rewrite L in V. split; [|reflexivity]. destruct (v_addr v); lia.
Qed.
Lemma size_blank r : size (blank r) = br_len r.
Proof. unfold blank, size. rewrite repeat_length. lia. Qed.
Lemma vslice_in n from to : match v_addr (view_slice (mkView (Some 0) n) from to) with
  Some k => k + v_size (view_slice (mkView (Some 0) n) from to) <= n | None => False end.
Proof. unfold view_slice. cbn. lia. Qed.
Lemma mslice_in n from to : match v_addr (mview_slice (mkView (Some 0) n) from to) with
  Some k => k + v_size (mview_slice (mkView (Some 0) n) from to) <= n | None => v_size (mview_slice (mkView (Some 0) n) from to) = 0 end.
Proof. unfold mview_slice. destruct (N.eqb from to); cbn; lia. Qed.
Lemma sub_slice_ok h r from to : res_ok h r -> res_ok h (bres_sub r (view_slice (storage_view (blank r)) from to)).
Proof.
  intros R. apply sub_ok; [exact R|]. unfold storage_view. rewrite size_blank.
  pose proof (vslice_in (br_len r) from to) as V. destruct (v_addr _); [exact V|contradiction].
Qed.
Lemma sub_mslice_ok h r from to : res_ok h r -> res_ok h (bres_sub r (mview_slice (mkView (Some 0) (br_len r)) from to)).
Proof. intros R. apply sub_ok; [exact R|]. apply mslice_in. Qed.
Lemma borrowed_ok h r : res_ok h r -> res_ok h (borrowed r).
Proof.
  unfold res_ok, borrowed. cbn. destruct (br_block r) as [a|].
  - intros (L & H). split; [exact L|]. intros bs G. split; [apply (H bs G)|discriminate].
  - intros (L & _). auto.
Qed.

(** ** The bytes of a resource *)
Lemma bytes_defined w r : binv w -> res_ok (bw_heap w) r -> backed w r -> bres_bytes w r = Ret (shown w r).
Proof.
  intros I R B. unfold bres_bytes, shown. destruct (N.eqb_spec (br_len r) 0) as [Z|Z].
  - rewrite Z. destruct (br_block r) as [a|]; [|reflexivity]. destruct (get (bw_heap w) a); reflexivity.
  - destruct B as [B|(i & a & E & O)]; [lia|]. rewrite E. destruct (b_alive _ I i a O) as (bs & G). rewrite G.
    unfold res_ok in R. rewrite E in R. destruct R as (_ & R). destruct (R bs G) as (L & _).
    destruct (N.leb_spec (br_off r + br_len r) (size bs)); [|lia]. now rewrite section_spec.
Qed.
Lemma bytes_undefined w r : binv w -> ~ backed w r -> bres_bytes w r = UB.
Proof.
  intros I B. unfold bres_bytes, backed in *. destruct (N.eqb_spec (br_len r) 0) as [Z|Z]; [tauto|].
  destruct (br_block r) as [a|] eqn:E; [|reflexivity]. destruct (get (bw_heap w) a) as [bs|] eqn:G; [|reflexivity].
  exfalso. apply B. right. destruct (b_owned _ I a) as (i & O); [now exists bs|]. eauto.
Qed.
Lemma backed_dec w r : binv w -> res_ok (bw_heap w) r -> backed w r \/ ~ backed w r.
Proof.
  intros I R. unfold backed. destruct (N.eq_dec (br_len r) 0) as [Z|Z]; [auto|]. destruct (br_block r) as [a|] eqn:E.
  - destruct (get (bw_heap w) a) as [bs|] eqn:G.
    + left. right. destruct (b_owned _ I a) as (i & O); [now exists bs|]. eauto.
    + right. intros [X|(i & b & F & O)]; [easy|]. injection F as <-. destruct (b_alive _ I i a O) as (b2 & G2). congruence.
  - right. intros [X|(i & b & F & O)]; [easy|discriminate].
Qed.
Lemma size_shown w r : binv w -> res_ok (bw_heap w) r -> backed w r -> size (shown w r) = br_len r.
Proof.
  intros I R B. unfold shown. destruct (br_block r) as [a|] eqn:E.
  - unfold res_ok in R. rewrite E in R. destruct R as (_ & R). destruct (get (bw_heap w) a) as [bs|] eqn:G.
    + destruct (R bs eq_refl) as (L & _). rewrite section_spec, size_ntake, size_ndrop. lia.
    + destruct B as [B|(i & b & F & O)]; [now rewrite B|]. rewrite E in F. injection F as <-.
      destruct (b_alive _ I i a O) as (b2 & G2). congruence.
  - unfold res_ok in R. rewrite E in R. symmetry. apply R.
Qed.

(** ** Every step keeps the invariant *)
Lemma step_inv host_be o w x w' : binv w -> b_step host_be o w = Ret (x, w') -> binv w'.
Proof.
  intros I E. destruct o as [i init ok|i|i|i|i j wr|i j wr|i j from to wr|i j|i j|i j|i j|i j|i|i op|i op|i]; cbn [b_step] in E.
  - destruct (bw_objs w i) eqn:U; [discriminate|]. destruct ok; injection E as <- <-; [now apply inv_alloc|exact I].
  - destruct (bw_objs w i) eqn:U; [discriminate|]. injection E as <- <-. now apply inv_add; [| | |apply null_ok].
  - destruct (bw_objs w i) eqn:U; [discriminate|]. injection E as <- <-. now apply inv_add; [| | |apply null_ok].
  - destruct (bw_objs w i) eqn:U; [discriminate|]. injection E as <- <-. now apply inv_add; [| | |apply null_ok].
  - destruct (bw_objs w i) eqn:U; [discriminate|]. destruct (bw_objs w j) as [[r| |]|] eqn:V; try discriminate.
    injection E as <- <-. eapply inv_move; eauto. destruct wr; reflexivity.
  - destruct (bw_objs w j) as [[r| |]|] eqn:V; try discriminate. destruct (bw_objs w i) eqn:U; [discriminate|].
    injection E as <- <-. apply (b_res _ I) in V. apply inv_add; auto; destruct wr; try reflexivity; cbn; now apply borrowed_ok.
  - destruct (bw_objs w j) as [[r| |]|] eqn:V; try discriminate. destruct (bw_objs w i) eqn:U; [discriminate|].
    injection E as <- <-. apply (b_res _ I) in V. apply inv_add; auto; destruct wr; try reflexivity; cbn [res_of new_reader new_writer]; now apply sub_mslice_ok.
  - destruct (bw_objs w j) as [[| |p l r]|] eqn:V; try discriminate. destruct (bw_objs w i) eqn:U; [discriminate|].
    injection E as <- <-. apply (b_res _ I) in V. apply inv_add; auto. now apply sub_slice_ok.
  - destruct (bw_objs w j) as [[|p l r|p l r]|] eqn:V; try discriminate; (destruct (bw_objs w i) eqn:U; [discriminate|]);
    injection E as <- <-; apply (b_res _ I) in V; apply inv_add; auto; now apply sub_slice_ok.
  - destruct (bw_objs w i) eqn:U; [discriminate|]. destruct (bw_objs w j) as [y|] eqn:V; [|discriminate].
    injection E as <- <-. eapply inv_move; eauto. destruct y; reflexivity.
  - destruct (bw_objs w i) as [y|] eqn:U; [|discriminate]. destruct (bw_objs w j) as [z|] eqn:V; [|discriminate].
    destruct (same_kind y z); [|discriminate]. injection E as <- <-. now apply inv_swap.
  - destruct (bw_objs w i) eqn:U; [discriminate|]. destruct (bw_objs w j) as [[| |p l r]|] eqn:V; try discriminate.
    injection E as <- <-. eapply inv_move; eauto.
  - destruct (bw_objs w i) as [y|] eqn:U; [|discriminate]. unfold bres_drop in E. pose proof (b_res _ I _ _ U) as R.
    destruct (br_own (res_of y)) eqn:O.
    + unfold res_ok in R. destruct (br_block (res_of y)) as [a|] eqn:B; [|destruct R; congruence].
      destruct (get (bw_heap w) a) as [bs|] eqn:G; [|discriminate]. destruct (br_off (res_of y) =? 0); [|discriminate].
      injection E as <- <-. exact (inv_drop w i y a bs I U O B G).
    + injection E as <- <-. eapply inv_forget; eauto.
  - destruct (bw_objs w i) as [[|p l r|]|] eqn:U; try discriminate.
    destruct (if rop_data op then _ else _) as [buf| | | |]; try discriminate. cbn [bind] in E.
    destruct (r_step host_be _ op) as [q| | | |]; try discriminate. injection E as <- <-. eapply inv_same; eauto.
  - destruct (bw_objs w i) as [[| |p l r]|] eqn:U; try discriminate. pose proof (b_res _ I _ _ U) as R. cbn [res_of] in R.
    destruct (wop_data op) eqn:D.
    + destruct (backed_dec w r I R) as [B|B]; [|rewrite (bytes_undefined w r I B) in E; discriminate].
      rewrite (bytes_defined w r I R B) in E. cbn [bind] in E.
      destruct (w_step_safe host_be (mkWriter p l (shown w r)) op) as (q & w2 & S1 & Z). rewrite S1 in E. cbn [bind fst snd] in E.
      injection E as <- <-. cbn [w_buf] in Z. rewrite (size_shown w r I R B) in Z.
      assert (I2 : binv (bres_store w r (w_buf w2))).
      { apply inv_store; [exact I|]. intros a bs Ea G. unfold res_ok in R. rewrite Ea in R. destruct R as (_ & R). rewrite Z. apply (R bs G). }
      eapply inv_same with (x := OWriter p l r); [exact I2| |reflexivity].
      unfold bres_store. destruct (br_block r); [|exact U]. destruct (get _ _); exact U.
    + cbn [bind] in E. destruct (w_step_safe host_be (mkWriter p l (blank r)) op) as (q & w2 & S1 & Z). rewrite S1 in E.
      cbn [bind fst snd] in E. injection E as <- <-. eapply inv_same; eauto.
  - destruct (bw_objs w i) as [[r| |]|] eqn:U; try discriminate. destruct (bres_bytes w r); try discriminate.
    injection E as <- <-. exact I.
Qed.
Lemma run_inv host_be os : forall w xs w', binv w -> b_run host_be os w = Ret (xs, w') -> binv w'.
Proof.
  induction os as [|o os IH]; intros w xs w' I E; cbn [b_run] in E.
  - injection E as <- <-. exact I.
  - destruct (b_step host_be o w) as [[x w1]| | | |] eqn:S1; try discriminate. cbn [bind fst snd] in E.
    destruct (b_run host_be os w1) as [[ys w2]| | | |] eqn:R; try discriminate. injection E as <- <-.
    eapply IH; [|exact R]. eapply step_inv; eauto.
Qed.

(** ** Sizes stay 64-bit *)
Definition sizes (w : bworld) : Prop := forall a bs, get (bw_heap w) a = Some bs -> size bs < 2 ^ 64.
Lemma step_sizes host_be o w x w' : binv w -> sizes w -> bop_ok o -> b_step host_be o w = Ret (x, w') -> sizes w'.
Proof.
  intros I Z K E. destruct o as [i init ok|i|i|i|i j wr|i j wr|i j from to wr|i j|i j|i j|i j|i j|i|i op|i op|i]; cbn [b_step] in E.
  - destruct (bw_objs w i) eqn:U; [discriminate|]. destruct ok; injection E as <- <-; [|exact Z].
    intros a bs. cbn. rewrite get_app. destruct (Nat.eqb a _); [|apply Z]. intros [= <-]. exact K.
  - destruct (bw_objs w i) eqn:U; [discriminate|]. injection E as <- <-. exact Z.
  - destruct (bw_objs w i) eqn:U; [discriminate|]. injection E as <- <-. exact Z.
  - destruct (bw_objs w i) eqn:U; [discriminate|]. injection E as <- <-. exact Z.
  - destruct (bw_objs w i) eqn:U; [discriminate|]. destruct (bw_objs w j) as [[r| |]|] eqn:V; try discriminate. injection E as <- <-. exact Z.
  - destruct (bw_objs w j) as [[r| |]|] eqn:V; try discriminate. destruct (bw_objs w i) eqn:U; [discriminate|]. injection E as <- <-. exact Z.
  - destruct (bw_objs w j) as [[r| |]|] eqn:V; try discriminate. destruct (bw_objs w i) eqn:U; [discriminate|]. injection E as <- <-. exact Z.
  - destruct (bw_objs w j) as [[| |p l r]|] eqn:V; try discriminate. destruct (bw_objs w i) eqn:U; [discriminate|]. injection E as <- <-. exact Z.
  - destruct (bw_objs w j) as [[|p l r|p l r]|] eqn:V; try discriminate; (destruct (bw_objs w i) eqn:U; [discriminate|]); injection E as <- <-; exact Z.
  - destruct (bw_objs w i) eqn:U; [discriminate|]. destruct (bw_objs w j) as [y|] eqn:V; [|discriminate]. injection E as <- <-. exact Z.
  - destruct (bw_objs w i) as [y|] eqn:U; [|discriminate]. destruct (bw_objs w j) as [z|] eqn:V; [|discriminate].
    destruct (same_kind y z); [|discriminate]. injection E as <- <-. exact Z.
  - destruct (bw_objs w i) eqn:U; [discriminate|]. destruct (bw_objs w j) as [[| |p l r]|] eqn:V; try discriminate. injection E as <- <-. exact Z.
  - destruct (bw_objs w i) as [y|] eqn:U; [|discriminate]. unfold bres_drop in E. pose proof (b_res _ I _ _ U) as R.
    destruct (br_own (res_of y)) eqn:O; [|injection E as <- <-; exact Z].
    destruct (br_block (res_of y)) as [a|] eqn:B; [|injection E as <- <-; exact Z].
    destruct (get (bw_heap w) a) as [bs|] eqn:G; [|discriminate]. destruct (br_off (res_of y) =? 0); [|discriminate].
    injection E as <- <-. intros b b2. cbn. rewrite get_upd2. destruct (Nat.eqb a b); [destruct (Nat.ltb _ _); discriminate|apply Z].
  - destruct (bw_objs w i) as [[|p l r|]|] eqn:U; try discriminate.
    destruct (if rop_data op then _ else _) as [buf| | | |]; try discriminate. cbn [bind] in E.
    destruct (r_step host_be _ op) as [q| | | |]; try discriminate. injection E as <- <-. exact Z.
  - destruct (bw_objs w i) as [[| |p l r]|] eqn:U; try discriminate. pose proof (b_res _ I _ _ U) as R. cbn [res_of] in R.
    destruct (wop_data op) eqn:D.
    + destruct (backed_dec w r I R) as [B|B]; [|rewrite (bytes_undefined w r I B) in E; discriminate].
      rewrite (bytes_defined w r I R B) in E. cbn [bind] in E.
      destruct (w_step_safe host_be (mkWriter p l (shown w r)) op) as (q & w2 & S1 & Y). rewrite S1 in E. cbn [bind fst snd] in E.
      injection E as <- <-. cbn [w_buf] in Y. rewrite (size_shown w r I R B) in Y.
      intros b b2. cbn. unfold bres_store. unfold res_ok in R. destruct (br_block r) as [a|]; [|apply Z].
      destruct (get (bw_heap w) a) as [bs|] eqn:G; [|apply Z]. cbn. rewrite get_upd2. destruct (Nat.eqb a b); [|apply Z].
      destruct (Nat.ltb _ _); [|discriminate]. intros [= <-]. destruct R as (_ & R). rewrite size_overwrite; [now apply (Z a)|].
      destruct (R bs eq_refl). lia.
    + cbn [bind] in E. destruct (w_step_safe host_be (mkWriter p l (blank r)) op) as (q & w2 & S1 & Y). rewrite S1 in E.
      cbn [bind fst snd] in E. injection E as <- <-. exact Z.
  - destruct (bw_objs w i) as [[r| |]|] eqn:U; try discriminate. destruct (bres_bytes w r); try discriminate. injection E as <- <-. exact Z.
Qed.
Lemma run_sizes host_be os : forall w xs w', binv w -> sizes w -> Forall bop_ok os -> b_run host_be os w = Ret (xs, w') -> sizes w'.
Proof.
  induction os as [|o os IH]; intros w xs w' I Z K E; cbn [b_run] in E.
  - injection E as <- <-. exact Z.
  - destruct (b_step host_be o w) as [[x w1]| | | |] eqn:S1; try discriminate. cbn [bind fst snd] in E.
    destruct (b_run host_be os w1) as [[ys w2]| | | |] eqn:R; try discriminate. injection E as <- <-. inversion K as [|? ? K1 K2]; subst.
    eapply IH; [| |exact K2|exact R]; [eapply step_inv|eapply step_sizes]; eauto.
Qed.
Lemma start_sizes : sizes b_start.
Proof. intros a bs G. apply get_some in G. cbn in G. lia. Qed.

(** ** When a step is defined *)
Lemma step_defined host_be o w : binv w -> well_typed w o -> memory_there w o ->
  b_step host_be o w = Terminates \/ exists x w', b_step host_be o w = Ret (x, w').
Proof.
  intros I T M. unfold well_typed, is_mem, is_reader, is_writer, unused in T.
  destruct o as [i init ok|i|i|i|i j wr|i j wr|i j from to wr|i j|i j|i j|i j|i j|i|i op|i op|i]; cbn [b_step] in *.
  - rewrite T. destruct ok; eauto.
  - rewrite T. eauto.
  - rewrite T. eauto.
  - rewrite T. eauto.
  - destruct T as (T & r & V). rewrite T, V. eauto.
  - destruct T as (T & r & V). rewrite T, V. eauto.
  - destruct T as (T & r & V). rewrite T, V. eauto.
  - destruct T as (T & p & l & r & V). rewrite T, V. eauto.
  - destruct T as (T & [(p & l & r & V)|(p & l & r & V)]); rewrite T, V; eauto.
  - destruct T as (T & V). rewrite T. destruct (bw_objs w j); [eauto|congruence].
  - destruct T as [((r & V) & (r2 & V2))|[((p & l & r & V) & (p2 & l2 & r2 & V2))|((p & l & r & V) & (p2 & l2 & r2 & V2))]];
      rewrite V, V2; cbn; eauto.
  - destruct T as (T & p & l & r & V). rewrite T, V. eauto.
  - destruct (bw_objs w i) as [y|] eqn:U; [|congruence]. unfold bres_drop. pose proof (b_res _ I _ _ U) as R. unfold res_ok in R.
    destruct (br_own (res_of y)) eqn:O; cbn [bind]; [|eauto]. destruct (br_block (res_of y)) as [a|] eqn:B; cbn [bind]; [|eauto].
    destruct (b_alive _ I i a) as (bs & G); [exists y; auto|]. rewrite G. destruct R as (_ & R). destruct (R bs G) as (_ & R2).
    destruct (R2 eq_refl) as (-> & _). cbn. eauto.
  - destruct T as (p & l & r & V). rewrite V. cbn [memory_there] in M.
    destruct (rop_data op) eqn:D.
    + rewrite (bytes_defined w r I (b_res _ I _ _ V) (M eq_refl _ V)). cbn [bind].
      destruct (r_step_safe host_be (mkReader p l (shown w r)) op) as [E|(q & r' & E & _)]; rewrite E; cbn; eauto.
    + cbn [bind]. destruct (r_step_safe host_be (mkReader p l (blank r)) op) as [E|(q & r' & E & _)]; rewrite E; cbn; eauto.
  - destruct T as (p & l & r & V). rewrite V. cbn [memory_there] in M.
    destruct (wop_data op) eqn:D.
    + rewrite (bytes_defined w r I (b_res _ I _ _ V) (M eq_refl _ V)). cbn [bind].
      destruct (w_step_safe host_be (mkWriter p l (shown w r)) op) as (q & r' & E & _); rewrite E; cbn; eauto.
    + cbn [bind]. destruct (w_step_safe host_be (mkWriter p l (blank r)) op) as (q & r' & E & _); rewrite E; cbn; eauto.
  - destruct T as (r & V). rewrite V. rewrite (bytes_defined w r I (b_res _ I _ _ V) (M _ V)). cbn. eauto.
Qed.
Lemma step_undefined host_be o w : binv w -> b_step host_be o w <> UB -> well_typed w o /\ memory_there w o.
Proof.
  intros I E. unfold well_typed, is_mem, is_reader, is_writer, unused.
  destruct o as [i init ok|i|i|i|i j wr|i j wr|i j from to wr|i j|i j|i j|i j|i j|i|i op|i op|i]; cbn [b_step memory_there] in *.
  1-4: destruct (bw_objs w i); [congruence|auto].
  - destruct (bw_objs w i), (bw_objs w j) as [[r| |]|]; try congruence; eauto.
  - destruct (bw_objs w j) as [[r| |]|], (bw_objs w i); try congruence; eauto.
  - destruct (bw_objs w j) as [[r| |]|], (bw_objs w i); try congruence; eauto.
  - destruct (bw_objs w j) as [[|p l r|p l r]|], (bw_objs w i); try congruence; eauto 6.
  - destruct (bw_objs w j) as [[|p l r|p l r]|], (bw_objs w i); try congruence; split; auto; split; auto; [right|left]; eauto.
  - destruct (bw_objs w i), (bw_objs w j); try congruence; split; auto; split; congruence.
  - destruct (bw_objs w i) as [[| |]|], (bw_objs w j) as [[| |]|]; cbn in E; try congruence; split; auto; [left|right;left|right;right]; eauto 8.
  - destruct (bw_objs w i), (bw_objs w j) as [[|p l r|p l r]|]; try congruence; eauto 6.
  - destruct (bw_objs w i); [|congruence]. split; [congruence|auto].
  - destruct (bw_objs w i) as [[|p l r|]|] eqn:V; try congruence. split; [eauto|]. intros D x [= <-]. rewrite D in E.
    destruct (backed_dec w r I (b_res _ I _ _ V)) as [B|B]; [exact B|]. rewrite (bytes_undefined w r I B) in E. now contradiction E.
  - destruct (bw_objs w i) as [[| |p l r]|] eqn:V; try congruence. split; [eauto|]. intros D x [= <-]. rewrite D in E.
    destruct (backed_dec w r I (b_res _ I _ _ V)) as [B|B]; [exact B|]. rewrite (bytes_undefined w r I B) in E. now contradiction E.
  - destruct (bw_objs w i) as [[r| |]|] eqn:V; try congruence. split; [eauto|]. intros x [= <-].
    destruct (backed_dec w r I (b_res _ I _ _ V)) as [B|B]; [exact B|]. rewrite (bytes_undefined w r I B) in E. now contradiction E.
Qed.

(** ** Operations that do not look at the bytes *)
Lemma r_step_blank host_be p l a b op : rop_data op = false -> size a = size b ->
  r_step host_be (mkReader p l a) op =
  match r_step host_be (mkReader p l b) op with
  | Ret (o, r) => Ret (o, mkReader (r_pos r) (r_lim r) a) | z => z end.
Proof.
  intros D Z. destruct op; try discriminate D; cbn [r_step].
  - unfold r_limit. cbn [r_buf r_pos r_lim]. rewrite Z. destruct (_ <? _); reflexivity.
  - unfold r_position. cbn. destruct (_ <? _); reflexivity.
  - unfold r_advance, r_remaining. cbn. destruct (_ <? _); reflexivity.
  - reflexivity.
Qed.
Lemma w_step_blank host_be p l a b op : wop_data op = false -> size a = size b ->
  w_step host_be (mkWriter p l a) op =
  match w_step host_be (mkWriter p l b) op with
  | Ret (o, r) => Ret (o, mkWriter (w_pos r) (w_lim r) a) | z => z end.
Proof.
  intros D Z. destruct op; try discriminate D; cbn [w_step].
  - unfold w_limit. cbn [w_buf w_pos w_lim]. rewrite Z. destruct (_ <? _); reflexivity.
  - unfold w_position. cbn. destruct (_ <? _); reflexivity.
  - unfold w_advance, w_remaining. cbn. destruct (_ <? _); reflexivity.
  - reflexivity.
  - unfold w_clear. cbn. now rewrite Z.
  - reflexivity.
Qed.
(** A reader over backed memory: one operation. *)
Lemma read_backed host_be w i p l r op : binv w -> bw_objs w i = Some (OReader p l r) -> backed w r ->
  b_step host_be (BRead i op) w =
  match r_step host_be (mkReader p l (shown w r)) op with
  | Ret (o, r') => Ret (BGot o, put_obj w i (Some (OReader (r_pos r') (r_lim r') r)))
  | Throws e => Throws e | Terminates => Terminates | UB => UB | OutOfFuel => OutOfFuel end.
Proof.
  intros I V B. cbn [b_step]. rewrite V. destruct (rop_data op) eqn:D.
  - rewrite (bytes_defined w r I (b_res _ I _ _ V) B). cbn [bind]. destruct (r_step _ _ _) as [[o r']| | | |]; reflexivity.
  - cbn [bind]. rewrite (r_step_blank host_be p l (blank r) (shown w r) op D) by (rewrite size_blank; symmetry; apply (size_shown w r I (b_res _ I _ _ V) B)).
    destruct (r_step _ _ _) as [[o r']| | | |]; reflexivity.
Qed.
Lemma write_backed host_be w i p l r op : binv w -> bw_objs w i = Some (OWriter p l r) -> backed w r ->
  exists o w2, w_step host_be (mkWriter p l (shown w r)) op = Ret (o, w2) /\ size (w_buf w2) = br_len r /\
  b_step host_be (BWrite i op) w = Ret (BPut o, put_obj (if wop_data op then bres_store w r (w_buf w2) else w) i (Some (OWriter (w_pos w2) (w_lim w2) r))).
Proof.
  intros I V B. cbn [b_step]. rewrite V. pose proof (size_shown w r I (b_res _ I _ _ V) B) as Z.
  destruct (w_step_safe host_be (mkWriter p l (shown w r)) op) as (o & w2 & E & Z2). cbn [w_buf] in Z2. rewrite Z in Z2.
  exists o, w2. split; [exact E|]. split; [exact Z2|]. destruct (wop_data op) eqn:D.
  - rewrite (bytes_defined w r I (b_res _ I _ _ V) B). cbn [bind]. rewrite E. reflexivity.
  - cbn [bind]. rewrite (w_step_blank host_be p l (blank r) (shown w r) op D) by (rewrite size_blank; symmetry; apply (size_shown w r I (b_res _ I _ _ V) B)).
    rewrite E. reflexivity.
Qed.
