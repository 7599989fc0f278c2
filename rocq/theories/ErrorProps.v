(** C53, C77, C78: error domains and the text of an Error. *)
From Verif Require Import Base BaseLemmas MemoryModel ContainerModel ContainerSpec ContainerProofs DictModel DictSpec DictProps.
From Verif Require Import AtomModel AtomSpec AtomProps ByteIOModel ByteIOProofs StringViewModel StringModel StringProofs StringProps ErrorModel.

(** ** C53 *)

(** A history of registrations; the answers are the returned ids. *)
Fixpoint register_all (szp : N) (r : registry) (l : list (N * N)) : outcome (list N * registry) :=
  match l with
  | [] => Ret ([], r)
  | (id, domain) :: t =>
      let! x := registerErrorDomain szp r id domain in
      let! y := register_all szp (snd x) t in
      Ret (fst x :: fst y, snd y)
  end.
(** The oldest registration under an id. *)
Fixpoint first_registered (id : N) (l : list (N * N)) : option N :=
  match l with [] => None | (i, d) :: t => if i =? id then Some d else first_registered id t end.

Lemma first_lookup id l : lookup N.eqb id l = first_registered id l.
Proof. induction l as [|[i d] t IH]; [reflexivity|]. cbn. now rewrite IH. Qed.

Definition reg_ok (szp : N) (r : registry) (l : list (N * N)) : Prop :=
  room 8 szp (r_map r) = 128 /\
  exists ks vs, dholds 8 szp (r_map r) ks vs /\ pairs ks vs = firstn 128 l.

Lemma reg_new_ok szp : 0 < szp < 2 ^ 32 -> reg_ok szp (autoRegisterDomainMap szp) [].
Proof.
  intros H. change (2 ^ 32) with 4294967296 in H. split.
  - unfold room, autoRegisterDomainMap, dict_make, vec_capacity, raw_buf, kNbErrorCategories. cbn [r_map d_keys d_values c_buf b_slots b_bytes].
    rewrite ?repeat_length.
    replace (128 * szp / szp) with 128 by (symmetry; apply N.div_mul; lia).
    change (128 * 8 / 8) with 128.
    cbn. lia.
  - exists [], []. split; [|reflexivity]. apply dholds_make; change (2 ^ 64) with 18446744073709551616; unfold kNbErrorCategories; lia.
Qed.
Lemma find_ok szp r l id : reg_ok szp r l -> findErrorDomain r id = Ret (first_registered id (firstn 128 l)).
Proof.
  intros (_ & ks & vs & (Hk & Hv & L) & P). unfold findErrorDomain, dict_find. rewrite (elems_holds _ _ _ _ Hk).
  pose proof Hv as (q & -> & _). rewrite find_spec by exact L. cbn [noexcept]. now rewrite first_lookup, P.
Qed.
Lemma register_ok szp r l id d : 0 < szp -> reg_ok szp r l ->
  exists r', registerErrorDomain szp r id d = Ret (N.min 128 (size l + 1), r') /\ reg_ok szp r' (l ++ [(id, d)]).
Proof.
  intros S (R & ks & vs & H & P). unfold registerErrorDomain. pose proof H as (Hk & Hv & L).
  destruct (put_spec 8 szp (r_made r) (r_map r) ks vs (Some id) (Some d)) as (d' & nx & a & ks' & vs' & -> & H' & C1 & C2 & X);
    [lia | exact S | exact H | left; discriminate|].
  cbn [bind noexcept]. assert (R' : room 8 szp d' = 128) by (unfold room in *; congruence).
  assert (dict_size d' = size vs') as DS.
  { unfold dict_size, vec_size. destruct H' as (_ & (q & _ & _ & _ & _ & _ & _ & K0) & _). now rewrite (K0 eq_refl). }
  rewrite DS. pose proof (f_equal (@length _) P) as PL. rewrite length_pairs, firstn_length in PL by exact L.
  rewrite R in X. unfold size. destruct (N.leb_spec 128 (N.of_nat (length vs))) as [Q|Q].
  - destruct X as (_ & -> & ->). eexists. split; [f_equal; f_equal; unfold u32; rewrite N.mod_small by (change (2 ^ 32) with 4294967296; lia); lia|].
    split; [exact R'|]. exists ks, vs. split; [exact H'|]. rewrite P, firstn_app. replace (128 - length l)%nat with 0%nat by lia. cbn. now rewrite app_nil_r.
  - destruct X as (_ & -> & ->). eexists. split.
    + f_equal. f_equal. rewrite app_length. cbn [length]. unfold u32. rewrite N.mod_small by (change (2 ^ 32) with 4294967296; lia). lia.
    + split; [exact R'|]. eexists _, _. split; [exact H'|]. rewrite pairs_app by exact L. cbn [snd]. rewrite P, firstn_app.
      rewrite (firstn_all2 l) by lia. rewrite (firstn_all2 [(id, d)]) by (cbn [length]; lia). reflexivity.
Qed.
Lemma register_all_ok szp l : 0 < szp -> forall r l0, reg_ok szp r l0 ->
  exists r', register_all szp r l = Ret (map (fun i => N.min 128 (size l0 + N.of_nat i)) (seq 1 (length l)), r') /\ reg_ok szp r' (l0 ++ l).
Proof.
  intros S. induction l as [|[id d] t IH]; intros r l0 H; [exists r; rewrite app_nil_r; auto|].
  cbn [register_all]. destruct (register_ok szp r l0 id d S H) as (r1 & -> & H1). cbn [bind fst snd].
  destruct (IH r1 _ H1) as (r2 & -> & H2). cbn [bind fst snd]. exists r2. rewrite <- app_assoc in H2. split; [|exact H2].
  cbn [length seq map]. rewrite <- (seq_shift (length t) 1), map_map.
  rewrite size_app. change (size [(id, d)]) with 1. f_equal. f_equal. f_equal.
  apply map_ext. intros i. lia.
Qed.

(** Every history of registrations: afterwards an id finds the domain registered
    first under it, among the first 128 registrations; the ids handed out count
    them. *)
Theorem C53_registry szp regs : 0 < szp < 2 ^ 32 ->
  exists ids r, register_all szp (autoRegisterDomainMap szp) regs = Ret (ids, r) /\
    (forall id, findErrorDomain r id = Ret (first_registered id (firstn 128 regs))) /\
    ids = map (fun i => N.min 128 (N.of_nat i)) (seq 1 (length regs)).
Proof.
  intros S. destruct (register_all_ok szp regs) with (r := autoRegisterDomainMap szp) (l0 := @nil (N * N)) as (r & -> & H);
    [lia | now apply reg_new_ok|].
  eexists _, r. split; [reflexivity|]. split; [intros id; now apply (find_ok szp)|]. reflexivity.
Qed.
Print Assumptions C53_registry.

(** In the words of the claim: up to 128 registrations, found iff registered. *)
Theorem C53_found_iff szp regs : 0 < szp < 2 ^ 32 -> (length regs <= 128)%nat ->
  exists ids r, register_all szp (autoRegisterDomainMap szp) regs = Ret (ids, r) /\
    forall id, (findErrorDomain r id = Ret None <-> ~ In id (map fst regs)) /\
      (forall before d after, regs = before ++ (id, d) :: after -> ~ In id (map fst before) -> findErrorDomain r id = Ret (Some d)).
Proof.
  intros S L. destruct (C53_registry szp regs S) as (ids & r & E & F & _). exists ids, r. split; [exact E|].
  intros id. rewrite F, firstn_all2 by exact L. clear. split.
  - induction regs as [|[i d] t IH]; [cbn; tauto|]. cbn [first_registered map fst In]. destruct (N.eqb_spec i id) as [->|X].
    + split; [discriminate | intros H; destruct H; now left].
    + rewrite IH. tauto.
  - intros before d after -> H. f_equal. induction before as [|[i e] t IH]; cbn [app first_registered].
    + now rewrite N.eqb_refl.
    + destruct (N.eqb_spec i id) as [->|X]; [destruct H; now left|]. apply IH. intros I. apply H. now right.
Qed.
Print Assumptions C53_found_iff.
Example C53_ok : 0 < 8 < 2 ^ 32 /\ exists ids r,
  register_all 8 (autoRegisterDomainMap 8) [(5, 100); (7, 200); (5, 300)] = Ret (ids, r) /\ ids = [1; 2; 3] /\
  findErrorDomain r 5 = Ret (Some 100) /\ findErrorDomain r 7 = Ret (Some 200) /\ findErrorDomain r 6 = Ret None.
Proof.
  split; [lia|]. destruct (C53_registry 8 [(5, 100); (7, 200); (5, 300)]) as (ids & r & E & F & I); [lia|].
  exists ids, r. rewrite !F, I. split; [congruence|]. repeat split.
Qed.

(** ** C77: the POSIX domain *)

(** (112, 111, 115, 105, 120 is "posix".)  Found once the program runs, whatever else is registered after it, if the map
    was initialised before the domain. *)
Theorem C77_posix_partial szp system regs : 0 < szp < 2 ^ 32 ->
  exists r0 ids r posix, atom_literal [112; 111; 115; 105; 120] = Ret posix /\ before_main szp system true = Ret r0 /\
    register_all szp r0 regs = Ret (ids, r) /\ findErrorDomain r posix = Ret (Some system).
Proof.
  intros S. unfold before_main, posix_text. destruct (atom_literal [112; 111; 115; 105; 120]) as [posix| | | |] eqn:A; try (vm_compute in A; discriminate A). cbn [bind].
  destruct (register_ok szp _ _ posix system ltac:(lia) (reg_new_ok szp S)) as (r0 & -> & H0). cbn [bind snd].
  destruct (register_all_ok szp regs ltac:(lia) r0 _ H0) as (r & E & H). eexists r0, _, r, posix.
  split; [reflexivity|]. split; [reflexivity|]. split; [exact E|]. rewrite (find_ok szp _ _ _ H). cbn. now rewrite N.eqb_refl.
Qed.
Print Assumptions C77_posix_partial.
(** In the other order, which the language allows, it is lost: found only if
    somebody registers a domain under its id later. *)
Theorem C77_posix_refuted szp system regs : 0 < szp < 2 ^ 32 ->
  exists r0 ids r posix, atom_literal [112; 111; 115; 105; 120] = Ret posix /\ before_main szp system false = Ret r0 /\
    register_all szp r0 regs = Ret (ids, r) /\ (~ In posix (map fst regs) -> findErrorDomain r posix = Ret None).
Proof.
  intros S. unfold before_main, posix_text. destruct (atom_literal [112; 111; 115; 105; 120]) as [posix| | | |] eqn:A; try (vm_compute in A; discriminate A). cbn [bind].
  assert (exists x, registerErrorDomain szp (mkRegistry dict_empty_new 0) posix system = Ret x) as (x & ->).
  { destruct (put_spec 8 szp 0 (@dict_empty_new N N) [] [] (Some posix) (Some system)) as (d' & nx & a & ks' & vs' & E & _); [lia|lia| |left; discriminate|].
    - split; [|split; [|reflexivity]]; apply holds_none; lia.
    - unfold registerErrorDomain. cbn [r_made r_map]. rewrite E. cbn [bind noexcept]. eauto. }
  cbn [bind]. destruct (register_all_ok szp regs ltac:(lia) _ _ (reg_new_ok szp S)) as (r & E & H). eexists _, _, r, posix.
  split; [reflexivity|]. split; [reflexivity|]. split; [exact E|]. intros N0. rewrite (find_ok szp _ _ _ H). cbn [app]. f_equal.
  assert (~ In posix (map fst (firstn 128 regs))) as N1.
  { intros I. apply N0. rewrite <- (firstn_skipn 128 regs), map_app. apply in_or_app. now left. }
  revert N1. generalize (firstn 128 regs). clear. induction l as [|[i d] t IH]; intros H; [reflexivity|]. cbn in *.
  destruct (N.eqb_spec i posix) as [->|]; [destruct H; now left|]. apply IH. tauto.
Qed.
Print Assumptions C77_posix_refuted.

(** ** C78: the text of an Error *)

(** A domain that is registered gives the text, for any code; the tag plays no part. *)
Theorem C78_known host_be alloc message szp regs code domain tag d : 0 < szp < 2 ^ 32 ->
  first_registered domain (firstn 128 regs) = Some d ->
  exists ids r, register_all szp (autoRegisterDomainMap szp) regs = Ret (ids, r) /\
    err_toString host_be alloc message r (mkErr code domain tag) = Ret (message d code).
Proof.
  intros S F. destruct (C53_registry szp regs S) as (ids & r & E & G & _). exists ids, r. split; [exact E|].
  unfold err_toString. cbn [e_domain e_code]. now rewrite G, F.
Qed.
Print Assumptions C78_known.
(** Otherwise: the name of the domain, a colon, a space and the tag; or nothing at all
    when there is no memory for it. *)
Theorem C78_unknown_partial host_be alloc message szp regs code name domain tag : 0 < szp < 2 ^ 32 -> heap_ok alloc ->
  atom_text name -> tryParseAtom name = Ret (Ok domain) -> ~ In domain (map fst regs) -> size name + 2 + size tag < 2 ^ 16 ->
  exists ids r, register_all szp (autoRegisterDomainMap szp) regs = Ret (ids, r) /\
    err_toString host_be alloc message r (mkErr code domain tag) =
      Ret (match alloc (size name + 2 + size tag) with Ok _ => name ++ [58; 32] ++ tag | Err _ => [] end).
Proof.
  intros S HA T P NI L. destruct (C53_registry szp regs S) as (ids & r & E & G & _). exists ids, r. split; [exact E|].
  unfold err_toString. cbn [e_domain e_code e_tag]. rewrite G.
  replace (first_registered domain (firstn 128 regs)) with (@None N).
  2:{ assert (~ In domain (map fst (firstn 128 regs))) as N1.
      { intros I. apply NI. rewrite <- (firstn_skipn 128 regs), map_app. apply in_or_app. now left. }
      revert N1. generalize (firstn 128 regs). clear. induction l as [|[i d] t IH]; intros H; [reflexivity|]. cbn in *.
      destruct (N.eqb_spec i domain) as [->|]; [destruct H; now left|]. apply IH. tauto. }
  cbn [bind]. destruct (C15_round_trip name T) as (v & P' & _ & _ & C). rewrite P in P'. injection P' as <-. rewrite C.
  assert (A : Forall arg_ok [AText name; AText [58; 32]; AText tag]).
  { assert (sv_ok [58; 32]) by reflexivity. repeat constructor; unfold arg_ok; try assumption; unfold sv_ok; lia. }
  pose proof (C26_concat host_be alloc _ HA A) as X. cbv zeta in X. cbn [map arg_text concat] in X. rewrite app_nil_r in X.
  assert (SZ : size (name ++ [58; 32] ++ tag) = size name + 2 + size tag) by (rewrite !size_app; change (size [58; 32]) with 2; lia).
  rewrite SZ in X. specialize (X L). destruct (alloc (size name + 2 + size tag)) as [b|e].
  - destruct X as (st & -> & V & _). cbn [bind]. now rewrite V.
  - rewrite X. reflexivity.
Qed.
Print Assumptions C78_unknown_partial.
(** When the text would have 65536 characters it comes out empty. *)
Theorem C78_long_tag_refuted host_be message szp code name domain tag : 0 < szp < 2 ^ 32 ->
  atom_text name -> tryParseAtom name = Ret (Ok domain) -> size name + 2 + size tag = 2 ^ 16 ->
  err_toString host_be junk_heap message (autoRegisterDomainMap szp) (mkErr code domain tag) = Ret [].
Proof.
  intros S T P L. unfold err_toString. cbn [e_domain e_tag]. rewrite (find_ok szp _ [] domain) by now apply reg_new_ok.
  cbn [firstn first_registered bind]. destruct (C15_round_trip name T) as (v & P' & _ & _ & C). rewrite P in P'. injection P' as <-. rewrite C.
  unfold str_concat. rewrite total_size_spec. replace (size (flat_map arg_text [AText name; AText [58; 32]; AText tag])) with (2 ^ 16)
    by (rewrite <- L; cbn [flat_map arg_text]; rewrite !size_app; change (size [58; 32]) with 2; rewrite (@size_nil N); lia).
  replace (2 ^ 16 mod 2 ^ 16) with 0 by reflexivity. cbn [junk_heap N.to_nat repeat].
  set (w := writer_make []). assert (W : exists p, write_args host_be w [AText name; AText [58; 32]; AText tag] = Ret p).
  { assert (A : Forall (fun a => exists t, write_arg host_be w a = w_write w t /\ forall v, write_arg host_be v a = w_write v t) [AText name; AText [58; 32]; AText tag])
      by (repeat constructor; eexists; split; reflexivity).
    clearbody w. revert w A. induction [AText name; AText [58; 32]; AText tag] as [|a l IH]; intros w A; [eexists; reflexivity|].
    apply Forall_inv in A as X. apply Forall_inv_tail in A. destruct X as (t & _ & X). cbn [write_args]. rewrite X.
    destruct (w_write_safe w t) as (o & w' & -> & _). cbn [bind fst snd]. destruct o as [u|e]; [|eexists; reflexivity].
    apply IH. eapply Forall_impl; [|exact A]. cbn. intros b (t' & _ & Y). exists t'. split; apply Y. }
  destruct W as (p & ->). cbn [bind]. unfold str_view. cbn [st_size]. rewrite N.min_0_r, ntake_0. reflexivity.
Qed.
Print Assumptions C78_long_tag_refuted.
Example C78_case : exists d r ids, tryParseAtom [97; 98] = Ret (Ok d) /\
  register_all 8 (autoRegisterDomainMap 8) [(5, 100)] = Ret (ids, r) /\ first_registered 5 (firstn 128 [(5, 100)]) = Some 100 /\
  ~ In d (map fst [(5, 100)]) /\
  err_toString false junk_heap (fun p c => [p; Z.to_N c]) r (mkErr 7 d [120; 121]) = Ret [97; 98; 58; 32; 120; 121] /\
  err_toString false junk_heap (fun p c => [p; Z.to_N c]) r (mkErr 7 5 [120; 121]) = Ret [100; 7].
Proof.
  eexists _, _, _. split; [vm_compute; reflexivity|]. split; [vm_compute; reflexivity|]. split; [reflexivity|].
  split; [cbn; intros [X|[]]; discriminate X|]. split; vm_compute; reflexivity.
Qed.
Example C78_long_case : size [97] + 2 + size (repeat 98 (N.to_nat 65533)) = 2 ^ 16.
Proof. unfold size. rewrite repeat_length. cbn [length]. lia. Qed.

(** ** C131: comparing and exchanging Errors *)

(** Two errors are equal exactly when code and domain are; the tag plays no part. *)
Theorem C131_equal : forall c d t c' d' t',
  (err_eq (mkErr c d t) (mkErr c' d' t') = true <-> c = c' /\ d = d').
Proof.
  intros. unfold err_eq. cbn [e_code e_domain]. rewrite andb_true_iff, N.eqb_eq, Z.eqb_eq. tauto.
Qed.
Print Assumptions C131_equal.
(** An equivalence relation, which converts equal errors to the same truth value. *)
Theorem C131_equivalence : forall a b c,
  err_eq a a = true /\ err_eq a b = err_eq b a /\
  (err_eq a b = true -> err_eq b c = true -> err_eq a c = true) /\
  (err_eq a b = true -> err_bool a = err_bool b).
Proof.
  intros [c d t] [c' d' t'] [c'' d'' t'']. split; [now apply C131_equal|]. split.
  - apply eq_true_iff_eq. rewrite !C131_equal. split; intros (-> & ->); split; reflexivity.
  - rewrite !C131_equal. split; [intros (-> & ->) (-> & ->); now split|]. intros (-> & ->). reflexivity.
Qed.
Print Assumptions C131_equivalence.
(** An error is false exactly when its code is zero; exchanging two errors exchanges
    everything they hold. *)
Theorem C131_zero_and_swap : forall c d t b,
  (err_bool (mkErr c d t) = false <-> c = 0%Z) /\ err_swap (mkErr c d t) b = (b, mkErr c d t).
Proof.
  intros. unfold err_bool. cbn [e_code]. split; [|destruct b; reflexivity].
  destruct (Z.eqb_spec c 0) as [E|E]; cbn; split; intros X; congruence.
Qed.
Print Assumptions C131_zero_and_swap.
Example C131_ok : err_eq (mkErr 2 7 [97]) (mkErr 2 7 [98; 99]) = true /\ err_eq (mkErr 2 7 [97]) (mkErr 2 8 [97]) = false /\
  err_eq (mkErr 2 8 [97]) (mkErr 2 7 [97]) = false /\ err_eq (mkErr (-2) 7 [97]) (mkErr 2 7 [97]) = false.
Proof. repeat split. Qed.
