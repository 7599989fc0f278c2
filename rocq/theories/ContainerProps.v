(** Properties of Vector and Array (C38, C39, C67). *)
From Verif Require Import Base BaseLemmas MemViewModel MemoryModel MemoryProofs ContainerModel ContainerSpec ContainerProofs.
From Coq Require Import Permutation.

(** C38: a vector built on a buffer of [bytes] bytes answers every sequence of operations,
    and shows after each of them the size, emptiness, capacity, fullness and contents, of a
    sequence of at most bytes / sizeof(T) elements.  [arg = None]: the constructor throws. *)
Theorem C38_bounded_sequence : forall A (eqb : A -> A -> bool) sz bytes next ops, 0 < sz -> bytes < 2 ^ 64 ->
  exists obs, vec_run eqb sz next (mkCont (raw_buf sz bytes) 0) ops = Ret obs /\ behaves eqb (bytes / sz) [] ops obs.
Proof.
  intros A eqb sz bytes next ops S B.
  assert (G : forall (c : cont A) es nx, holds sz Vec c es -> b_bytes (c_buf c) = bytes ->
    exists obs, vec_run eqb sz nx c ops = Ret obs /\ behaves eqb (bytes / sz) (map snd es) ops obs).
  { induction ops as [|o ops IH]; intros c es nx H E; [exists []; split; [reflexivity|constructor]|].
    destruct (vec_op_spec eqb sz nx c es o S H) as (c' & nx' & a & es' & E1 & H' & Eb & V). cbn [vec_run]. rewrite E1. cbn [bind].
    rewrite (vec_obs_spec _ _ _ H'). cbn [bind]. destruct (IH c' es' nx' H' ltac:(congruence)) as (obs & -> & P). cbn [bind].
    unfold vec_capacity in V |- *. rewrite Eb, E in *. eexists. split; [reflexivity|]. eapply behaves_step; eassumption. }
  apply (G _ []); [now apply holds_raw|reflexivity].
Qed.
Print Assumptions C38_bounded_sequence.
Example C38_case : exists obs, vec_run N.eqb 8 0 (mkCont (raw_buf 8 20) 0)
    [VEmplace (Some 5); VEmplace None; VEmplace (Some 6); VEmplace (Some 7); VAt 1; VAt 2; VIndexOf 6; VSet 0 (Some 9); VSet 2 (Some 3); VAt 0; VPop; VClear; VPop] = Ret obs /\
  map fst obs = [VDone; VThrew UserException; VDone; VOverflow; VElem 6; VThrew IndexOutOfRange; VIndex (Some 1); VDone; VThrew IndexOutOfRange; VElem 9; VDone; VDone; VDone].
Proof. eexists. split; [vm_compute; reflexivity|]. vm_compute. reflexivity. Qed.

(** C39: whatever sequence of constructions, copies from arrays, moves, swaps, pushes, pops,
    clears, assignments, in-place rebuilds and destructions runs, with constructors throwing
    wherever they like, nothing undefined happens; every element constructed was
    constructed once, is destroyed at most once and only if it was constructed; and the
    elements not yet destroyed are exactly those held by living containers. *)
Theorem C39_lifetimes_partial : forall A sz (ops : list (cop A)), 0 < sz -> Forall (orderly sz) ops ->
  exists w log, crun sz world0 ops = Ret (w, log) /\
    NoDup (built log) /\ NoDup (destroyed log) /\ incl (destroyed log) (built log) /\
    (forall x, In x (alive w) <-> In x (built log) /\ ~ In x (destroyed log)).
Proof.
  intros A sz ops S F. destruct (crun_ok sz ops S world0 [] (winv0 sz) F) as (w & log & E & W). cbn [app] in W. destruct W as [W1 W2 W3 W4].
  exists w, log. split; [exact E|].
  assert (ND : NoDup (destroyed log ++ alive w)) by (eapply Permutation_NoDup; [symmetry; exact W2|exact W3]).
  assert (D : NoDup (destroyed log) /\ forall x, In x (destroyed log) -> ~ In x (alive w)).
  { clear - ND. induction (destroyed log) as [|y l IH]; cbn in *; [split; [constructor|intros x []]|]. inversion ND as [|? ? N1 N2]; subst. destruct (IH N2) as (I1 & I2). rewrite in_app_iff in N1.
    split; [constructor; tauto|]. intros x [<-|X]; [tauto|auto]. }
  destruct D as (D1 & D2). split; [exact W3|]. split; [exact D1|]. split.
  - intros x X. eapply Permutation_in; [exact W2|]. apply in_or_app. now left.
  - intros x. split.
    + intros X. split; [eapply Permutation_in; [exact W2|]; apply in_or_app; now right|]. intros Y. exact (D2 x Y X).
    + intros (X & Y). apply (Permutation_in x (Permutation_sym W2)) in X. apply in_app_or in X as [X|X]; [contradiction|exact X].
Qed.
Print Assumptions C39_lifetimes_partial.

(** ... and when all containers are gone, every element constructed was destroyed. *)
Theorem C39_all_destroyed_partial : forall A sz (ops : list (cop A)) w log, 0 < sz -> Forall (orderly sz) ops ->
  crun sz world0 ops = Ret (w, log) -> (forall i, get (w_objs w) i = None) -> Permutation (destroyed log) (built log).
Proof.
  intros A sz ops w log S F E D. destruct (crun_ok sz ops S world0 [] (winv0 sz) F) as (w' & log' & E' & W). rewrite E in E'. injection E' as <- <-.
  destruct W as [_ W2 _ _]. cbn [app] in W2. rewrite <- W2. assert (X : alive w = []); [|now rewrite X, app_nil_r].
  unfold alive. clear - D. induction (w_objs w) as [|o l IH]; [reflexivity|]. cbn [flat_map]. rewrite IH by (intros i; exact (D (Datatypes.S i))).
  specialize (D O). cbn in D. now rewrite D.
Qed.
Print Assumptions C39_all_destroyed_partial.

(** A destructor runs after the constructor of the same object, and once. *)
Theorem C39_order_partial : forall A sz (ops : list (cop A)) w log a x b, 0 < sz -> Forall (orderly sz) ops ->
  crun sz world0 ops = Ret (w, log) -> log = a ++ Dtor x :: b -> In x (built a) /\ ~ In x (destroyed a) /\ ~ In x (destroyed b).
Proof.
  intros A sz ops w log a x b S F E L.
  destruct (crun_ok sz ops S world0 [] (winv0 sz) F) as (w' & log' & E' & W). rewrite E in E'. injection E' as <- <-. cbn [app] in W. destruct W as [_ W2 W3 _ W5].
  split; [exact (W5 a x b L)|].
  assert (ND : NoDup (destroyed log ++ alive w)) by (eapply Permutation_NoDup; [symmetry; exact W2|exact W3]).
  rewrite L, destroyed_app in ND. cbn [destroyed flat_map app] in ND. rewrite <- app_assoc in ND. cbn [app] in ND.
  apply NoDup_remove_2 in ND. rewrite !in_app_iff in ND. tauto.
Qed.
Print Assumptions C39_order_partial.

(** A factory whose k-th element constructor throws leaves no container and no element. *)
Theorem C39_throwing_factory : forall A sz (w : world A) vs rest, 0 < sz -> sz * N.of_nat (length (map Some vs ++ None :: rest)) < 2 ^ 64 ->
  let ids := seq (w_next w) (length vs) in
  cstep sz w (MakeArrOf (map Some vs ++ None :: rest)) =
    Ret (mkWorld (w_objs w) (w_next w + length vs)%nat, map Ctor ids ++ map Dtor (rev ids), ARaised UserException) /\
  cstep sz w (MakeVecOf (map Some vs ++ None :: rest)) =
    Ret (mkWorld (w_objs w) (w_next w + length vs)%nat, map Ctor ids ++ map Dtor (rev ids), ARaised UserException).
Proof.
  intros A sz w vs rest S L ids. cbn [cstep]. unfold added.
  assert (L2 : N.of_nat (length (map Some vs ++ None :: rest)) = u64 (N.of_nat (length (map Some vs ++ None :: rest)) * sz) / sz).
  { unfold u64. rewrite N.mod_small by lia. symmetry. apply N.div_mul. lia. }
  destruct (make_spec sz (w_next w) _ _ S L2) as [(vs' & c & E1 & _)|(vs' & rest' & E1 & ->)].
  - exfalso. assert (In (@None A) (map Some vs')) as X by (rewrite <- E1; apply in_or_app; right; now left). apply in_map_iff in X as (? & ? & _). discriminate.
  - assert (vs' = vs) as ->; [|cbn [bind]; split; reflexivity].
    clear - E1. revert vs' E1; induction vs as [|v vs IH]; intros [|v' vs'] E; cbn in E; try discriminate; [reflexivity|]. injection E as -> E. f_equal. now apply IH.
Qed.
Print Assumptions C39_throwing_factory.

Definition program : list (cop N) :=
  [MakeVecN 3; Emplace 0 (Some 7); Emplace 0 None; Emplace 0 (Some 8); MakeArrOf [Some 1; Some 2; None; Some 4]; MakeArrOf [Some 1; Some 2];
   SwapC 1 1; ToArray 0; Emplace 0 (Some 9); SetElem 2 1 (Some 5); ViewEmplace 1 0 (Some 6); MoveC 1; Clear 0; VecNull 0].
Example C39_case : Forall (orderly 8) program /\
  (exists w, crun 8 world0 program = Ret (w, [Ctor 0; Ctor 1; Ctor 2; Ctor 3; Dtor 3; Dtor 2; Ctor 4; Ctor 5; Dtor 4; Ctor 6]) /\ alive w = [0; 1; 6; 5]%nat) /\
  exists w, crun 8 world0 (program ++ [DropC 0; DropC 1; DropC 2; DropC 3]) =
    Ret (w, [Ctor 0; Ctor 1; Ctor 2; Ctor 3; Dtor 3; Dtor 2; Ctor 4; Ctor 5; Dtor 4; Ctor 6; Dtor 0; Dtor 1; Dtor 6; Dtor 5]) /\ alive w = [].
Proof.
  split; [repeat constructor|]. split; eexists; (split; [vm_compute; reflexivity|vm_compute; reflexivity]).
Qed.

(** Full C39 (the same without [orderly]) is false.  Assigning nullptr to an Array destroys
    the elements but keeps the size and the buffer, so the destructor destroys them again;
    ArrayView::emplace destroys the old element first, so that when the constructor throws
    the container keeps a dead element, which is destroyed a second time. *)
Theorem C39_array_null_refuted : forall A sz (v : A) vs, 0 < sz -> sz * N.of_nat (length (v :: vs)) < 2 ^ 64 ->
  crun sz world0 [MakeArrOf (map Some (v :: vs)); ArrNull 0; DropC 0] = UB.
Proof.
  intros A sz v vs S L.
  assert (L2 : N.of_nat (length (map Some (v :: vs))) = u64 (N.of_nat (length (map Some (v :: vs))) * sz) / sz).
  { rewrite map_length. unfold u64. rewrite N.mod_small by lia. symmetry. apply N.div_mul. lia. }
  cbn [crun cstep]. unfold added.
  destruct (make_spec sz (w_next (@world0 A)) _ _ S L2) as [(vs' & c & E1 & -> & H & En & Eb)|(vs' & rest & E1 & _)].
  2:{ exfalso. assert (In (@None A) (map Some (v :: vs))) as X by (rewrite E1; apply in_or_app; right; now left). apply in_map_iff in X as (? & ? & _). discriminate. }
  assert (vs' = v :: vs) as ->.
  { clear - E1. revert E1. generalize (v :: vs). intros l; revert l; induction vs' as [|x l' IH]; intros [|y l] E; cbn in E; try discriminate; [reflexivity|]. injection E as -> E. f_equal. now apply IH. }
  unfold add, get. cbn [bind w_objs world0 app nth]. unfold arr_dispose. rewrite (destroy_spec _ _ _ _ H). unfold add, put, get. cbn [bind fst snd w_objs upd nth app].
  destruct H as (r & B & L1 & Lt & V & _). unfold destroy_all, view_size in *. rewrite cont_view_is in *. cbn [c_n c_buf b_bytes b_slots v_size] in *. rewrite V, Nat2N.id.
  set (es := combine _ _) in *. assert (Le : length es = Datatypes.S (length vs)) by (unfold es; rewrite combine_length, seq_length; cbn [length]; lia).
  rewrite repeat_length. assert (LS : length (b_slots (c_buf c)) = (length es + r)%nat) by (rewrite B, app_length, map_length, repeat_length; reflexivity).
  rewrite LS. destruct (Nat.ltb_spec (length es + r) (length es)); [lia|]. rewrite Le. cbn [plus repeat firstn dtors bind]. reflexivity.
Qed.
Print Assumptions C39_array_null_refuted.
Theorem C39_view_emplace_refuted :
  crun 4 world0 [MakeArrOf [Some 1; Some 2]; ViewEmplace 0 1 None; DropC 0] = UB /\
  (exists w, crun 4 world0 [MakeVecOf [Some 1; Some 2]; ViewEmplace 0 1 None] = Ret (w, [Ctor 0; Ctor 1; Dtor 1])) /\
  crun 4 world0 [MakeVecOf [Some 1; Some 2]; ViewEmplace 0 1 None; Pop 0] = UB.
Proof. split; [vm_compute; reflexivity|]. split; [eexists; vm_compute; reflexivity|vm_compute; reflexivity]. Qed.
Print Assumptions C39_view_emplace_refuted.

(** C67: makeArray(n) gives an array with size() = n whose n elements can be read, if n
    elements fit the address space. *)
Theorem C67_make_array_partial : forall A sz (w : world A) n f, 0 < sz -> n * sz < 2 ^ 64 ->
  exists w' ev c, cstep sz w (MakeArr n (fun k => Some (f k))) = Ret (w', ev, AOk) /\ w_objs w' = w_objs w ++ [Some (Arr, c)] /\
    arr_size c = n /\ contents_of sz c = Ret (map f (seq 0 (N.to_nat n))) /\
    forall i, i < n -> elem_at sz c i = Ret (f (N.to_nat i)).
Proof.
  intros A sz w n f S L. cbn [cstep]. unfold added.
  assert (U : u64 (n * sz) / sz = n) by (unfold u64; rewrite N.mod_small by lia; apply N.div_mul; lia).
  rewrite U, <- map_map. destruct (make_spec sz (w_next w) n (map Some (map f (seq 0 (N.to_nat n)))) S) as [(vs & c & E1 & -> & H & En & Eb)|(vs & rest & E1 & _)].
  - rewrite !map_length, seq_length, U. lia.
  - assert (map f (seq 0 (N.to_nat n)) = vs) as <-.
    { clear - E1. revert E1. generalize (map f (seq 0 (N.to_nat n))). induction vs as [|x l' IH]; intros [|y l] E; cbn in E; try discriminate; [reflexivity|]. injection E as -> E. f_equal. now apply IH. }
    cbn [bind]. eexists _, _, c. split; [reflexivity|]. split; [reflexivity|]. split; [exact En|].
    rewrite (contents_spec _ _ _ _ H), map_snd_combine by (rewrite seq_length; reflexivity). split; [reflexivity|].
    intros i I. rewrite (at_spec _ _ _ _ i S H), map_snd_combine by (rewrite seq_length; reflexivity).
    rewrite nth_error_map, (nth_error_nth' _ 0%nat) by (rewrite seq_length; lia). cbn [option_map]. now rewrite seq_nth by lia.
  - exfalso. assert (In (@None A) (map Some (map f (seq 0 (N.to_nat n))))) as X by (rewrite E1; apply in_or_app; right; now left). apply in_map_iff in X as (? & ? & _). discriminate.
Qed.
Print Assumptions C67_make_array_partial.
Example C67_case : 5 * 8 < 2 ^ 64.
Proof. reflexivity. Qed.

(** When n * sizeof(T) does not fit 64 bits the size is still n, but the array has fewer
    elements: reading the last one is an exception. *)
Theorem C67_make_array_refuted : forall A sz (w : world A) n (f : nat -> A), 0 < sz -> n < 2 ^ 64 -> 2 ^ 64 <= n * sz ->
  exists w' ev c es, cstep sz w (MakeArr n (fun k => Some (f k))) = Ret (w', ev, AOk) /\ w_objs w' = w_objs w ++ [Some (Arr, c)] /\
    arr_size c = n /\ contents_of sz c = Ret es /\ N.of_nat (length es) < n /\ elem_at sz c (n - 1) = Throws IndexOutOfRange.
Proof.
  intros A sz w n f S Ln L. cbn [cstep]. unfold added.
  set (k := u64 (n * sz) / sz). assert (K : k < n). { unfold k. apply N.div_lt_upper_bound; [lia|]. assert (u64 (n * sz) < 2 ^ 64) by (apply N.mod_lt; lia). lia. }
  rewrite <- map_map. destruct (make_spec sz (w_next w) n (map Some (map f (seq 0 (N.to_nat k)))) S) as [(vs & c & E1 & -> & H & En & Eb)|(vs & rest & E1 & _)].
  - rewrite !map_length, seq_length. fold k. lia.
  - assert (map f (seq 0 (N.to_nat k)) = vs) as <-.
    { clear - E1. revert E1. generalize (map f (seq 0 (N.to_nat k))). induction vs as [|x l' IH]; intros [|y l] E; cbn in E; try discriminate; [reflexivity|]. injection E as -> E. f_equal. now apply IH. }
    cbn [bind]. eexists _, _, c, _. split; [reflexivity|]. split; [reflexivity|]. split; [exact En|].
    rewrite (contents_spec _ _ _ _ H), map_snd_combine by (rewrite seq_length; reflexivity). split; [reflexivity|].
    split; [rewrite map_length, seq_length; lia|].
    rewrite (at_spec _ _ _ _ _ S H), map_snd_combine by (rewrite seq_length; reflexivity).
    assert (X : nth_error (map f (seq 0 (N.to_nat k))) (N.to_nat (n - 1)) = None) by (apply nth_error_None; rewrite map_length, seq_length; lia). now rewrite X.
  - exfalso. assert (In (@None A) (map Some (map f (seq 0 (N.to_nat k))))) as X by (rewrite E1; apply in_or_app; right; now left). apply in_map_iff in X as (? & ? & _). discriminate.
Qed.
Print Assumptions C67_make_array_refuted.
Example C67_wrap_case : 0 < 8 /\ 2 ^ 61 < 2 ^ 64 /\ 2 ^ 64 <= 2 ^ 61 * 8.
Proof. repeat split; discriminate. Qed.

(** toArray() gives an array with exactly the elements of the vector, and empties it. *)
Theorem C67_to_array : forall A sz (ops : list (cop A)) w log i c, 0 < sz -> Forall (orderly sz) ops -> crun sz world0 ops = Ret (w, log) ->
  get (w_objs w) i = Some (Vec, c) ->
  exists w' l, cstep sz w (ToArray i) = Ret (w', [], AOk) /\
    contents_of sz c = Ret l /\ vec_size c = N.of_nat (length l) /\
    get (w_objs w') (length (w_objs w)) = Some (Arr, c) /\ arr_size c = N.of_nat (length l) /\
    exists c0, get (w_objs w') i = Some (Vec, c0) /\ vec_size c0 = 0 /\ contents_of sz c0 = Ret [].
Proof.
  intros A sz ops w log i c S F E G. destruct (crun_ok sz ops S world0 [] (winv0 sz) F) as (w' & log' & E' & W). rewrite E in E'. injection E' as <- <-.
  destruct (w_holds _ _ _ W i Vec c G) as (es & H). cbn [cstep]. rewrite G. eexists _, (map snd es). split; [reflexivity|]. rewrite (contents_spec _ _ _ _ H), map_length.
  unfold add, put. cbn [w_objs]. destruct H as (r & _ & _ & _ & _ & _ & _ & K).
  split; [reflexivity|]. split; [exact (K eq_refl)|]. split; [rewrite get_app, length_upd, Nat.eqb_refl; reflexivity|]. split; [exact (K eq_refl)|].
  eexists. split; [rewrite get_app, length_upd; apply get_some in G as Gi; destruct (Nat.eqb_spec i (length (w_objs w))); [lia|]; rewrite get_upd_same with (y := (Vec, c)) by exact G; reflexivity|].
  split; [reflexivity|]. rewrite (contents_spec _ _ _ _ (holds_none sz Vec S)). reflexivity.
Qed.
Print Assumptions C67_to_array.
Example C67_to_array_case : exists w log c, crun 8 world0 [MakeVecN 4; Emplace 0 (Some 7); Emplace 0 (Some 9)] = Ret (w, log) /\ get (w_objs w) 0 = Some (Vec, c) /\ vec_size c = 2.
Proof. eexists _, _, _. split; [vm_compute; reflexivity|]. split; vm_compute; reflexivity. Qed.

(** Array::empty() looks at the buffer, not at the size: an array made from an empty vector
    is not empty() although it has no elements. *)
Theorem C67_empty_refuted : exists w log c, crun 8 world0 [MakeVecN 4; ToArray 0] = Ret (w, log) /\ get (w_objs w) 1 = Some (Arr, @c) /\
  arr_size (A := N) c = 0 /\ arr_empty c = false /\ contents_of 8 c = Ret [].
Proof. eexists _, _, _. repeat (split; [vm_compute; reflexivity|]). vm_compute. reflexivity. Qed.
Print Assumptions C67_empty_refuted.
