(** C154: exactly what every program that copies, compares and changes Vectors and Arrays
    does. *)
From Verif Require Import Base BaseLemmas MemViewModel MemoryModel MemoryProofs ContainerModel ContainerSpec ContainerProofs ContainerValueModel
  ContainerAllSpec ContainerAllProofs ContainerAllProps.
From Coq Require Import Permutation.
Local Arguments get : simpl never.

(** Comparing elements in order up to the first that differ; [None]: a hole is compared. *)
Fixpoint alike {A} (eqb : A -> A -> bool) (l l' : list (option A)) : option bool :=
  match l, l' with
  | Some x :: t, Some y :: t' => if eqb x y then alike eqb t t' else Some false
  | None :: _, _ :: _ | _ :: _, None :: _ => None
  | _, _ => Some true
  end.
(** Does the copy number [fail] of [n] throw? *)
Definition copy_throws (fail : option nat) (n : nat) : bool := match fail with Some k => Nat.ltb k n | None => false end.

(** The operations on what is shown ([shows]), and copies and comparisons; [None]: a hole, or
    memory behind the elements, is touched. *)
Definition tells {A} (eqb : A -> A -> bool) (sz : N) (aw : list (option (shown A))) (o : vcop (A := A)) : option (list (option (shown A)) * cans (A := A)) :=
  let equal i j :=
    match get aw i, get aw j with
    | Some h, Some h' =>
        if Bool.eqb (is_vec (h_kind h)) (is_vec (h_kind h')) then
          if Nat.eqb i j then Some (Said true) else
          if Nat.eqb (length (h_vals h)) (length (h_vals h')) then option_map Said (alike eqb (h_vals h) (h_vals h')) else Some (Said false)
        else Some NoSuch
    | _, _ => Some NoSuch
    end in
  let null h := match h_kind h with Vec => h_size h =? 0 | Arr => h_room h =? 0 end in
  match o with
  | Plain o => option_map (fun p => (fst p, Answered (snd p))) (shows sz aw o)
  | CopyC i ok fail =>
      match get aw i with
      | Some h =>
          let n := N.of_nat (length (h_vals h)) in
          if negb ok then Some (aw, Answered (AError E_NOMEM)) else
          if negb ((h_size h =? n) && whole (h_vals h)) then None else
          if copy_throws fail (length (h_vals h)) then Some (aw, Answered (ARaised UserException))
          else Some (aw ++ [Some (mkShown (h_kind h) (n * sz) n (h_vals h))], Answered AOk)
      | None => Some (aw, NoSuch)
      end
  | EqualC i j => option_map (pair aw) (equal i j)
  | DiffersC i j => option_map (fun x => (aw, match x with Said b => Said (negb b) | x => x end)) (equal i j)
  | EqualList i vs =>
      match get aw i with
      | Some (mkShown Arr room n l) =>
          if n =? N.of_nat (length vs) then option_map (fun b => (aw, Said b)) (alike eqb l (map Some vs)) else Some (aw, Said false)
      | _ => Some (aw, NoSuch)
      end
  | IsNull i => match get aw i with Some h => Some (aw, Said (null h)) | None => Some (aw, NoSuch) end
  | IsNotNull i => match get aw i with Some h => Some (aw, Said (negb (null h))) | None => Some (aw, NoSuch) end
  | LookC i =>
      match get aw i with
      | Some h => if whole (h_vals h) then Some (aw, Saw (h_size h) (flat_map (fun x => match x with Some v => [v] | None => [] end) (h_vals h))) else None
      | None => Some (aw, NoSuch)
      end
  end.
Fixpoint tells_all {A} (eqb : A -> A -> bool) (sz : N) (aw : list (option (shown A))) (os : list (vcop (A := A))) : option (list (option (shown A)) * list (cans (A := A))) :=
  match os with
  | [] => Some (aw, [])
  | o :: rest => match tells eqb sz aw o with
      | Some (aw1, a) => match tells_all eqb sz aw1 rest with Some (aw2, l) => Some (aw2, a :: l) | None => None end
      | None => None
      end
  end.
Definition vfits {A} (sz : N) (o : vcop (A := A)) : Prop := match o with Plain o => fits sz o | _ => True end.

Lemma alike_slots {A} (eqb : A -> A -> bool) (ss ss' : list (slot A)) :
  same_elems eqb ss ss' = match alike eqb (vals ss) (vals ss') with Some b => Ret b | None => UB end.
Proof.
  revert ss'; induction ss as [|[e|] ss IH]; intros [|[e'|] ss']; cbn [same_elems vals map option_map alike]; try reflexivity.
  destruct (eqb (snd e) (snd e')); cbn [negb]; [apply IH|reflexivity].
Qed.
Lemma alike_values {A} (eqb : A -> A -> bool) (ss : list (slot A)) vs :
  same_values eqb ss vs = match alike eqb (vals ss) (map Some vs) with Some b => Ret b | None => UB end.
Proof.
  revert vs; induction ss as [|[e|] ss IH]; intros [|v vs]; cbn [same_values vals map option_map alike]; try reflexivity.
  destruct (eqb (snd e) v); cbn [negb]; [apply IH|reflexivity].
Qed.
Lemma copies_whole {A} fail (l : list A) : whole (copies fail l) = negb (copy_throws fail (length l)).
Proof.
  destruct fail as [k|]; cbn [copies copy_throws]; [|apply whole_map]. revert k; induction l as [|x l IH]; intros [|k]; cbn [map upd whole forallb length andb]; try reflexivity. apply (IH k).
Qed.
Lemma copies_none {A} fail (l : list A) : copy_throws fail (length l) = false -> copies fail l = map Some l.
Proof.
  destruct fail as [k|]; cbn [copies copy_throws]; [|reflexivity]. intros H. apply Nat.ltb_ge in H.
  assert (forall (m : list (option A)) k, (length m <= k)%nat -> upd m k None = m) as U.
  { induction m as [|x m IH]; intros [|j]; cbn; try reflexivity; [lia|]. intros. f_equal. apply IH. lia. }
  apply U. now rewrite map_length.
Qed.
Lemma copied_added {A} (w : world A) k (m : outcome (option (cont A) * list life * nat)) :
  (let! p := (let! q := m in Ret (q, match fst (fst q) with Some _ => AOk | None => ARaised UserException end)) in
   let '(r, ev, nx, a) := p in
   match r with Some c' => Ret (add w k c' nx, ev, Answered (A := A) a) | None => Ret (mkWorld (w_objs w) nx, ev, Answered a) end) =
  let! q := added w k m in let '(w', ev, a) := q in Ret (w', ev, Answered a).
Proof. destruct m as [[[[c|] ev] nx]| | | |]; reflexivity. Qed.

Definition vstepped {A} (eqb : A -> A -> bool) sz (w : world A) aw log o : Prop :=
  match tells eqb sz aw o with
  | None => vc_step eqb sz w o = UB
  | Some (aw', a) => exists w' ev, vc_step eqb sz w o = Ret (w', ev, a) /\ linv w' (log ++ ev) /\ habs sz (w_objs w') aw'
  end.
Lemma compared_all {A} (eqb : A -> A -> bool) sz neg (w : world A) aw i j : habs sz (w_objs w) aw ->
  compared eqb sz neg w i j =
  match (match get aw i, get aw j with
    | Some h, Some h' =>
        if Bool.eqb (is_vec (h_kind h)) (is_vec (h_kind h')) then
          if Nat.eqb i j then Some (Said true) else
          if Nat.eqb (length (h_vals h)) (length (h_vals h')) then option_map Said (alike eqb (h_vals h) (h_vals h')) else Some (Said false)
        else Some (NoSuch (A := A))
    | _, _ => Some NoSuch
    end) with
  | Some x => Ret (w, [], if neg then match x with Said b => Said (negb b) | x => x end else x)
  | None => UB
  end.
Proof.
  intros R. pose proof (proj2 R i) as Ci. pose proof (proj2 R j) as Cj. unfold compared.
  destruct (get (w_objs w) i) as [[k c]|]; destruct (get aw i) as [h|]; try contradiction; [|now destruct neg].
  destruct (get (w_objs w) j) as [[k' c']|]; destruct (get aw j) as [h'|]; try contradiction; [|now destruct neg].
  destruct Ci as (-> & _ & _ & _ & ss & H & V). destruct Cj as (-> & _ & _ & _ & ss' & H' & V').
  destruct (Bool.eqb _ _); [|now destruct neg]. unfold cont_equals. destruct (Nat.eqb i j); cbn [bind]; [now destruct neg|].
  rewrite (helems _ _ _ _ H), (helems _ _ _ _ H'). destruct H as (r & _ & _ & _ & -> & _). destruct H' as (r' & _ & _ & _ & -> & _). rewrite V, V'. unfold vals at 1 2. rewrite !map_length.
  destruct (Nat.eqb_spec (length ss) (length ss')) as [E|E].
  - rewrite E, N.eqb_refl. cbn [negb]. rewrite alike_slots. destruct (alike eqb (vals ss) (vals ss')); cbn [bind option_map]; [now destruct neg|reflexivity].
  - destruct (N.eqb_spec (N.of_nat (length ss)) (N.of_nat (length ss'))); [lia|]. cbn [negb bind]. now destruct neg.
Qed.

Lemma vstep_all {A} (eqb : A -> A -> bool) sz (w : world A) aw log o : 0 < sz -> habs sz (w_objs w) aw -> linv w log -> vfits sz o -> vstepped eqb sz w aw log o.
Proof.
  intros S R W F. unfold vstepped.
  assert (KEEP : forall x : cans (A := A), exists w' ev, Ret (w, [], x) = Ret (w', ev, x) /\ linv w' (log ++ ev) /\ habs sz (w_objs w') aw).
  { intros x. exists w, []. split; [reflexivity|]. split; [now apply linv_nil|exact R]. }
  destruct o as [o|i ok fail|i j|i j|i vs|i|i|i]; cbn [tells vc_step vfits] in *.
  - pose proof (cstep_all sz w aw log o S R W F) as P. unfold stepped in P. destruct (shows sz aw o) as [[aw' a]|]; cbn [option_map fst snd].
    + destruct P as (w' & ev & -> & P). cbn [bind]. exists w', ev. split; [reflexivity|exact P].
    + rewrite P. reflexivity.
  - pose proof (proj2 R i) as Ci. destruct (get (w_objs w) i) as [[k c]|] eqn:G; destruct (get aw i) as [h|] eqn:G'; try contradiction; [|apply KEEP].
    destruct ok; cbn [negb].
    2:{ destruct k; unfold vec_copy, arr_copy; cbn [negb bind]; (eexists _, _; split; [reflexivity|]); (split; [destruct w; now apply linv_nil|exact R]). }
    destruct Ci as (-> & Er & En & Iv & ss & H & V). pose proof H as (r & B & L & Lt & Vw & _ & _ & K).
    assert (LV : length (h_vals h) = length ss) by (rewrite V; apply map_length).
    assert (MADE : forall es, ss = map Some es -> h_size h = N.of_nat (length ss) ->
      match (if copy_throws fail (length (h_vals h)) then Some (aw, Answered (ARaised UserException))
             else Some (aw ++ [Some (mkShown (h_kind h) (N.of_nat (length (h_vals h)) * sz) (N.of_nat (length (h_vals h))) (h_vals h))], Answered (A := A) AOk)) with
      | Some (aw', a) => exists w' ev, (let! q := added w (h_kind h) (make_cont sz (w_next w) (N.of_nat (length ss)) (copies fail (map snd es))) in
           let '(w', ev, a) := q in Ret (w', ev, Answered a)) = Ret (w', ev, a) /\ linv w' (log ++ ev) /\ habs sz (w_objs w') aw'
      | None => False
      end).
    { intros es -> Eh. rewrite map_length in *.
      assert (FB : N.of_nat (length es) * sz < 2 ^ 64).
      { assert (N.of_nat (length es) <= b_bytes (c_buf c) / sz) as Q by (rewrite <- L, B, app_length, map_length; lia). pose proof (div_mul_le sz _ _ S Q). lia. }
      destruct (made sz w aw log (h_kind h) (N.of_nat (length es)) (copies fail (map snd es)) S R W) as (w' & ev & E & I & Hw).
      { unfold u64. rewrite N.mod_small by exact FB. rewrite N.div_mul by lia. f_equal. destruct fail; cbn [copies]; rewrite ?length_upd, !map_length; reflexivity. }
      { intros _. f_equal. destruct fail; cbn [copies]; rewrite ?length_upd, !map_length; reflexivity. }
      unfold u64 in Hw. rewrite N.mod_small in Hw by exact FB. rewrite E, copies_whole, map_length in *. cbn [bind]. rewrite LV.
      destruct (copy_throws fail (length es)) eqn:T; cbn [negb] in *; exists w', ev; (split; [reflexivity|]); (split; [exact I|]); [exact Hw|].
      rewrite copies_none in Hw by (rewrite map_length; exact T). rewrite V, vals_some. exact Hw. }
    rewrite LV in MADE |- *. destruct (h_kind h) eqn:Kd.
    + assert (Eh : h_size h = N.of_nat (length ss)) by (rewrite <- En; now apply K). rewrite Eh, N.eqb_refl. cbn [andb]. unfold vec_copy, contents_of. rewrite (helems _ _ _ _ H), Vw. cbn [negb].
      destruct (whole (h_vals h)) eqn:Wh; cbn [negb].
      * rewrite V in Wh. destruct (whole_some ss Wh) as (es & E). assert (values ss = Ret (map snd es)) as -> by (rewrite E; apply values_some). cbn [bind]. rewrite copied_added. specialize (MADE es E Eh). 
        destruct (copy_throws fail (length ss)); exact MADE.
      * rewrite values_hole by (rewrite <- V; exact Wh). reflexivity.
    + unfold arr_copy, arr_size. rewrite L, Er, En. cbn [negb]. rewrite LV in Iv. destruct (N.eqb_spec (h_size h) (N.of_nat (length ss))) as [Eh|Eh]; cbn [andb].
      * assert (N.of_nat (length ss) <= h_room h / sz) as Q by (rewrite <- Er, <- L, B, app_length; lia). rewrite (proj2 (N.ltb_ge _ _)) by lia.
        rewrite Eh, Nat2N.id, B, firstn_app, Nat.sub_diag, firstn_all. cbn [firstn]. rewrite app_nil_r. destruct (whole (h_vals h)) eqn:Wh; cbn [negb].
        -- rewrite V in Wh. destruct (whole_some ss Wh) as (es & E). assert (values ss = Ret (map snd es)) as -> by (rewrite E; apply values_some). cbn [bind]. rewrite copied_added. specialize (MADE es E Eh).
           destruct (copy_throws fail (length ss)); exact MADE.
        -- rewrite values_hole by (rewrite <- V; exact Wh). reflexivity.
      * destruct Iv as [Iv|Iv]; [contradiction|]. rewrite (proj2 (N.ltb_lt _ _)) by exact Iv. reflexivity.
  - rewrite (compared_all eqb sz false w aw i j R). match goal with |- context [option_map _ ?X] => destruct X as [x|]; cbn [option_map]; [apply KEEP|reflexivity] end.
  - rewrite (compared_all eqb sz true w aw i j R). match goal with |- context [option_map _ ?X] => destruct X as [x|]; cbn [option_map]; [apply KEEP|reflexivity] end.
  - pose proof (proj2 R i) as Ci. destruct (get (w_objs w) i) as [[k c]|] eqn:G; destruct (get aw i) as [[kd room n l]|] eqn:G'; try contradiction; [|apply KEEP].
    destruct Ci as (K & Er & En & Iv & ss & H & V). cbn in K, En, V. subst k. destruct kd; [apply KEEP|]. unfold arr_equals_list, arr_size. rewrite En, (helems _ _ _ _ H).
    destruct (n =? N.of_nat (length vs)); cbn [negb]; [|apply KEEP]. rewrite alike_values, V. destruct (alike eqb (vals ss) (map Some vs)); cbn [option_map bind]; [apply KEEP|reflexivity].
  - pose proof (proj2 R i) as Ci. destruct (get (w_objs w) i) as [[k c]|] eqn:G; destruct (get aw i) as [h|] eqn:G'; try contradiction; [|apply KEEP].
    destruct Ci as (-> & Er & En & _). unfold is_null, vec_empty, arr_empty. rewrite Er, En. apply KEEP.
  - pose proof (proj2 R i) as Ci. destruct (get (w_objs w) i) as [[k c]|] eqn:G; destruct (get aw i) as [h|] eqn:G'; try contradiction; [|apply KEEP].
    destruct Ci as (-> & Er & En & _). unfold is_null, vec_empty, arr_empty. rewrite Er, En. apply KEEP.
  - pose proof (proj2 R i) as Ci. destruct (get (w_objs w) i) as [[k c]|] eqn:G; destruct (get aw i) as [h|] eqn:G'; try contradiction; [|apply KEEP].
    destruct Ci as (-> & Er & En & _ & ss & H & V). unfold contents_of. rewrite (helems _ _ _ _ H), En. rewrite V. destruct (whole (vals ss)) eqn:Wh.
    + destruct (whole_some ss Wh) as (es & ->). rewrite values_some, vals_some. cbn [bind].
      assert (flat_map (fun x : option A => match x with Some v => [v] | None => [] end) (map Some (map snd es)) = map snd es) as ->; [|apply KEEP].
      induction (map snd es) as [|x l IH]; cbn; [reflexivity|now f_equal].
    + rewrite values_hole by exact Wh. reflexivity.
Qed.

Lemma vrun_all {A} (eqb : A -> A -> bool) sz (os : list (vcop (A := A))) : 0 < sz -> forall w aw log, habs sz (w_objs w) aw -> linv w log -> Forall (vfits sz) os ->
  match tells_all eqb sz aw os with
  | None => vc_run eqb sz w os = UB
  | Some (aw', l) => exists w' ev, vc_run eqb sz w os = Ret (w', ev, l) /\ linv w' (log ++ ev) /\ habs sz (w_objs w') aw'
  end.
Proof.
  intros S. induction os as [|o os IH]; intros w aw log R W F; cbn [tells_all vc_run].
  - exists w, []. split; [reflexivity|]. split; [now apply linv_nil|exact R].
  - inversion F as [|? ? F1 F2]; subst. pose proof (vstep_all eqb sz w aw log o S R W F1) as P. unfold vstepped in P. destruct (tells eqb sz aw o) as [[aw1 a]|].
    + destruct P as (w1 & ev & E & W1 & R1). rewrite E. cbn [bind]. specialize (IH w1 aw1 _ R1 W1 F2). destruct (tells_all eqb sz aw1 os) as [[aw2 l]|].
      * destruct IH as (w2 & ev2 & -> & W2 & R2). cbn [bind fst snd]. exists w2, (ev ++ ev2). rewrite app_assoc. auto.
      * rewrite IH. reflexivity.
    + rewrite P. reflexivity.
Qed.

(** Every program: undefined exactly when it touches a hole or memory behind the elements;
    otherwise the answers of all operations and the containers are as told, and elements are
    destroyed at most once, after their construction. *)
Theorem C154_programs : forall A (eqb : A -> A -> bool) sz (os : list (vcop (A := A))), 0 < sz -> Forall (vfits sz) os ->
  match tells_all eqb sz [] os with
  | None => vc_run eqb sz world0 os = UB
  | Some (aw, l) => exists w log, vc_run eqb sz world0 os = Ret (w, log, l) /\
      (forall i, seen_as sz (get (w_objs w) i) (get aw i)) /\
      NoDup (built log) /\ NoDup (destroyed log) /\ (forall a x b, log = a ++ Dtor x :: b -> In x (built a)) /\
      (forall x, In x (alive w) <-> In x (built log) /\ ~ In x (destroyed log))
  end.
Proof.
  intros A eqb sz os S F. pose proof (vrun_all eqb sz os S world0 [] [] (habs0 sz) linv0 F) as P. destruct (tells_all eqb sz [] os) as [[aw l]|]; [|exact P].
  destruct P as (w & log & E & [W2 W3 W4 W5] & _ & R). cbn [app] in *. exists w, log. split; [exact E|]. split; [intros i; apply rel_seen; auto|].
  assert (ND : NoDup (destroyed log ++ alive w)) by (eapply Permutation_NoDup; [symmetry; exact W2|exact W3]).
  assert (D : NoDup (destroyed log) /\ forall x, In x (destroyed log) -> ~ In x (alive w)).
  { clear - ND. induction (destroyed log) as [|y l IH]; cbn in *; [split; [constructor|intros x []]|]. inversion ND as [|? ? N1 N2]; subst. destruct (IH N2) as (I1 & I2). rewrite in_app_iff in N1.
    split; [constructor; tauto|]. intros x [<-|X]; [tauto|auto]. }
  destruct D as (D1 & D2). split; [exact W3|]. split; [exact D1|]. split; [exact W5|].
  intros x. split.
  - intros X. split; [eapply Permutation_in; [exact W2|]; apply in_or_app; now right|]. intros Y. exact (D2 x Y X).
  - intros (X & Y). eapply Permutation_in in X; [|symmetry; exact W2]. apply in_app_or in X as [X|X]; [contradiction|exact X].
Qed.
Print Assumptions C154_programs.

(** What comparing tells, for lists of the same length: true exactly when all elements are
    there and equal pairwise; undefined exactly when a hole is met before any difference. *)
Theorem C154_alike : forall A (eqb : A -> A -> bool) (l l' : list (option A)), length l = length l' ->
  (alike eqb l l' = Some true <-> exists v v', l = map Some v /\ l' = map Some v' /\ Forall2 (fun x y => eqb x y = true) v v') /\
  (alike eqb l l' = None <-> exists k, (nth_error l k = Some None \/ nth_error l' k = Some None) /\
     forall m, (m < k)%nat -> exists x y, nth_error l m = Some (Some x) /\ nth_error l' m = Some (Some y) /\ eqb x y = true).
Proof.
  intros A eqb l. induction l as [|[x|] l IH]; intros [|[y|] l'] E; cbn [length] in E; try discriminate; cbn [alike].
  - split; split; intros H; try discriminate.
    + exists [], []. repeat split. constructor.
    + reflexivity.
    + destruct H as (k & H & _). destruct k, H; discriminate.
  - injection E as E. destruct (IH l' E) as (I1 & I2). destruct (eqb x y) eqn:Q.
    + split.
      * rewrite I1. split; intros (v & v' & H).
        -- destruct H as (-> & -> & H). exists (x :: v), (y :: v'). repeat split. now constructor.
        -- destruct H as (H1 & H2 & H). destruct v as [|a v]; [discriminate|]. destruct v' as [|b v']; [discriminate|]. injection H1 as -> ->. injection H2 as -> ->. inversion H; subst. exists v, v'. auto.
      * rewrite I2. split; intros (k & H & M).
        -- exists (S k). split; [exact H|]. intros [|m] Lm; [exists x, y; auto|]. apply M. lia.
        -- destruct k as [|k]; [destruct H; discriminate|]. exists k. split; [exact H|]. intros m Lm. apply (M (S m)). lia.
    + split; split; intros H; try discriminate.
      * destruct H as (v & v' & H1 & H2 & H). destruct v as [|a v]; [discriminate|]. destruct v' as [|b v']; [discriminate|]. injection H1 as -> ->. injection H2 as -> ->. inversion H; subst. congruence.
      * destruct H as (k & H & M). destruct k as [|k]; [destruct H; discriminate|]. destruct (M O) as (a & b & [= <-] & [= <-] & C); [lia|]. congruence.
  - split; split; intros H; try discriminate; try reflexivity.
    + destruct H as (v & v' & _ & H2 & _). destruct v'; discriminate.
    + exists O. split; [right; reflexivity|]. intros m Lm. lia.
  - split; split; intros H; try discriminate; try reflexivity.
    + destruct H as (v & v' & H1 & _). destruct v; discriminate.
    + exists O. split; [left; reflexivity|]. intros m Lm. lia.
  - split; split; intros H; try discriminate; try reflexivity.
    + destruct H as (v & v' & H1 & _). destruct v; discriminate.
    + exists O. split; [left; reflexivity|]. intros m Lm. lia.
Qed.
Print Assumptions C154_alike.

(** An array whose size() is not the number of its elements comes only from makeArray with a
    count whose bytes wrap, and then copying it is undefined. *)
Theorem C154_wrapped : forall A (eqb : A -> A -> bool) sz n (f : nat -> A), 0 < sz -> n < 2 ^ 64 ->
  let os := [Plain (MakeArr n (fun k => Some (f k))); CopyC 0 true None] in
  (n * sz < 2 ^ 64 -> exists w log, vc_run eqb sz world0 os = Ret (w, log, [Answered AOk; Answered AOk])) /\
  (2 ^ 64 <= n * sz -> vc_run eqb sz world0 os = UB).
Proof.
  intros A eqb sz n f S Ln os. assert (Forall (vfits sz) os) as F by (repeat constructor). pose proof (C154_programs A eqb sz os S F) as P.
  unfold os in P at 1. cbn [tells_all tells shows] in P. set (l := map _ _) in P.
  assert (W : whole l = true) by (unfold l; rewrite <- (map_map f Some); apply whole_map). rewrite W in P. cbn [option_map fst snd] in P. unfold get in P. cbn [app nth h_size h_vals] in P. rewrite W in P.
  assert (Ll : N.of_nat (length l) = (n * sz) mod 2 ^ 64 / sz) by (unfold l; rewrite map_length, seq_length; lia). rewrite Ll in P. cbn [negb copy_throws] in P. split; intros H.
  - rewrite N.mod_small, N.div_mul, N.eqb_refl in P by lia. cbn [andb negb] in P. destruct P as (w & log & E & _). exists w, log. exact E.
  - assert ((n * sz) mod 2 ^ 64 / sz < n) as Q. { apply N.div_lt_upper_bound; [lia|]. assert ((n * sz) mod 2 ^ 64 < 2 ^ 64) by (apply N.mod_lt; lia). lia. }
    destruct (N.eqb_spec n ((n * sz) mod 2 ^ 64 / sz)) as [E|E]; [lia|]. exact P.
Qed.
Print Assumptions C154_wrapped.

Example C154_ok : Forall (vfits 8) [Plain (@MakeVecOf N [Some 1; Some 2]); CopyC 0 true None; Plain (ViewEmplace 1 1 None); EqualC 0 0; LookC 0] /\
  tells_all N.eqb 8 [] [Plain (@MakeVecOf N [Some 1; Some 2]); CopyC 0 true None; EqualC 0 1; Plain (ViewEmplace 1 1 None); EqualC 1 1; Plain (SetElem 0 0 (Some 7)); EqualC 0 1; LookC 0] =
    Some ([Some (mkShown Vec 16 2 [Some 7; Some 2]); Some (mkShown Vec 16 2 [Some 1; None])],
      [Answered AOk; Answered AOk; Said true; Answered (ARaised UserException); Said true; Answered AOk; Said false; Saw 2 [7; 2]]) /\
  tells_all N.eqb 8 [] [Plain (@MakeVecOf N [Some 1; Some 2]); CopyC 0 true None; Plain (ViewEmplace 1 1 None); EqualC 0 1] = None /\
  tells_all N.eqb 8 [] [Plain (@MakeVecOf N [Some 1]); Plain (ViewEmplace 0 0 None); CopyC 0 false None; CopyC 0 true None] = None.
Proof. split; [repeat constructor|]. repeat split. Qed.
