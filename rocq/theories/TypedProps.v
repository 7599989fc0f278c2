(** C121 to C124: many views of elements of any type, looking at the same memory. *)
From Verif Require Import Base BaseLemmas MemViewModel MemViewSpec MemViewProofs TypedModel TypedSpec TypedProofs.

(** C121: whatever a program does with its views of elements, no access leaves the memory and
    no element is read or written at an address that is not aligned for its type (that would
    be undefined), and every operation answers; if emplaceAll is not given more values than the
    view has elements ([t_bounded], part of [t_fair]). *)
Theorem C121_no_stray_access_partial : forall mem os, N.of_nat (length mem) < 2 ^ 64 ->
  t_along t_fair os (t_start mem) ->
  exists xs w, t_run os (t_start mem) = Ret (xs, w) /\ length (tw_mem w) = length mem.
Proof.
  intros mem os B A. destruct (t_run_ok os _ (tinv_start mem B) A) as (xs & w & E & _ & L). exists xs, w. now split.
Qed.
Print Assumptions C121_no_stray_access_partial.

(** ... no view ever covers a byte outside the ranges the program was given, no view of
    elements that may be changed covers a byte outside those given for writing. *)
Theorem C121_views_stay_inside : forall mem os xs w i k a n x, N.of_nat (length mem) < 2 ^ 64 ->
  t_along t_fair os (t_start mem) -> t_run os (t_start mem) = Ret (xs, w) ->
  t_window w i = Some (Some a, n) -> t_kind w i = Some k -> a <= x < a + n ->
  t_given false os x /\ (t_const k = false -> t_given true os x).
Proof.
  intros mem os xs w i k a n x B A E Wi Ki Hx. unfold t_window, t_kind in *. destruct (tw_vars w i) as [[k' v]|] eqn:Ei; [|discriminate Wi].
  injection Wi as Ea En. injection Ki as ->.
  assert (G : forall wr, (wr = true -> t_const k = false) -> t_given wr os x).
  { intros wr C. destruct (t_run_given os (t_start mem) xs w (fun _ _ => False) (tinv_start mem B) A E) with (i := i) (k := k) (v := v) (x := x) (wr := wr) as [[]|H]; auto.
    - intros ? ? ? ? ? H. discriminate H.
    - exists a. split; [exact Ea|]. now rewrite En. }
  split; [apply G; discriminate|]. intros C. now apply G.
Qed.
Print Assumptions C121_views_stay_inside.

(** A program used in the examples: two-byte elements in bytes 2 to 9 wrapped for writing, a
    slice of them, a read-only copy of the slice, four-byte elements over the same bytes. *)
Definition two : tkind := mkT 2 2 false.
Definition four : tkind := mkT 4 4 false.
Definition demo : list top :=
  [TWrap 0 two (Some 2) 4; TSlice 1 0 false 1 3; TConst 2 1; TBytes 3 four (Some 4) 7; TAt 2 1; TSet 0 1 (Some [9; 9]);
   TAt 2 0; TAt 2 2; TForEach 3 (fun bs => rev bs); TAt 0 1; TIndexOf 0 [7; 8]; TEmplaceAll 1 [Some [1; 1]; None]; TFill 3 [5; 6; 5; 6];
   TSize 3; TEquals 2 1; TSwap 0 1; TSize 0; TSet 1 9 None; TFillWith 0 (fun n => [n; n]); TContains 1 [1; 1]; TSlice 4 1 true 2 9; TView 4; TEmpty 4].
Definition memory : list N := [0; 1; 2; 3; 4; 5; 6; 7; 8; 9; 10; 11].
Definition answers (r : outcome (list tans * tworld)) : option (list tans) := match r with Ret (xs, _) => Some xs | _ => None end.
Definition memory_of (r : outcome (list tans * tworld)) : option (list N) := match r with Ret (_, w) => Some (tw_mem w) | _ => None end.

Ltac walk := repeat (match goal with |- t_along _ _ _ => apply t_along_cons end; [|intros ? ? Ew; vm_compute in Ew; injection Ew as <- <-]);
  try match goal with |- t_along _ _ _ => apply t_along_nil end.
Lemma good_two c : t_good (mkT 2 2 c).
Proof. split; [split; reflexivity|]. split; [reflexivity|]. now exists 1. Qed.
Lemma good_four c : t_good (mkT 4 4 c).
Proof. split; [split; reflexivity|]. split; [reflexivity|]. now exists 2. Qed.
Ltac old := let H := fresh in intros H; unfold t_new in H; cbn in H; discriminate H.
Ltac mut := eexists; split; [reflexivity|reflexivity].
Example C121_demo_fair : t_along t_fair demo (t_start memory).
Proof.
  unfold demo. walk; (split; [|split]); cbn [t_typed t_honest t_bounded]; try exact Logic.I; try (split; [reflexivity|]); try old;
    try apply good_two; try apply good_four; try (split; [mut|]); try reflexivity; try (split; [old|reflexivity]); try (vm_compute; easy).
  - intros bs. unfold t_value. rewrite rev_length. trivial.
  - repeat constructor.
  - do 2 eexists. split; [reflexivity|]. split; [reflexivity|]. now right.
Qed.
Example C121_demo_runs :
  answers (t_run demo (t_start memory)) =
    Some [TDone; TDone; TDone; TDone; TElem [6; 7]; TDone; TElem [9; 9]; TRaised IndexOutOfRange; TDone; TElem [7; 6]; TIndex None;
          TRaised UserException; TDone; TNum 1; TFlag true; TDone; TNum 2; TRaised IndexOutOfRange; TDone; TFlag true; TDone; TWhere (Some 6) 4; TFlag false] /\
  memory_of (t_run demo (t_start memory)) = Some [0; 1; 2; 3; 0; 0; 1; 1; 8; 9; 10; 11].
Proof. split; vm_compute; reflexivity. Qed.
Example C121_views_stay_inside_ok : t_given true demo 4 /\ ~ t_given false demo 1.
Proof.
  split.
  - exists 0%nat, two, 2. split; [reflexivity|]. left. exists 4. split; [now left|cbn; lia].
  - intros (i & k & a & _ & [(n & H & L)|[(n & H & L)|(n & H & L)]]); cbn in H;
      repeat (destruct H as [H|H]; [try discriminate H; injection H as <- <- <- <-; cbn in L; lia|]); easy.
Qed.

(** With more values than elements emplaceAll writes behind the view: into memory the program
    was never given, and finally outside of the memory. *)
Theorem C121_emplace_all_refuted : forall bs, length bs = 2%nat -> exists w o o' m,
  t_along t_fair [TWrap 0 two (Some 2) 1] (t_start memory) /\ t_run [TWrap 0 two (Some 2) 1] (t_start memory) = Ret ([TDone], w) /\
  (t_typed w o /\ t_honest w o /\ o = TEmplaceAll 0 [Some bs; Some bs] /\ t_step o w = Ret (TDone, mkTW m (tw_vars w)) /\
   m = [0; 1] ++ bs ++ bs ++ [6; 7; 8; 9; 10; 11] /\ ~ t_given false [TWrap 0 two (Some 2) 1; o] 4) /\
  t_typed w o' /\ t_honest w o' /\ o' = TEmplaceAll 0 (repeat (Some bs) 6) /\ t_step o' w = UB.
Proof.
  intros [|x [|y [|]]] L; try discriminate L. eexists. exists (TEmplaceAll 0 [Some [x; y]; Some [x; y]]), (TEmplaceAll 0 (repeat (Some [x; y]) 6)). eexists.
  split; [walk; split; [|split]; cbn; try exact Logic.I; [split; [reflexivity|apply good_two]|split; [reflexivity|easy]]|].
  split; [vm_compute; reflexivity|]. split.
  - split; [split; [mut|repeat constructor]|]. split; [exact Logic.I|]. split; [reflexivity|]. split; [vm_compute; reflexivity|]. split; [reflexivity|].
    intros (i & k & a & _ & [(n & H & Ln)|[(n & H & Ln)|(n & H & Ln)]]); cbn in H;
      repeat (destruct H as [H|H]; [try discriminate H; injection H as <- <- <- <-; cbn in Ln; lia|]); easy.
  - split; [split; [mut|repeat constructor]|]. split; [exact Logic.I|]. split; [reflexivity|]. vm_compute. reflexivity.
Qed.
Print Assumptions C121_emplace_all_refuted.

(** C122: every operation puts exactly the bytes it should where it should, answers what it
    should, an exception leaves every view as it was, the other views are not disturbed, and a
    new view shows exactly the elements asked for, if the byte offsets of a slice fit 64 bits
    ([t_small]) and emplaceAll has room. *)
Theorem C122_effect_partial : forall w o, t_reachable w -> t_fair w o ->
  exists a w', t_step o w = Ret (a, w') /\
    tw_mem w' = put_at (tw_mem w) (fst (t_puts w o)) (snd (t_puts w o)) /\
    t_says w o a /\
    (forall e, a = TRaised e -> forall k, tw_vars w' k = tw_vars w k) /\
    (forall k, ~ t_touches o k -> tw_vars w' k = tw_vars w k) /\
    (t_small w o -> match t_makes w o with
                    | Some (i, k, xs) => a = TDone /\ t_kind w' i = Some k /\ elems w' i = xs
                    | None => True
                    end).
Proof.
  intros w o R F. destruct (step_spec w o (t_reachable_inv w R) F) as (a & w' & E & _ & M & _ & H). exists a, w'. split; [exact E|]. now split.
Qed.
Print Assumptions C122_effect_partial.

(** Seen through the view written: its elements afterwards. *)
Theorem C122_elements_partial : forall w o a w' i xs, t_reachable w -> t_fair w o -> t_step o w = Ret (a, w') ->
  t_after w o = Some (i, xs) -> elems w' i = xs.
Proof.
  intros w o a w' i xs R F E A. pose proof (elems_after w o a w' (t_reachable_inv w R) F E) as H. now rewrite A in H.
Qed.
Print Assumptions C122_elements_partial.
(** Seen through a view that shares no byte with it: nothing happened. *)
Theorem C122_others_keep_partial : forall w o a w' j, t_reachable w -> t_fair w o -> t_step o w = Ret (a, w') ->
  ~ t_touches o j -> (forall i, t_writes o i -> t_apart w i j) -> t_shown w' j = t_shown w j /\ elems w' j = elems w j.
Proof. intros w o a w' j R F E T A. exact (others_keep w o a w' j (t_reachable_inv w R) F E T A). Qed.
Print Assumptions C122_others_keep_partial.
Definition last_of (r : outcome (list tans * tworld)) : tworld := match r with Ret (_, w) => w | _ => t_start [] end.
Definition demo_end : tworld := last_of (t_run demo (t_start memory)).
Lemma demo_reached : t_reachable demo_end.
Proof.
  unfold demo_end. destruct (t_run demo (t_start memory)) as [[xs w]| | | |] eqn:E; try (vm_compute in E; discriminate E).
  exists memory, demo, xs. split; [reflexivity|]. split; [exact C121_demo_fair|exact E].
Qed.
Example C122_ok : t_reachable demo_end /\ t_fair demo_end (TSlice 9 1 false 1 7) /\ t_small demo_end (TSlice 9 1 false 1 7) /\
  elems demo_end 1 = [[2; 3]; [0; 0]; [1; 1]; [8; 9]] /\ t_makes demo_end (TSlice 9 1 false 1 7) = Some (9%nat, two, [[0; 0]; [1; 1]; [8; 9]]) /\
  t_fair demo_end (TSet 1 3 (Some [5; 5])) /\ t_after demo_end (TSet 1 3 (Some [5; 5])) = Some (1%nat, [[2; 3]; [0; 0]; [1; 1]; [5; 5]]) /\
  t_apart demo_end 0 5 /\ ~ t_apart demo_end 0 1.
Proof.
  split; [exact demo_reached|]. split; [split; [split; [vm_compute; reflexivity|vm_compute; discriminate]|now split]|].
  split; [vm_compute; now split|]. split; [vm_compute; reflexivity|]. split; [vm_compute; reflexivity|].
  split; [split; [split; [eexists; split; [vm_compute; reflexivity|reflexivity]|vm_compute; reflexivity]|now split]|]. split; [vm_compute; reflexivity|]. split.
  - intros a n b m x _ H. vm_compute in H. discriminate H.
  - intros H. apply (H 4 4 2 8 5); [vm_compute; reflexivity|vm_compute; reflexivity|lia].
Qed.

(** The byte offset of a slice wraps: a slice that starts behind the last element shows the
    first ones. *)
Theorem C122_slice_refuted : exists w, t_reachable w /\ elems w 0 = [[2; 3]; [4; 5]; [6; 7]; [8; 9]] /\ t_fair w (TSlice 1 0 false (2 ^ 63) (2 ^ 63 + 2)) /\
  exists w', t_step (TSlice 1 0 false (2 ^ 63) (2 ^ 63 + 2)) w = Ret (TDone, w') /\ elems w' 1 = [[2; 3]; [4; 5]].
Proof.
  exists (last_of (t_run [TWrap 0 two (Some 2) 4] (t_start memory))). split.
  - exists memory, [TWrap 0 two (Some 2) 4]. eexists. split; [reflexivity|]. split; [|reflexivity].
    walk; split; [|split]; cbn; try exact Logic.I; [split; [reflexivity|apply good_two]|split; [reflexivity|easy]].
  - split; [vm_compute; reflexivity|]. split; [split; [split; [vm_compute; reflexivity|vm_compute; discriminate]|now split]|].
    eexists. split; [vm_compute; reflexivity|]. vm_compute. reflexivity.
Qed.
Print Assumptions C122_slice_refuted.

(** C123: memory a program was only given as constant elements, or not at all, does not change,
    whatever is copied, converted, sliced, moved, assigned and swapped (unlike C110 no way
    around const exists); if emplaceAll has room. *)
Theorem C123_const_memory_partial : forall mem os xs w x, N.of_nat (length mem) < 2 ^ 64 ->
  t_along t_fair os (t_start mem) -> t_run os (t_start mem) = Ret (xs, w) ->
  ~ t_given true os x -> nth_error (tw_mem w) (N.to_nat x) = nth_error mem (N.to_nat x).
Proof.
  intros mem os xs w x B A E H.
  apply (t_run_readonly os (t_start mem) xs w (fun _ => False) (tinv_start mem B) A E); auto. intros ? ? ? ? X. discriminate X.
Qed.
Print Assumptions C123_const_memory_partial.
Example C123_ok : ~ t_given true demo 11 /\ ~ t_given true demo 1 /\ t_given true demo 10.
Proof.
  split; [|split].
  1,2: intros (i & k & a & _ & [(n & H & L)|[(n & H & L)|(n & H & L)]]); cbn in H;
      repeat (destruct H as [H|H]; [try discriminate H; injection H as <- <- <- <-; cbn in L; lia|]); easy.
  exists 3%nat, four, 4. split; [reflexivity|]. right. right. exists 7. split; [cbn; tauto|lia].
Qed.
(** Without room it does change. *)
Theorem C123_const_memory_refuted : exists os xs w,
  t_along (fun w o => t_typed w o /\ t_honest w o) os (t_start memory) /\ t_run os (t_start memory) = Ret (xs, w) /\
  ~ t_given true os 4 /\ nth_error memory 4 = Some 4 /\ nth_error (tw_mem w) 4 = Some 9.
Proof.
  exists [TWrap 0 two (Some 2) 1; TWrap 1 (mkT 2 2 true) (Some 4) 1; TEmplaceAll 0 [Some [9; 9]; Some [9; 9]]]. do 2 eexists. split.
  { walk; split; cbn; try exact Logic.I; try (split; [reflexivity|apply good_two]); try (split; [reflexivity|easy]).
    split; [mut|repeat constructor]. }
  split; [vm_compute; reflexivity|]. split; [|now split].
  intros (i & k & a & C & [(n & H & L)|[(n & H & L)|(n & H & L)]]); cbn in H;
      repeat (destruct H as [H|H]; [try discriminate H; injection H as <- <- <- <-; specialize (C eq_refl); cbn in L, C; try discriminate C; lia|]); easy.
Qed.
Print Assumptions C123_const_memory_refuted.

(** C124: copying, converting to const and assigning give the window of the source and leave
    the source, moving leaves the source empty, move assignment and swapping exchange the two
    windows (a source of another type, converted, stays), also for a variable and itself. *)
Theorem C124_windows : forall w o a w', t_reachable w -> t_fair w o -> t_step o w = Ret (a, w') ->
  (forall i, ~ t_new w i -> t_kind w' i = t_kind w i) /\
  match o with
  | TCopy i j | TConst i j => t_window w' i = t_window w j /\ t_window w' j = t_window w j
  | TAssign i j => t_window w' i = t_window w j /\ t_window w' j = t_window w j
  | TMove i j => t_window w' i = t_window w j /\ t_window w' j = Some (None, 0)
  | TMoveAssign i j => t_window w' i = t_window w j /\
      (t_kind w i = t_kind w j -> t_window w' j = t_window w i) /\ (t_kind w i <> t_kind w j -> t_window w' j = t_window w j)
  | TSwap i j => t_window w' i = t_window w j /\ t_window w' j = t_window w i
  | _ => True
  end.
Proof.
  intros w o a w' R F E. pose proof (t_reachable_inv w R) as I. destruct (step_spec w o I F) as (a1 & w1 & E1 & _ & _ & _ & _ & _ & T & _). rewrite E in E1. injection E1 as <- <-.
  assert (K : forall i, ~ t_touches o i -> t_kind w' i = t_kind w i) by (intros i NT; unfold t_kind; now rewrite T).
  destruct F as (Y & _ & _). split.
  - intros n O. destruct (old_tvar w n O) as (kn & vn & En).
    destruct o; try solve [apply K; intros []]; cbn [t_typed t_touches] in Y, K.
    1-6: apply K; intros ->; destruct Y as [Nw _]; red in Nw; congruence.
    + destruct Y as [Nw Oj]. red in Nw. destruct (old_tvar w j Oj) as (k & v & Ej). cbn in E. rewrite Ej, Nw in E. injection E as _ <-. unfold t_kind. cbn. unfold tset.
      destruct (Nat.eqb_spec n i) as [->|]; [congruence|]. destruct (Nat.eqb_spec n j) as [->|]; [now rewrite Ej|reflexivity].
    + destruct (usable_tvar w i j Y) as (k & vi & kj & vj & Ei & Ej & U & _). cbn in E. rewrite Ei, Ej, U in E. injection E as _ <-. unfold t_kind. cbn. unfold tset.
      destruct (Nat.eqb_spec n i) as [->|]; [now rewrite Ei|reflexivity].
    + destruct (usable_tvar w i j Y) as (k & vi & kj & vj & Ei & Ej & U & _). cbn in E. rewrite Ei, Ej, U in E. destruct (tkind_eqb k kj); injection E as _ <-; unfold t_kind; cbn; unfold tset.
      * destruct (Nat.eqb_spec n j) as [->|]; [now rewrite Ej|]. destruct (Nat.eqb_spec n i) as [->|]; [now rewrite Ei|reflexivity].
      * destruct (Nat.eqb_spec n i) as [->|]; [now rewrite Ei|reflexivity].
    + destruct Y as [Oi KK]. destruct (old_tvar w i Oi) as (k & vi & Ei). rewrite (p_kind w i k vi Ei) in KK. unfold t_kind in KK.
      destruct (tw_vars w j) as [[kj vj]|] eqn:Ej; [|discriminate KK]. injection KK as <-. cbn in E. rewrite Ei, Ej, (proj2 (tkind_eqb_eq k k) eq_refl) in E. injection E as _ <-.
      unfold t_kind; cbn; unfold tset. destruct (Nat.eqb_spec n j) as [->|]; [now rewrite Ej|]. destruct (Nat.eqb_spec n i) as [->|]; [now rewrite Ei|reflexivity].
    + apply K. intros ->. destruct Y as [Nw _]. red in Nw. congruence.
  - destruct o; trivial; cbn [t_typed] in Y; unfold t_window.
    + destruct Y as [Nw O]. red in Nw. destruct (old_tvar w j O) as (k & v & Ej). cbn in E. rewrite Ej, Nw in E. injection E as _ <-. cbn. rewrite tset_same, Ej.
      split; [reflexivity|]. rewrite tset_other by congruence. now rewrite Ej.
    + destruct Y as [Nw O]. red in Nw. destruct (old_tvar w j O) as (k & v & Ej). cbn in E. rewrite Ej, Nw in E. injection E as _ <-. cbn. rewrite tset_same, Ej.
      split; [reflexivity|]. rewrite tset_other by congruence. now rewrite Ej.
    + destruct Y as [Nw O]. red in Nw. destruct (old_tvar w j O) as (k & v & Ej). cbn in E. rewrite Ej, Nw in E. injection E as _ <-. cbn. rewrite tset_same, Ej.
      split; [reflexivity|]. rewrite tset_other by congruence. now rewrite tset_same.
    + destruct (usable_tvar w i j Y) as (k & vi & kj & vj & Ei & Ej & U & _). cbn in E. rewrite Ei, Ej, U in E. injection E as _ <-. cbn. rewrite tset_same, Ej.
      split; [reflexivity|]. unfold tset. destruct (Nat.eqb j i); [reflexivity|now rewrite Ej].
    + destruct (usable_tvar w i j Y) as (k & vi & kj & vj & Ei & Ej & U & _). cbn in E. unfold t_kind. rewrite Ei, Ej in *. rewrite U in E. cbn [option_map fst].
      destruct (tkind_eqb k kj) eqn:Q; injection E as _ <-; cbn; unfold tset; rewrite ?Nat.eqb_refl.
      * apply tkind_eqb_eq in Q. subst kj. split; [|split; [reflexivity|now intros []]]. destruct (Nat.eqb_spec i j) as [->|]; [congruence|reflexivity].
      * split; [reflexivity|]. split.
        -- intros X. injection X as ->. rewrite (proj2 (tkind_eqb_eq kj kj) eq_refl) in Q. discriminate Q.
        -- intros _. destruct (Nat.eqb j i); [reflexivity|now rewrite Ej].
    + destruct Y as [Oi KK]. destruct (old_tvar w i Oi) as (k & vi & Ei). rewrite (p_kind w i k vi Ei) in KK. unfold t_kind in KK.
      destruct (tw_vars w j) as [[kj vj]|] eqn:Ej; [|discriminate KK]. injection KK as <-. cbn in E. rewrite Ei, Ej, (proj2 (tkind_eqb_eq k k) eq_refl) in E. injection E as _ <-.
      cbn; unfold tset. rewrite !Nat.eqb_refl, Ei. split; [|reflexivity]. destruct (Nat.eqb_spec i j) as [->|]; [congruence|reflexivity].
Qed.
Print Assumptions C124_windows.
Example C124_ok : t_fair demo_end (TMove 8 0) /\ t_fair demo_end (TMoveAssign 1 0) /\ t_fair demo_end (TAssign 2 0) /\ t_fair demo_end (TSwap 1 1) /\  t_window demo_end 0 = Some (Some 4, 4) /\ t_window demo_end 1 = Some (Some 2, 8) /\ t_kind demo_end 2 <> t_kind demo_end 0.
Proof.
  split; [split; [split; [vm_compute; reflexivity|vm_compute; discriminate]|now split]|].
  split; [split; [do 2 eexists; split; [vm_compute; reflexivity|]; split; [vm_compute; reflexivity|now left]|now split]|].
  split; [split; [do 2 eexists; split; [vm_compute; reflexivity|]; split; [vm_compute; reflexivity|now right]|now split]|].
  split; [split; [split; [vm_compute; discriminate|reflexivity]|now split]|]. repeat split; vm_compute; congruence.
Qed.
