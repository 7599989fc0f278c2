(** C109 to C113: many views of the same memory. *)
From Verif Require Import Base BaseLemmas MemViewModel MemViewSpec MemViewProofs StringViewModel ViewsModel ViewsSpec ViewsProofs.

(** C109: whatever a program does with its views, no access leaves the memory (that would be
    undefined): every operation answers, if offsets do not wrap and texts are not indexed past
    their end ([unwrapped], part of [fair]). *)
Theorem C109_no_stray_access_partial : forall mem os, N.of_nat (length mem) < 2 ^ 64 ->
  along fair os (v_start mem) ->
  exists xs w, v_run os (v_start mem) = Ret (xs, w) /\ length (vw_mem w) = length mem.
Proof.
  intros mem os B A. destruct (run_ok os _ (vinv_start mem B) A) as (xs & w & E & I).
  exists xs, w. split; [exact E|].
  assert (G : forall os w xs w', vinv w -> along fair os w -> v_run os w = Ret (xs, w') -> length (vw_mem w') = length (vw_mem w)).
  { clear. induction os as [|o t IH]; intros w xs w' I A E; cbn in *; [now injection E as _ <-|].
    destruct A as [F A]. destruct (step_spec w o I F) as (a & w1 & E1 & I1 & M & _). rewrite E1 in E. cbn in E.
    destruct (v_run t w1) as [q| | | |] eqn:E2; try easy. injection E as _ <-.
    rewrite (IH w1 (fst q) (snd q) I1 (A _ _ E1) ltac:(now destruct q)), M.
    destruct (puts_inside w o I F) as [->|(i & v & b & Ei & Eb & L1 & L2 & L3)]; [now rewrite put_at_nil|].
    apply length_put_at. lia. }
  exact (G os (v_start mem) xs w (vinv_start mem B) A E).
Qed.
Print Assumptions C109_no_stray_access_partial.

(** ... and no view ever covers a byte outside the ranges and C strings the program was given. *)
Theorem C109_views_stay_inside : forall mem os xs w i a n x, N.of_nat (length mem) < 2 ^ 64 ->
  along fair os (v_start mem) -> v_run os (v_start mem) = Ret (xs, w) ->
  window w i = Some (Some a, n) -> a <= x < a + n -> given os (v_start mem) x.
Proof.
  intros mem os xs w i a n x B A E Wi Hx. unfold window in Wi.
  destruct (vw_vars w i) as [[k v]|] eqn:Ei; [|easy]. injection Wi as Ea En.
  destruct (run_given os (v_start mem) xs w (fun _ => False) (vinv_start mem B) A E) with (i := i) (k := k) (v := v) (x := x) as [H|H]; auto.
  - intros. easy.
  - exists a. split; [exact Ea|]. now rewrite En.
  - easy.
Qed.
Print Assumptions C109_views_stay_inside.

(** A program used in the examples: bytes 2..5 of the memory wrapped for writing, a slice of
    them, a read-only slice of the slice, a C string, texts. *)
Definition demo : list vop :=
  [VWrap 0 Rw (Some 2) 4; VSlice 1 Rw 0 1 9; VSlice 2 Ro 1 0 2; VFill 1 7; VIndex 2 1; VSet 0 0 9;
   VWrite 1 2; VIndex 0 9; VTextC 3 (Some 2); VCharAt 3 3; VEquals 2 1; VText 4 2; VEquals 3 4].
Definition answers (r : outcome (list vans * vworld)) : option (list vans) :=
  match r with Ret (xs, _) => Some xs | _ => None end.
Definition memory_of (r : outcome (list vans * vworld)) : option (list N) :=
  match r with Ret (_, w) => Some (vw_mem w) | _ => None end.

Ltac walk := repeat (match goal with |- along _ _ _ => apply along_cons end; [|intros ? ? Ew; vm_compute in Ew; injection Ew as <- <-]); try match goal with |- along _ _ _ => apply along_nil end.
Ltac use := unfold fair; (split; [|split]); cbn; unfold is_mview, is_view, is_text, is_new, kind_of; cbn; auto; try lia; try easy.
Example C109_demo_fair : along fair demo (v_start [1;2;3;4;5;6;0;8]).
Proof.
  unfold demo. walk; use.
  exists 6%nat. split; [lia|reflexivity].
Qed.
Example C109_demo_runs :
  answers (v_run demo (v_start [1;2;3;4;5;6;0;8])) =
    Some [VDone; VDone; VDone; VDone; VByte 7; VDone; VRes (Ok tt); VRaised IndexOutOfRange;
          VDone; VByte 7; VFlag false; VDone; VFlag false] /\
  memory_of (v_run demo (v_start [1;2;3;4;5;6;0;8])) = Some [1;2;9;7;7;7;0;8].
Proof. split; vm_compute; reflexivity. Qed.

(** Without the two conditions the claim is false: StringView::operator[] does not check its
    index, although it is documented to throw, and the check of dataAs<T>(offset) wraps. *)
Theorem C109_text_index_refuted : exists mem i w o,
  along fair [VWrap i Tx (Some 0) 1] (v_start mem) /\
  v_run [VWrap i Tx (Some 0) 1] (v_start mem) = Ret ([VDone], w) /\
  (v_step (VIndex i 2) w = Ret (VByte 3, w) /\ ~ given [VWrap i Tx (Some 0) 1] (v_start mem) 2) /\
  typed w o /\ honest w o /\ o = VIndex i 3 /\ v_step o w = UB.
Proof.
  exists [1;2;3], 0%nat. eexists. exists (VIndex 0 3). split.
  { cbn. split; [|intros; exact Logic.I]. unfold fair. cbn. repeat split; cbn; lia. }
  split; [vm_compute; reflexivity|]. split; [split; [vm_compute; reflexivity|]|].
  { cbn. intros [H|(a & w' & _ & [])]. lia. }
  cbn. repeat split. unfold is_new. cbn. discriminate.
Qed.
Print Assumptions C109_text_index_refuted.
Theorem C109_typed_access_refuted : exists mem w o,
  along fair [VWrap 0 Rw (Some 0) 6] (v_start mem) /\
  v_run [VWrap 0 Rw (Some 0) 6] (v_start mem) = Ret ([VDone], w) /\
  typed w o /\ honest w o /\ o = VData 0 (Some (2 ^ 64 - 2)) 4 /\ v_step o w = UB.
Proof.
  exists [1;2;3;4;5;6]. eexists. exists (VData 0 (Some (2 ^ 64 - 2)) 4). split.
  { cbn. split; [|intros; exact Logic.I]. unfold fair. cbn. repeat split; cbn; lia. }
  split; [vm_compute; reflexivity|]. cbn. repeat split. unfold is_view, kind_of. cbn. auto.
Qed.
Print Assumptions C109_typed_access_refuted.

(** C110: memory a program was only given for reading does not change, as long as mutable and
    immutable views are not exchanged (and mutable_cast is not used). *)
Theorem C110_readonly_memory_partial : forall mem os xs w x, N.of_nat (length mem) < 2 ^ 64 ->
  along fair os (v_start mem) -> along kinds_apart os (v_start mem) ->
  v_run os (v_start mem) = Ret (xs, w) ->
  ~ given_for_writing os x ->
  nth_error (vw_mem w) (N.to_nat x) = nth_error mem (N.to_nat x).
Proof.
  intros mem os xs w x B A K E H.
  apply (run_readonly os (v_start mem) xs w (fun _ => False) (vinv_start mem B) A K E); auto. intros. easy.
Qed.
Print Assumptions C110_readonly_memory_partial.

Example C110_readonly_memory_ok :
  along kinds_apart demo (v_start [1;2;3;4;5;6;0;8]) /\
  ~ given_for_writing demo 1 /\ given_for_writing demo 2.
Proof.
  split; [|split].
  - unfold demo. walk; exact Logic.I.
  - intros (i & a & n & H & L). cbn in H. repeat (destruct H as [H|H]; [try discriminate H; injection H as <- <- <-; lia|]). easy.
  - exists 0%nat, 2, 4. split; [now left|lia].
Qed.

(** In general it is false: a MutableMemoryView is a MemoryView, so swapping or move-assigning
    hands the read-only range to the mutable view, without any cast. *)
Definition swaps (by_move : bool) : list vop :=
  [VWrap 0 Rw (Some 0) 2; VWrap 1 Ro (Some 2) 2; (if by_move then VMoveAssign 1 0 else VSwap 1 0); VFill 0 9].
Theorem C110_readonly_memory_refuted : forall by_move, exists xs w,
  along fair (swaps by_move) (v_start [1;2;3;4]) /\
  ~ In (VMutable 0 1) (swaps by_move) /\
  v_run (swaps by_move) (v_start [1;2;3;4]) = Ret (xs, w) /\
  ~ given_for_writing (swaps by_move) 2 /\ nth_error (vw_mem w) 2 = Some 9 /\ vw_mem w = [1;2;9;9].
Proof.
  intros by_move. do 2 eexists. split; [|split; [|split; [|split; [|split]]]]; cycle 2.
  - destruct by_move; vm_compute; reflexivity.
  - intros (i & a & n & H & L). destruct by_move; cbn in H;
    repeat (destruct H as [H|H]; [try discriminate H; injection H as <- <- <-; lia|]); easy.
  - reflexivity.
  - reflexivity.
  - destruct by_move; unfold swaps; walk; use. exists Ro. cbn. unfold is_view, kind_of. cbn. auto.
  - destruct by_move; cbn; intuition discriminate.
Qed.
Print Assumptions C110_readonly_memory_refuted.

(** C111: what each operation does to the memory and answers, in terms of the bytes the views
    show: it puts the bytes [puts] and leaves all others, answers [says], makes the view
    [makes], and no other view moves. *)
Theorem C111_shared_memory : forall w o, reachable w -> fair w o ->
  exists a w', v_step o w = Ret (a, w') /\ reachable w' /\
    vw_mem w' = put_at (vw_mem w) (fst (puts w o)) (snd (puts w o)) /\
    says w o a /\
    (forall k, ~ touches o k -> window w' k = window w k) /\
    (small w o -> match makes w o with
                  | Some (i, k, bs) => a = VDone /\ kind_of w' i = Some k /\ shown w' i = bs
                  | None => True
                  end).
Proof.
  intros w o R F. destruct (step_spec w o (reachable_vinv w R) F) as (a & w' & E & I & M & S & T & K & Mk).
  exists a, w'. repeat split; auto.
  - exact (reachable_step w o a w' R F E).
  - intros k Hk. unfold window. now rewrite (T k Hk).
Qed.
Print Assumptions C111_shared_memory.

(** ... so a view sees the bytes put through another one exactly where the two overlap. *)
Theorem C111_other_views_see : forall w o a w' k s m n, reachable w -> fair w o -> v_step o w = Ret (a, w') ->
  ~ touches o k -> window w k = Some (Some s, m) -> n < m ->
  nth_error (shown w' k) (N.to_nat n) =
  let (p, bs) := puts w o in
  if (p <=? s + n) && (s + n <? p + N.of_nat (length bs))
  then nth_error bs (N.to_nat (s + n - p)) else nth_error (shown w k) (N.to_nat n).
Proof.
  intros w o a w' k s m n R F E Nt W L. pose proof (reachable_vinv w R) as I.
  destruct (step_spec w o I F) as (a1 & w1 & E1 & I1 & M & _ & T & _). rewrite E in E1. injection E1 as <- <-.
  unfold window in W. destruct (vw_vars w k) as [[kk v]|] eqn:Ek; [|easy]. injection W as Wa Wm.
  destruct (look w I k kk v Ek) as (Sh & _ & _ & _ & _ & V).
  assert (Sh' : shown w' k = contents (vw_mem w') v) by (unfold shown; now rewrite (T k Nt), Ek).
  assert (NT : forall mem : list N, nth_error (contents mem v) (N.to_nat n) = nth_error mem (N.to_nat (s + n))).
  { intros mem. rewrite contents_alt, Wa, Wm. rewrite <- nnth_nth_error, nnth_ntake by exact L.
    now rewrite nnth_ndrop, nnth_nth_error. }
  rewrite Sh', Sh, !NT, M. destruct (puts w o) as [p bs] eqn:P. cbn [fst snd].
  pose proof (puts_inside w o I F) as Q. rewrite P in Q. cbn [fst snd] in Q. destruct Q as [->|(i & v' & b & Ei & Eb & L1 & L2 & L3)].
  - rewrite put_at_nil. cbn [length]. destruct (N.leb_spec p (s + n)); [|reflexivity].
    rewrite (proj2 (N.ltb_ge _ _)); [reflexivity|]. lia.
  - rewrite nth_put_at by lia.
    destruct (Nat.leb_spec (N.to_nat p) (N.to_nat (s + n))), (N.leb_spec p (s + n)); try lia; cbn [andb]; [|reflexivity].
    destruct (Nat.ltb_spec (N.to_nat (s + n)) (N.to_nat p + length bs)), (N.ltb_spec (s + n) (p + N.of_nat (length bs))); try lia; [|reflexivity].
    f_equal. lia.
Qed.
Print Assumptions C111_other_views_see.

Example C111_shared_memory_ok : exists w, reachable w /\ shown w 1 = [4;5;6] /\ fair w (VWrite 0 1) /\
  puts w (VWrite 0 1) = (2, [4;5;6]) /\ ~ touches (VWrite 0 1) 1 /\ window w 1 = Some (Some 3, 3).
Proof.
  eexists. split.
  - exists [1;2;3;4;5;6;0;8], (firstn 2 demo). eexists. split; [vm_compute; reflexivity|]. split; [|vm_compute; reflexivity].
    pose proof C109_demo_fair as F. cbn [demo along] in F. destruct F as [F1 F2]. cbn [firstn demo along].
    split; [exact F1|]. intros a w' E. destruct (F2 a w' E) as [F3 F4]. split; [exact F3|]. intros; exact Logic.I.
  - split; [reflexivity|]. split; [|split; [reflexivity|split; [auto|reflexivity]]].
    split; [|split; exact Logic.I]. cbn. unfold is_mview, is_view, kind_of. cbn. auto.
Qed.

(** C112: a text made from a view or a C string shows the same bytes, as long as there are
    fewer than 2^16 of them ... *)
Theorem C112_text_shows_all_partial : forall w i j, reachable w -> is_new w i -> is_view w j -> count w j < 2 ^ 16 ->
  exists w', v_step (VText i j) w = Ret (VDone, w') /\ is_text w' i /\ shown w' i = shown w j /\ vw_mem w' = vw_mem w.
Proof.
  intros w i j R N J S.
  destruct (C111_shared_memory w (VText i j) R (conj (conj N J) (conj Logic.I Logic.I))) as (a & w' & E & _ & M & _ & _ & Mk).
  destruct (Mk S) as (-> & K & Sh). exists w'. repeat split; auto.
Qed.
Print Assumptions C112_text_shows_all_partial.
Theorem C112_c_string_partial : forall w i a n, reachable w -> is_new w i ->
  (N.to_nat a <= n)%nat -> nth_error (vw_mem w) n = Some 0 ->
  (forall m, (N.to_nat a <= m < n)%nat -> nth_error (vw_mem w) m <> Some 0) -> N.of_nat n - a < 2 ^ 16 ->
  exists w', v_step (VTextC i (Some a)) w = Ret (VDone, w') /\ is_text w' i /\
    shown w' i = range a (N.of_nat n) (vw_mem w) /\ vw_mem w' = vw_mem w.
Proof.
  intros w i a n R Nw L Z Nz Sz.
  assert (B : before_nul (skipn (N.to_nat a) (vw_mem w)) = range a (N.of_nat n) (vw_mem w)).
  { rewrite range_spec, <- ndrop_skipn.
    assert (G : forall k l, nth_error l k = Some 0 -> (forall m, (m < k)%nat -> nth_error l m <> Some 0) -> before_nul l = firstn k l).
    { induction k as [|k IH]; intros l H1 H2; destruct l as [|c t]; cbn in *; try easy.
      - injection H1 as ->. reflexivity.
      - destruct (N.eqb_spec c 0) as [->|]; [exfalso; apply (H2 0%nat); [lia|reflexivity]|].
        f_equal. apply IH; auto. intros m Hm. apply (H2 (S m)). lia. }
    assert (D : forall m, nth_error (ndrop a (vw_mem w)) m = nth_error (vw_mem w) (N.to_nat a + m)).
    { intros m. rewrite <- (Nat2N.id m) at 1. rewrite <- nnth_nth_error, nnth_ndrop, nnth_nth_error. f_equal. lia. }
    rewrite (G (n - N.to_nat a)%nat).
    - rewrite ntake_firstn. f_equal. lia.
    - rewrite D. now replace (N.to_nat a + (n - N.to_nat a))%nat with n by lia.
    - intros m Hm. rewrite D. apply Nz. lia. }
  assert (F : fair w (VTextC i (Some a))) by (split; [exact Nw|]; split; [|exact Logic.I]; now exists n).
  destruct (C111_shared_memory w _ R F) as (x & w' & E & _ & M & _ & _ & Mk).
  assert (Sm : small w (VTextC i (Some a))).
  { cbn. rewrite B, range_spec. change (N.of_nat (length ?l)) with (size l). rewrite size_ntake. lia. }
  destruct (Mk Sm) as (-> & K & Sh). exists w'. repeat split; auto.
  now rewrite Sh.
Qed.
Print Assumptions C112_c_string_partial.

(** ... and the memory of a text shows the bytes of the text. *)
Theorem C112_text_view : forall w i j, reachable w -> is_new w i -> is_text w j ->
  exists w', v_step (VTextView i j) w = Ret (VDone, w') /\ kind_of w' i = Some Ro /\ shown w' i = shown w j /\ vw_mem w' = vw_mem w.
Proof.
  intros w i j R N J.
  destruct (C111_shared_memory w (VTextView i j) R (conj (conj N J) (conj Logic.I Logic.I))) as (a & w' & E & _ & M & _ & _ & Mk).
  destruct (Mk Logic.I) as (-> & K & Sh). exists w'. repeat split; auto.
Qed.
Print Assumptions C112_text_view.

(** Larger ones are cut: a text shows (number of bytes mod 2^16) bytes; a view of 65536 bytes
    makes an empty text. *)
Theorem C112_long_text_refuted : forall w i j, reachable w -> is_new w i -> is_view w j ->
  exists w', v_step (VText i j) w = Ret (VDone, w') /\
    shown w' i = firstn (N.to_nat (count w j mod 2 ^ 16)) (shown w j) /\
    (2 ^ 16 <= count w j -> shown w' i <> shown w j).
Proof.
  intros w i j R Nw J. pose proof (reachable_vinv w R) as I.
  destruct (view_var w j J) as (k & v & E & F & X). destruct (look w I j k v E) as (Sh & _ & C & _ & _ & V).
  eexists. split; [cbn [v_step]; rewrite E, F, Nw; reflexivity|].
  assert (Q : contents (vw_mem w) (text_of v) = firstn (N.to_nat (v_size v mod 2 ^ 16)) (contents (vw_mem w) v)).
  { rewrite !contents_alt. unfold text_of. cbn [v_addr v_size]. destruct (v_addr v) as [a|]; [|now rewrite firstn_nil].
    fold (u16 (v_size v)). rewrite <- ntake_firstn, ntake_ntake. f_equal. pose proof (u16_le (v_size v)). lia. }
  unfold shown. cbn [vw_vars vw_mem]. rewrite vset_same, E. split; [now rewrite C, Q|].
  intros L D. rewrite Q in D. apply (f_equal (@length N)) in D. rewrite firstn_length in D.
  pose proof (size_contents (vw_mem w) v V) as S. unfold size in S.
  pose proof (N.mod_lt (v_size v) (2 ^ 16)). lia.
Qed.
Print Assumptions C112_long_text_refuted.

Example C112_long_text_reached : exists w, reachable w /\ is_new w 1 /\ is_view w 0 /\ 2 ^ 16 <= count w 0.
Proof.
  assert (X : exists mem : list N, N.of_nat (length mem) = 70000)
    by (exists (repeat 5 (N.to_nat 70000)); rewrite repeat_length; apply N2Nat.id).
  destruct X as [mem L].
  assert (F : along fair [VWrap 0 Ro (Some 0) 70000] (v_start mem)).
  { cbn [along]. split; [|intros; exact Logic.I]. split; [reflexivity|]. split; [|exact Logic.I]. cbn [honest v_start vw_mem].
    rewrite L. lia. }
  exists (mkVW mem (vset (fun _ => None) 0 (Some (Ro, mkView (Some 0) 70000)))).
  assert (R : reachable (mkVW mem (vset (fun _ => None) 0 (Some (Ro, mkView (Some 0) 70000))))).
  { exists mem, [VWrap 0 Ro (Some 0) 70000], [VDone]. split; [rewrite L; reflexivity|]. split; [exact F|]. reflexivity. }
  split; [exact R|]. split; [reflexivity|]. split; [left; reflexivity|].
  destruct (look _ (reachable_vinv _ R) 0 Ro (mkView (Some 0) 70000) eq_refl) as (_ & _ & C & _). rewrite C. easy.
Qed.
Example C112_small_ok : exists w, reachable w /\ is_new w 1 /\ is_view w 0 /\ shown w 0 = [3;4] /\ nth_error (vw_mem w) 4 = Some 0.
Proof.
  eexists. split.
  - exists [1;2;3;4;0;6], [VWrap 0 Ro (Some 2) 2]. eexists. split; [vm_compute; reflexivity|]. split; [|vm_compute; reflexivity].
    cbn. split; [|intros; exact Logic.I]. unfold fair. cbn. repeat split; cbn; lia.
  - repeat split. left. reflexivity.
Qed.

(** C113: copying, moving, assigning and swapping views.  None of these touches the memory. *)
Theorem C113_copy : forall w i k j, reachable w -> is_new w i -> usable w k j ->
  exists w', v_step (VCopy i k j) w = Ret (VDone, w') /\ vw_mem w' = vw_mem w /\
    window w' i = window w j /\ kind_of w' i = Some k /\ (forall x, x <> i -> vw_vars w' x = vw_vars w x).
Proof.
  intros w i k j R N J. destruct (usable_var w k j J) as (kj & v & E & F & X).
  eexists. split; [cbn [v_step]; rewrite E, F, N; reflexivity|]. split; [reflexivity|].
  unfold window, kind_of. cbn [vw_vars]. rewrite vset_same, E. repeat split. intros x Hx. now apply vset_other.
Qed.
Print Assumptions C113_copy.
Theorem C113_move : forall w i k j, reachable w -> is_new w i -> usable w k j ->
  exists w', v_step (VMove i k j) w = Ret (VDone, w') /\ vw_mem w' = vw_mem w /\
    window w' i = window w j /\ kind_of w' i = Some k /\ kind_of w' j = kind_of w j /\
    window w' j = (match k with Tx => window w j | _ => Some (None, 0) end) /\
    (forall x, x <> i -> x <> j -> vw_vars w' x = vw_vars w x).
Proof.
  intros w i k j R N J. destruct (usable_var w k j J) as (kj & v & E & F & X).
  assert (Hij : j <> i) by (unfold is_new in N; congruence).
  eexists. split; [cbn [v_step]; rewrite E, F; cbn [negb]; rewrite N; reflexivity|]. split; [reflexivity|].
  unfold window, kind_of. cbn [vw_vars]. rewrite vset_same, (vset_other _ i _ j Hij), vset_same, E.
  repeat split.
  - rewrite X. now destruct k.
  - intros x H1 H2. now rewrite !vset_other.
Qed.
Print Assumptions C113_move.
Theorem C113_assign : forall w i j k, reachable w -> kind_of w i = Some k -> usable w k j ->
  exists w', v_step (VAssign i j) w = Ret (VDone, w') /\ vw_mem w' = vw_mem w /\
    window w' i = window w j /\ kind_of w' i = Some k /\ (forall x, x <> i -> vw_vars w' x = vw_vars w x).
Proof.
  intros w i j k R K J. destruct (usable_var w k j J) as (kj & v & E & F & X).
  unfold kind_of in K. destruct (vw_vars w i) as [[ki vi]|] eqn:Ei; [|easy]. injection K as ->.
  eexists. split; [cbn [v_step]; rewrite Ei, E, F; reflexivity|]. split; [reflexivity|].
  unfold window, kind_of. cbn [vw_vars]. rewrite vset_same, E. repeat split. intros x Hx. now apply vset_other.
Qed.
Print Assumptions C113_assign.
(** Move assignment of memory views exchanges them; of texts it copies. *)
Theorem C113_move_assign : forall w i j k, reachable w -> kind_of w i = Some k -> usable w k j ->
  exists w', v_step (VMoveAssign i j) w = Ret (VDone, w') /\ vw_mem w' = vw_mem w /\
    window w' i = window w j /\ window w' j = (match k with Tx => window w j | _ => window w i end) /\
    kind_of w' i = kind_of w i /\ kind_of w' j = kind_of w j /\
    (forall x, x <> i -> x <> j -> vw_vars w' x = vw_vars w x).
Proof.
  intros w i j k R K J. destruct (usable_var w k j J) as (kj & v & E & F & X).
  unfold kind_of in K. destruct (vw_vars w i) as [[ki vi]|] eqn:Ei; [|easy]. injection K as ->.
  destruct (fits Tx kj) eqn:FT.
  - eexists. split; [cbn [v_step]; rewrite Ei, E, F; cbn [negb]; rewrite FT; reflexivity|]. split; [reflexivity|].
    assert (k = Tx) as -> by (destruct k; easy). assert (kj = Tx) as -> by (destruct kj; easy).
    unfold window, kind_of. cbn [vw_vars]. rewrite vset_same, E. unfold vset. destruct (Nat.eqb_spec j i) as [->|].
    + rewrite Ei. repeat split. intros x H1 _. now rewrite (proj2 (Nat.eqb_neq _ _) H1).
    + rewrite E, Ei. repeat split. intros x H1 _. now rewrite (proj2 (Nat.eqb_neq _ _) H1).
  - eexists. split; [cbn [v_step]; rewrite Ei, E, F; cbn [negb]; rewrite FT; reflexivity|]. split; [reflexivity|].
    unfold window, kind_of. cbn [vw_vars]. rewrite vset_same, E, Ei. unfold vset. rewrite Nat.eqb_refl. destruct (Nat.eqb_spec i j) as [->|].
    + rewrite E in Ei. injection Ei as -> ->. repeat split.
      * now destruct k.
      * intros x H1 _. now rewrite (proj2 (Nat.eqb_neq _ _) H1).
    + repeat split.
      * now destruct k.
      * intros x H1 H2. now rewrite (proj2 (Nat.eqb_neq _ _) H1), (proj2 (Nat.eqb_neq _ _) H2).
Qed.
Print Assumptions C113_move_assign.
Theorem C113_swap : forall w i j, reachable w ->
  (is_text w i /\ is_text w j) \/ (is_view w i /\ is_view w j) ->
  exists w', v_step (VSwap i j) w = Ret (VDone, w') /\ vw_mem w' = vw_mem w /\
    window w' i = window w j /\ window w' j = window w i /\
    kind_of w' i = kind_of w i /\ kind_of w' j = kind_of w j /\
    (forall x, x <> i -> x <> j -> vw_vars w' x = vw_vars w x).
Proof.
  intros w i j R T.
  assert (H : exists ki vi kj vj, vw_vars w i = Some (ki, vi) /\ vw_vars w j = Some (kj, vj) /\ fits Tx ki = fits Tx kj).
  { destruct T as [[T1 T2]|[T1 T2]].
    - destruct (text_var w i T1) as (v & E), (text_var w j T2) as (v' & E'). now exists Tx, v, Tx, v'.
    - destruct (view_var w i T1) as (k & v & E & F & X), (view_var w j T2) as (k' & v' & E' & F' & X').
      exists k, v, k', v'. repeat split; auto. now destruct k, k'. }
  destruct H as (ki & vi & kj & vj & Ei & Ej & F).
  eexists. split; [cbn [v_step]; rewrite Ei, Ej, F, Bool.eqb_reflx; reflexivity|]. split; [reflexivity|].
  unfold window, kind_of. cbn [vw_vars]. rewrite vset_same, Ei, Ej. unfold vset. rewrite Nat.eqb_refl. destruct (Nat.eqb_spec i j) as [->|].
  - rewrite Ej in Ei. injection Ei as -> ->. repeat split. intros x H1 _. now rewrite (proj2 (Nat.eqb_neq _ _) H1).
  - repeat split. intros x H1 H2. now rewrite (proj2 (Nat.eqb_neq _ _) H1), (proj2 (Nat.eqb_neq _ _) H2).
Qed.
Print Assumptions C113_swap.

Example C113_ok : exists w, reachable w /\ is_new w 2 /\ usable w Ro 0 /\ kind_of w 1 = Some Ro /\
  window w 0 = Some (Some 0, 2) /\ window w 1 = Some (Some 2, 2) /\ is_view w 0 /\ is_view w 1.
Proof.
  eexists. split.
  - exists [1;2;3;4], [VWrap 0 Rw (Some 0) 2; VWrap 1 Ro (Some 2) 2]. eexists.
    split; [vm_compute; reflexivity|]. split; [|vm_compute; reflexivity].
    walk; use.
  - unfold is_view, is_new, usable, is_view, kind_of. cbn. repeat split; auto.
Qed.
