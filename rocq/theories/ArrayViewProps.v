(** Properties of ArrayView (C81, C82). *)
From Verif Require Import Base BaseLemmas MemViewModel MemViewSpec ArrayViewModel ArrayViewSpec ArrayViewProofs.

(** C81: two views are equal exactly when they show the same number of elements and these
    are equal one by one, provided no element differs from itself. *)
Theorem C81_equals_partial : forall A sz (eqb : A -> A -> bool) mem v w pre l post pre' l' post', 0 < sz ->
  shows sz v pre l post mem -> shows sz w pre' l' post' mem -> (forall x, In x l -> eqb x x = true) ->
  exists b, av_equals sz eqb mem v w = Ret b /\ (b = true <-> Forall2 (fun x y => eqb x y = true) l l').
Proof.
  intros A sz eqb mem v w pre l post pre' l' post' S H H' R. unfold av_equals.
  pose proof (shows_count _ _ _ _ _ _ H) as C. pose proof (shows_count _ _ _ _ _ _ H') as C'.
  destruct (av_size sz v =? av_size sz w) eqn:E; cbn [negb].
  - apply N.eqb_eq in E. assert (L : length l = length l') by congruence. destruct (ptr_eqb (v_addr v) (v_addr w)) eqn:Q.
    + exists true. split; [reflexivity|]. split; [intros _|reflexivity]. assert (l = l') as <-.
      { destruct l as [|x l]; [destruct l'; [reflexivity|discriminate]|]. destruct l' as [|y l']; [discriminate|].
        destruct H as (M & _ & P), H' as (M' & _ & P'). rewrite P, P' in Q by discriminate. cbn in Q. apply N.eqb_eq in Q.
        apply N.mul_cancel_l in Q; [|lia]. rewrite M in M'. assert (Lp : length pre = length pre') by (unfold size in Q; lia).
        assert (F : forall (a b c d e f : list A), a ++ b ++ c = d ++ e ++ f -> length a = length d -> length b = length e -> b = e).
        { clear. intros a. induction a as [|x a IH]; intros b c [|y d] e f X La Lb; cbn in La; try discriminate; cbn in X.
          - revert e Lb X. induction b as [|z b IH]; intros [|u e] Lb X; cbn in Lb; try discriminate; [reflexivity|]. cbn in X. injection X as -> X. f_equal. apply (IH e); congruence.
          - injection X as _ X. apply (IH _ _ _ _ _ X); congruence. }
        exact (F _ _ _ _ _ _ M' Lp L). }
      clear - R. induction l as [|x l IH]; constructor; [apply R; now left|]. apply IH. intros y Y. apply R. now right.
    + rewrite C. apply (equal_loop_spec sz S eqb mem l l' _ _ pre post pre' post' L); try (eapply stands_begin; eassumption); [apply H|apply H'].
  - exists false. split; [reflexivity|]. split; [discriminate|]. intros F. exfalso. apply N.eqb_neq in E. apply E. apply N2Nat.inj. rewrite C, C'.
    clear - F. induction F; cbn; congruence.
Qed.
Print Assumptions C81_equals_partial.
(** In particular with an equality that decides sameness: equal views are views of equal
    sequences. *)
Theorem C81_same_elements_partial : forall A sz (eqb : A -> A -> bool) mem v w pre l post pre' l' post', 0 < sz ->
  (forall x y, eqb x y = true <-> x = y) -> shows sz v pre l post mem -> shows sz w pre' l' post' mem ->
  exists b, av_equals sz eqb mem v w = Ret b /\ (b = true <-> l = l').
Proof.
  intros A sz eqb mem v w pre l post pre' l' post' S D H H'.
  destruct (C81_equals_partial A sz eqb mem v w pre l post pre' l' post' S H H') as (b & E & B); [intros x _; now apply D|].
  exists b. split; [exact E|]. rewrite B. clear - D. split.
  - intros F. induction F as [|x y l l' X F IH]; [reflexivity|]. apply D in X. congruence.
  - intros <-. induction l as [|x l IH]; constructor; [now apply D|exact IH].
Qed.
Print Assumptions C81_same_elements_partial.
Example C81_case : let mem := [7; 1; 2; 9; 1; 2; 5] in
  shows 8 (mkView (Some 8) 16) [7] [1; 2] [9; 1; 2; 5] mem /\ shows 8 (mkView (Some 32) 20) [7; 1; 2; 9] [1; 2] [5] mem /\
  av_equals 8 N.eqb mem (mkView (Some 8) 16) (mkView (Some 32) 20) = Ret true /\ av_equals 8 N.eqb mem (mkView (Some 8) 16) (mkView (Some 40) 16) = Ret false.
Proof. cbn zeta. unfold shows. repeat split; reflexivity. Qed.
(** The proviso is needed: views of the same place are equal whatever == says, while a copy
    of the same elements elsewhere is not. *)
Theorem C81_same_place_refuted : exists (eqb : N -> N -> bool) mem v w, 
  shows 8 v [] [3] [3] mem /\ shows 8 w [3] [3] [] mem /\ av_equals 8 eqb mem v v = Ret true /\ av_equals 8 eqb mem v w = Ret false.
Proof. exists (fun _ _ => false), [3; 3], (mkView (Some 0) 8), (mkView (Some 8) 8). unfold shows. repeat split; reflexivity. Qed.
Print Assumptions C81_same_place_refuted.

(** C82: indexing gives the i-th element, or raises. *)
Theorem C82_at : forall A sz mem v (pre l post : list A) i, 0 < sz -> v_size v < 2 ^ 64 -> shows sz v pre l post mem ->
  av_at sz mem v i = match nth_error l (N.to_nat i) with Some x => Ret x | None => Throws IndexOutOfRange end.
Proof. intros. rewrite <- nnth_nth_error. now apply av_at_spec with (pre := pre) (post := post). Qed.
Print Assumptions C82_at.

(** C82: any history of changes made through a view and through slices (of slices) of it
    has the effect it has on the sequence shown, and nothing else in memory changes. *)
Theorem C82_history_partial : forall A sz mem v (pre l post : list A) ops, 0 < sz -> v_size v < 2 ^ 64 -> shows sz v pre l post mem ->
  Forall (fun p => Forall (fun r => fst r * sz < 2 ^ 64 /\ snd r * sz < 2 ^ 64) (fst p)) ops ->
  exists mem', av_run sz mem v ops = Ret (mem', snd (seq_run l ops)) /\ shows sz v pre (fst (seq_run l ops)) post mem'.
Proof. intros A sz mem v pre l post ops S B H F. now apply (av_run_spec sz S ops v pre l post mem B F). Qed.
Print Assumptions C82_history_partial.
Example C82_history_case : let mem := [70; 1; 2; 3; 4; 80] in let v := mkView (Some 8) 32 in
  let ops := [([(1, 9); (1, 2)], AFill 5); ([], ASet 0 (Some 6)); ([], ASet 4 (Some 6)); ([(2, 4)], AFillWith (fun i => i)); ([(0, 2)], AForEach (N.add 10))] in
  shows 8 v [70] [1; 2; 3; 4] [80] mem /\ seq_run [1; 2; 3; 4] ops = ([16; 12; 0; 1], [None; None; Some IndexOutOfRange; None; None]) /\
  av_run 8 mem v ops = Ret ([70; 16; 12; 0; 1; 80], [None; None; Some IndexOutOfRange; None; None]).
Proof. cbn zeta. unfold shows. repeat split; reflexivity. Qed.

(** C82: slice(from, to) shows the elements [from, to), clamped. *)
Theorem C82_slice_partial : forall A const sz mem v (pre l post : list A) from to, 0 < sz -> v_size v < 2 ^ 64 -> from * sz < 2 ^ 64 -> to * sz < 2 ^ 64 ->
  shows sz v pre l post mem ->
  exists pre' post', shows sz (av_slice sz const v from to) pre' (firstn (N.to_nat to - N.to_nat from) (skipn (N.to_nat from) l)) post' mem.
Proof.
  intros A const sz mem v pre l post from to S B F T H. destruct (slice_shows const sz v pre l post mem from to S B F T H) as (_ & X).
  set (a := N.min from (size l)) in *. set (b := N.min (N.max to a) (size l)) in *.
  assert (E : ntake (b - a) (ndrop a l) = firstn (N.to_nat to - N.to_nat from) (skipn (N.to_nat from) l)).
  { replace (N.to_nat to - N.to_nat from)%nat with (N.to_nat (to - from)) by lia. rewrite <- ndrop_skipn, <- ntake_firstn.
    apply nnth_ext.
    - rewrite !size_ntake, !size_ndrop. subst a b. lia.
    - intros i Hi. rewrite size_ntake, size_ndrop in Hi. rewrite !nnth_ntake, !nnth_ndrop by (subst a b; lia). f_equal. subst a b. lia. }
  rewrite <- E. eexists _, _. exact X.
Qed.
Print Assumptions C82_slice_partial.
(** Beyond, the byte offsets wrap: elements [2^61, 2^61 + 1) of eight bytes are taken to be
    the first one. *)
Theorem C82_slice_refuted : let mem := [1; 2] in let v := mkView (Some 0) 16 in
  shows 8 v [] [1; 2] [] mem /\ shows 8 (av_slice 8 false v (2 ^ 61) (2 ^ 61 + 1)) [] [1] [2] mem.
Proof. unfold shows. repeat split; reflexivity. Qed.
Print Assumptions C82_slice_refuted.

(** C82: forEach hands over the elements themselves, in order, until the callback throws;
    what it changes stays. *)
Theorem C82_forEach : forall A St sz mem v (pre l post : list A) (f : St -> A -> St * A * bool) st, 0 < sz -> shows sz v pre l post mem ->
  av_forEach sz mem v f st = let '(l', st', threw) := visit (fun s _ x => f s x) st 0 l in Ret (pre ++ l' ++ post, st', threw).
Proof.
  intros A St sz mem v pre l post f st S H. unfold av_forEach. rewrite (shows_count _ _ _ _ _ _ H). pose proof H as (M & _). rewrite M.
  now apply (each_loop_spec sz S (fun s _ x => f s x) true l 0 _ pre post st), (stands_begin sz v pre l post mem).
Qed.
Print Assumptions C82_forEach.
(** forEach with index calls back in the same way and order, with the index ... *)
Theorem C82_forEach_index_partial : forall A St sz mem v (pre l post : list A) (f : St -> N -> A -> St * A * bool) st, 0 < sz -> shows sz v pre l post mem ->
  av_forEach_index sz mem v f st = let '(_, st', threw) := visit f st 0 l in Ret (mem, st', threw).
Proof.
  intros A St sz mem v pre l post f st S H. unfold av_forEach_index. rewrite (shows_count _ _ _ _ _ _ H). pose proof H as (M & _). rewrite M.
  now apply (each_loop_spec sz S f false l 0 _ pre post st), (stands_begin sz v pre l post mem).
Qed.
Print Assumptions C82_forEach_index_partial.
(** ... but on copies: whatever it changes is lost. *)
Theorem C82_forEach_index_refuted : let mem := [1; 2] in let v := mkView (Some 0) 16 in shows 8 v [] [1; 2] [] mem /\
  av_forEach 8 mem v (fun (_ : unit) x => (tt, x + 10, false)) tt = Ret ([11; 12], tt, false) /\
  av_forEach_index 8 mem v (fun (_ : unit) _ x => (tt, x + 10, false)) tt = Ret ([1; 2], tt, false).
Proof. unfold shows. repeat split; reflexivity. Qed.
Print Assumptions C82_forEach_index_refuted.

(** C82: indexOf is the first position of an equal element; contains says whether there is
    one. *)
Theorem C82_indexOf : forall A sz (eqb : A -> A -> bool) mem v (pre l post : list A) x, 0 < sz -> shows sz v pre l post mem ->
  exists o, av_indexOf sz eqb mem v x = Ret o /\
    match o with
    | Some k => exists a y b, l = a ++ y :: b /\ k = size a /\ eqb x y = true /\ Forall (fun z => eqb x z = false) a
    | None => Forall (fun z => eqb x z = false) l
    end.
Proof.
  intros A sz eqb mem v pre l post x S H. unfold av_indexOf. rewrite (shows_count _ _ _ _ _ _ H). pose proof H as (M & _). rewrite M.
  exact (find_loop_spec sz S eqb x l 0 _ pre post (stands_begin sz v pre l post mem S H)).
Qed.
Print Assumptions C82_indexOf.
Theorem C82_contains : forall A sz (eqb : A -> A -> bool) mem v (pre l post : list A) x, 0 < sz -> shows sz v pre l post mem ->
  exists b, av_contains sz eqb mem v x = Ret b /\ (b = true <-> Exists (fun y => eqb x y = true) l).
Proof.
  intros A sz eqb mem v pre l post x S H. unfold av_contains. destruct (C82_indexOf A sz eqb mem v pre l post x S H) as (o & -> & Q). cbn [bind].
  eexists. split; [reflexivity|]. destruct o as [k|].
  - destruct Q as (a & y & b & -> & _ & E & _). split; [intros _|reflexivity]. apply Exists_exists. exists y. split; [apply in_elt|exact E].
  - split; [discriminate|]. intros X. apply Exists_exists in X as (y & I & E). rewrite Forall_forall in Q. rewrite (Q y I) in E. discriminate.
Qed.
Print Assumptions C82_contains.

(** C82: a generator that throws inside fill ends the program (fill is noexcept). *)
Theorem C82_fill_throws : forall A sz mem v (pre l post : list A) (f : N -> option A) k, 0 < sz -> shows sz v pre l post mem ->
  k < size l -> f k = None -> av_fill_with sz mem v f = Terminates.
Proof.
  intros A sz mem v pre l post f k S H K F. unfold av_fill_with. rewrite (shows_count _ _ _ _ _ _ H). pose proof H as (M & _). rewrite M.
  apply (fill_loop_throws sz S f l 0 _ pre post k); [|exact K|exact F]. now apply (stands_begin sz v pre l post mem).
Qed.
Print Assumptions C82_fill_throws.

(** C82: empty() for memory that holds a whole number of elements. *)
Theorem C82_empty_partial : forall A sz mem v (pre l post : list A), 0 < sz -> shows sz v pre l post mem -> v_size v mod sz = 0 ->
  (av_empty v = true <-> l = []) /\ av_is_null v = av_empty v /\ av_size sz v = size l.
Proof.
  intros A sz mem v pre l post S (M & E & _) D. unfold av_empty, av_is_null, av_empty, av_size. split; [|split; [reflexivity|exact E]].
  rewrite N.eqb_eq. split.
  - intros Z. rewrite Z, N.div_0_l in E by lia. apply size_0_nil. congruence.
  - intros ->. cbn in E. pose proof (N.div_mod (v_size v) sz ltac:(lia)) as X. rewrite E, D in X. lia.
Qed.
Print Assumptions C82_empty_partial.
(** Otherwise a view without elements is not empty. *)
Theorem C82_empty_refuted : let v := mkView (Some 0) 5 in shows 8 v [] [] [7] [7] /\ av_size 8 v = 0 /\ av_empty v = false.
Proof. unfold shows. repeat split; try reflexivity. Qed.
Print Assumptions C82_empty_refuted.
Example C82_case : let mem := [9; 4; 5; 4] in let v := mkView (Some 8) 24 in shows 8 v [9] [4; 5; 4] [] mem /\
  av_indexOf 8 N.eqb mem v 4 = Ret (Some 0) /\ av_contains 8 N.eqb mem v 9 = Ret false /\ av_at 8 mem v 3 = Throws IndexOutOfRange /\ av_at 8 mem v 1 = Ret 5.
Proof. unfold shows. repeat split; reflexivity. Qed.

(** A view converts to true when it is of some memory, even of no elements; slicing does
    not change this. *)
Theorem C82_bool : forall const sz a n v from to,
  av_bool (mkView None n) = false /\ av_bool (mkView (Some a) n) = true /\
  av_bool (av_slice sz const v from to) = av_bool v.
Proof.
  intros const sz a n v from to. split; [reflexivity|]. split; [reflexivity|].
  unfold av_slice, view_slice, mview_slice, av_bool. destruct v as [[b|] k]; cbn [v_addr v_size];
    destruct const; cbn; repeat (destruct (_ =? _); cbn); reflexivity.
Qed.
Print Assumptions C82_bool.
