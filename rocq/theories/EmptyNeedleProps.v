(** C158: searching a text for the empty text.  A view is its characters together with the
    memory that follows them: [c :: after] is the memory behind the text, [b :: behind] the
    memory at the place of the empty text searched for. *)
From Verif Require Import Base BaseLemmas StringSpec StringViewModel StringViewProofs StringViewProps.
From Verif Require Import StringModel StringProofs StringProps PathModel PathSpec PathProofs PathAllocModel PathAllocProps.

Lemma match_empty s after b behind i : sv_ok s -> i <= size s ->
  sv_match_at s after [] (b :: behind) i = (let! c := peek (s ++ after) i in Ret (c =? b)).
Proof.
  intros Hs Hi. unfold sv_match_at. destruct (peek (s ++ after) i) as [c| | | |]; cbn [bind]; try reflexivity.
  cbn [peek app nnth N.eqb bind]. rewrite (@size_nil N), N.add_0_r. unfold sv_ok in Hs. rewrite u16_small by lia.
  unfold sv_substring. cbv zeta. rewrite (N.min_l i) by lia. rewrite N.max_id, N.min_r, N.sub_diag by lia.
  destruct (ndrop i s); destruct (c =? b); reflexivity.
Qed.

Lemma loop_as_char s c after b behind : sv_ok s -> forall k i, i + N.of_nat k = size s + 1 ->
  sv_indexOf_loop k s (c :: after) [] (b :: behind) i = sv_indexOf_char_loop k (s ++ [c]) b i.
Proof.
  intros Hs. induction k as [|k IH]; intros i Hi; [reflexivity|]. cbn [sv_indexOf_loop sv_indexOf_char_loop].
  rewrite match_empty by (assumption || lia).
  assert (peek (s ++ c :: after) i = peek (s ++ [c]) i) as ->.
  { unfold peek. rewrite !nnth_app. destruct (N.ltb_spec i (size s)); [reflexivity|]. replace (i - size s) with 0 by lia. reflexivity. }
  destruct (peek (s ++ [c]) i) as [x| | | |]; cbn [bind]; try reflexivity. destruct (x =? b); [reflexivity|]. apply IH. lia.
Qed.

Lemma last_as_char s c after b behind : sv_ok s -> forall k i r, i + N.of_nat k = size s + 1 ->
  sv_lastIndexOf_loop k s (c :: after) [] (b :: behind) i r = sv_lastIndexOf_char_loop k (s ++ [c]) b i r.
Proof.
  intros Hs. induction k as [|k IH]; intros i r Hi; [reflexivity|]. cbn [sv_lastIndexOf_loop sv_lastIndexOf_char_loop].
  rewrite match_empty by (assumption || lia).
  assert (peek (s ++ c :: after) i = peek (s ++ [c]) i) as ->.
  { unfold peek. rewrite !nnth_app. destruct (N.ltb_spec i (size s)); [reflexivity|]. replace (i - size s) with 0 by lia. reflexivity. }
  destruct (peek (s ++ [c]) i) as [x| | | |]; cbn [bind]; try reflexivity. apply IH. lia.
Qed.

Lemma size_snoc (s : list N) c : size (s ++ [c]) = size s + 1.
Proof. now rewrite size_app. Qed.

Lemma indexOf_empty s c after b behind from : sv_ok s -> size s <> 65535 -> from <= size s ->
  sv_indexOf s (c :: after) [] (b :: behind) from = sv_indexOf_char (s ++ [c]) b from /\
  sv_lastIndexOf s (c :: after) [] (b :: behind) from = sv_lastIndexOf_char (s ++ [c]) b from.
Proof.
  intros Hs Hn Hf. unfold sv_indexOf, sv_indexOf_char, sv_lastIndexOf, sv_lastIndexOf_char.
  rewrite size_snoc, (@size_nil N), N.add_0_r, N.sub_0_r.
  destruct (N.ltb_spec (size s) from); [lia|]. destruct (N.ltb_spec (size s) 0); [lia|]. cbn [orb].
  destruct (N.ltb_spec (size s + 1) from); [lia|]. unfold sv_ok in Hs. rewrite u16_small by lia.
  split; [apply loop_as_char|apply last_as_char]; unfold sv_ok; lia.
Qed.

(** Found is the first place, from the one asked for on, where the text or the byte behind it
    shows the byte that lies at the empty text: an accident of memory. *)
Theorem C158_first : forall s c after b behind from, sv_ok s -> size s <> 65535 -> from <= size s ->
  exists o, sv_indexOf s (c :: after) [] (b :: behind) from = Ret o /\
    match o with
    | Some i => from <= i /\ occurs [b] (s ++ [c]) i /\ forall j, from <= j < i -> ~ occurs [b] (s ++ [c]) j
    | None => forall j, from <= j -> ~ occurs [b] (s ++ [c]) j
    end.
Proof. intros s c after b behind from Hs Hn Hf. rewrite (proj1 (indexOf_empty s c after b behind from Hs Hn Hf)). apply C21_indexOf_char. Qed.
Print Assumptions C158_first.

(** lastIndexOf gives the last such place. *)
Theorem C158_last : forall s c after b behind from, sv_ok s -> size s <> 65535 -> from <= size s ->
  exists o, sv_lastIndexOf s (c :: after) [] (b :: behind) from = Ret o /\
    match o with
    | Some i => from <= i /\ occurs [b] (s ++ [c]) i /\ forall j, i < j -> ~ occurs [b] (s ++ [c]) j
    | None => forall j, from <= j -> ~ occurs [b] (s ++ [c]) j
    end.
Proof. intros s c after b behind from Hs Hn Hf. rewrite (proj2 (indexOf_empty s c after b behind from Hs Hn Hf)). apply C21_lastIndexOf_char. Qed.
Print Assumptions C158_last.

(** So a text contains the empty text exactly when it, or the byte behind it, has that byte. *)
Theorem C158_contains : forall s c after b behind, sv_ok s -> size s <> 65535 ->
  exists r, sv_contains s (c :: after) [] (b :: behind) = Ret r /\ (r = true <-> In b s \/ c = b).
Proof.
  intros s c after b behind Hs Hn. unfold sv_contains. rewrite (proj1 (indexOf_empty s c after b behind 0 Hs Hn ltac:(lia))).
  destruct (indexOf_char_spec (s ++ [c]) b 0) as (o & -> & H). cbn [bind]. eexists. split; [reflexivity|].
  assert (E : In b s \/ c = b <-> exists i, occurs [b] (s ++ [c]) i).
  { setoid_rewrite occurs_char. setoid_rewrite nnth_nth_error.
    transitivity (In b (s ++ [c])); [rewrite in_app_iff; cbn; tauto|]. split.
    - intros X. apply In_nth_error in X as (i & X). exists (N.of_nat i). now rewrite Nat2N.id.
    - intros (i & X). now apply nth_error_In in X. }
  rewrite E. destruct o as [i|]; cbn in *; [split; [intros _; exists i; tauto|reflexivity]|]. split; [discriminate|].
  intros (i & O). exfalso. eapply H; [|exact O]. lia.
Qed.
Print Assumptions C158_contains.

(** Nothing is found behind the end of the text, nor anywhere in a text of the greatest size,
    whatever memory holds. *)
Theorem C158_nowhere : forall s after behind from, sv_ok s -> size s < from \/ size s = 65535 ->
  sv_indexOf s after [] behind from = Ret None /\ sv_lastIndexOf s after [] behind from = Ret None.
Proof.
  intros s after behind from Hs H. unfold sv_indexOf, sv_lastIndexOf. rewrite (@size_nil N), N.add_0_r, N.sub_0_r.
  destruct (N.ltb_spec (size s) from); [split; reflexivity|]. destruct H as [H|H]; [lia|]. rewrite H. cbn [N.ltb N.compare orb].
  change (u16 (65535 + 1)) with 0. split; reflexivity.
Qed.
Print Assumptions C158_nowhere.

(** When no byte at the empty text can be read, every other search is undefined. *)
Theorem C158_unreadable : forall s after from, sv_ok s -> size s <> 65535 -> from <= size s ->
  sv_indexOf s after [] [] from = UB /\ sv_lastIndexOf s after [] [] from = UB.
Proof.
  intros s after from Hs Hn Hf. unfold sv_indexOf, sv_lastIndexOf, sv_ok in *. rewrite (@size_nil N), N.add_0_r, N.sub_0_r.
  destruct (N.ltb_spec (size s) from); [lia|]. destruct (N.ltb_spec (size s) 0); [lia|]. cbn [orb].
  rewrite u16_small by lia. destruct (N.to_nat (size s + 1 - from)) as [|k] eqn:E; [lia|].
  assert (M : sv_match_at s after [] [] from = UB).
  { unfold sv_match_at, peek. destruct (nnth (s ++ after) from); reflexivity. }
  cbn [sv_indexOf_loop sv_lastIndexOf_loop]. rewrite M. split; reflexivity.
Qed.
Print Assumptions C158_unreadable.

(** When no byte behind the text can be read, the search is defined exactly if it ends inside
    the text; lastIndexOf never is. *)
Lemma loop_end s b behind : sv_ok s -> forall k i, i + N.of_nat k = size s + 1 -> i <= size s ->
  (sv_indexOf_loop k s [] [] (b :: behind) i <> UB <-> exists j, i <= j /\ nnth s j = Some b).
Proof.
  intros Hs. induction k as [|k IH]; intros i Hi Le; [lia|]. cbn [sv_indexOf_loop].
  rewrite match_empty by (assumption || lia). rewrite app_nil_r. unfold peek.
  destruct (nnth s i) as [x|] eqn:X; cbn [bind].
  - destruct (N.eqb_spec x b) as [->|Ne].
    + split; [intros _; exists i; split; [lia|exact X]|discriminate].
    + pose proof (nnth_Some_lt _ _ _ X). rewrite IH by lia. split; intros (j & J & E).
      * exists j. split; [lia|exact E].
      * exists j. split; [|exact E]. destruct (N.eq_dec i j) as [->|]; [congruence|lia].
  - apply nnth_None in X. split; [congruence|]. intros (j & J & E). apply nnth_Some_lt in E. lia.
Qed.
Lemma last_end s b behind : sv_ok s -> forall k i r, i + N.of_nat k = size s + 1 -> i <= size s ->
  sv_lastIndexOf_loop k s [] [] (b :: behind) i r = UB.
Proof.
  intros Hs. induction k as [|k IH]; intros i r Hi Le; [lia|]. cbn [sv_lastIndexOf_loop].
  rewrite match_empty by (assumption || lia). rewrite app_nil_r. unfold peek.
  destruct (nnth s i) as [x|] eqn:X; cbn [bind]; [|reflexivity]. pose proof (nnth_Some_lt _ _ _ X). apply IH; lia.
Qed.
Theorem C158_edge : forall s b behind from, sv_ok s -> size s <> 65535 -> from <= size s ->
  (sv_indexOf s [] [] (b :: behind) from <> UB <-> exists j, from <= j /\ occurs [b] s j) /\
  sv_lastIndexOf s [] [] (b :: behind) from = UB.
Proof.
  intros s b behind from Hs Hn Hf. unfold sv_indexOf, sv_lastIndexOf. rewrite (@size_nil N), N.add_0_r, N.sub_0_r.
  destruct (N.ltb_spec (size s) from); [lia|]. destruct (N.ltb_spec (size s) 0); [lia|]. cbn [orb].
  pose proof Hs as Hs'. unfold sv_ok in Hs'. rewrite u16_small by lia. split.
  - rewrite loop_end by (assumption || lia). setoid_rewrite occurs_char. reflexivity.
  - apply last_end; assumption || lia.
Qed.
Print Assumptions C158_edge.

(** A path contains the empty text exactly when its text, or the byte behind it, has the byte
    at the empty text. *)
Theorem C158_path : forall alloc p t c after b behind, path_toString alloc Delimiter p = Ret t -> size (str_view t) <> 65535 ->
  exists r, path_containsText alloc p (c :: after) [] (b :: behind) = Ret r /\ (r = true <-> In b (str_view t) \/ c = b).
Proof.
  intros alloc p t c after b behind H Hn. unfold path_containsText. rewrite H. cbn [bind].
  apply C158_contains; [exact (toString_small _ _ _ H)|exact Hn].
Qed.
Print Assumptions C158_path.

Example C158_ok : sv_indexOf [97; 98] [0] [] [98] 0 = Ret (Some 1) /\ sv_indexOf [97; 98] [0] [] [0] 0 = Ret (Some 2) /\
  sv_indexOf [97; 98] [0] [] [99] 0 = Ret None /\ sv_lastIndexOf [97; 98; 97] [98] [] [97] 0 = Ret (Some 2) /\
  path_containsText junk_heap (mkPath [[]; [97]] 4) [0] [] [47] = Ret true.
Proof. vm_compute. repeat split. Qed.
