From Verif Require Import Base BaseLemmas LexSpec LexProofs AtomModel StringSpec StringViewModel StringViewProofs.

(** ** C19 *)
Theorem C19_equals : forall a b, sv_equals a b = true <-> a = b.
Proof. exact sv_equals_spec. Qed.
Print Assumptions C19_equals.

Theorem C19_isEmpty : forall s, sv_empty s = true <-> s = [].
Proof. intros s. unfold sv_empty. rewrite N.eqb_eq. split; [apply size_0_nil|now intros ->]. Qed.
Print Assumptions C19_isEmpty.

(** substring is the list of the characters at indices from .. to-1 that exist. *)
Theorem C19_substring : forall s from to,
  sv_substring s from to = firstn (N.to_nat to - N.to_nat from) (skipn (N.to_nat from) s) /\
  sv_substring_from s from = skipn (N.to_nat from) s.
Proof.
  intros. rewrite substring_spec, substring_from_spec, ntake_firstn, !ndrop_skipn. split; [|reflexivity]. f_equal. lia.
Qed.
Print Assumptions C19_substring.

Theorem C19_startsWith : forall s p, sv_startsWith s p = true <-> exists r, s = p ++ r.
Proof.
  intros s p. unfold sv_startsWith. destruct (N.ltb_spec (size s) (size p)) as [L|L].
  - split; [discriminate|]. intros (r & ->). rewrite size_app in L. lia.
  - rewrite sv_equals_spec, substring_spec, N.sub_0_r, ndrop_0. split.
    + intros E. exists (ndrop (size p) s). rewrite E at 1. now rewrite ntake_ndrop.
    + intros (r & ->). now rewrite ntake_app_exact.
Qed.
Print Assumptions C19_startsWith.

Theorem C19_endsWith : forall s q, sv_endsWith s q = true <-> exists r, s = r ++ q.
Proof.
  intros s q. unfold sv_endsWith. destruct (N.ltb_spec (size s) (size q)) as [L|L].
  - split; [discriminate|]. intros (r & ->). rewrite size_app in L. lia.
  - rewrite sv_equals_spec, substring_from_spec. split.
    + intros E. exists (ntake (size s - size q) s). rewrite E at 2. now rewrite ntake_ndrop.
    + intros (r & ->). rewrite size_app. replace (size r + size q - size q) with (size r) by lia. now rewrite ndrop_app_exact.
Qed.
Print Assumptions C19_endsWith.

(** The single character overloads are right on non-empty views ... *)
Theorem C19_char_partial : forall s after c, s <> [] ->
  (exists b, sv_startsWith_char false s after c = Ret b /\ (b = true <-> exists r, s = c :: r)) /\
  (exists b, sv_endsWith_char false s c = Ret b /\ (b = true <-> exists r, s = r ++ [c])).
Proof.
  intros s after c H. split.
  - unfold sv_startsWith_char. destruct s as [|x s]; [congruence|]. change (peek ((x :: s) ++ after) 0) with (Ret x : outcome N).
    cbn [bind]. eexists. split; [reflexivity|]. rewrite N.eqb_eq. split; [intros ->; eauto|]. intros (r & E). congruence.
  - unfold sv_endsWith_char. pose proof (size_pos s H). cbn [orb]. destruct (N.eqb_spec (size s) 0); [lia|].
    unfold peek. rewrite (last_nnth s H). cbn [bind]. eexists. split; [reflexivity|]. rewrite N.eqb_eq.
    destruct (exists_last H) as (l & x & ->). rewrite last_last. split; [intros ->; eauto|].
    intros (r & E). apply app_inj_tail in E as (_ & ->). reflexivity.
Qed.
Print Assumptions C19_char_partial.
Example C19_char_ok : sv_endsWith_char false [97; 98] 98 = Ret true /\ sv_startsWith_char false [97; 98] [] 98 = Ret false.
Proof. split; reflexivity. Qed.

(** ... and wrong on empty ones: an empty view starts with whatever character follows
    it in memory, and it ends with NUL. *)
Theorem C19_char_refuted : forall c after,
  sv_startsWith_char false [] (c :: after) c = Ret true /\ sv_startsWith_char false [] [] c = UB /\
  sv_endsWith_char false [] 0 = Ret true /\ sv_startsWith_char true [] after 0 = Ret true.
Proof. intros. unfold sv_startsWith_char. cbn. rewrite N.eqb_refl. repeat split. Qed.
Print Assumptions C19_char_refuted.

(** ** C20 *)
(** On non-empty 7-bit strings without NUL, compareTo is a total order, but it is the
    shortest-first one and not the dictionary order. *)
Theorem C20_compareTo_shortlex_partial : forall a b, sv_ok a -> sv_ok b -> plain a -> plain b -> b <> [] ->
  exists z, sv_compareTo a b = Ret z /\
    ((z < 0)%Z <-> shortlex_lt a b) /\ (z = 0%Z <-> a = b) /\ ((0 < z)%Z <-> shortlex_lt b a).
Proof. exact compareTo_plain. Qed.
Print Assumptions C20_compareTo_shortlex_partial.
Theorem C20_shortlex_is_order_partial :
  (forall a, ~ shortlex_lt a a) /\ (forall a b c, shortlex_lt a b -> shortlex_lt b c -> shortlex_lt a c) /\
  (forall a b, shortlex_lt a b \/ a = b \/ shortlex_lt b a).
Proof. exact (conj shortlex_irrefl (conj shortlex_trans shortlex_total)). Qed.
Print Assumptions C20_shortlex_is_order_partial.
(** Equal lengths and no NUL: lexicographic by unsigned bytes. *)
Theorem C20_same_length_lexicographic_partial : forall a b, length a = length b -> Forall (fun c => c <> 0) a ->
  exists z, sv_compareTo a b = Ret z /\ ((z < 0)%Z <-> lex_lt a b) /\ (z = 0%Z <-> a = b) /\ ((0 < z)%Z <-> lex_lt b a).
Proof.
  intros a b L NZ. unfold sv_compareTo. destruct (N.ltb_spec (size b) (size a)) as [X|X]; [unfold size in X; lia|].
  destruct (N.ltb_spec (size a) (size b)) as [Y|Y]; [unfold size in Y; lia|]. eexists. split; [reflexivity|]. now apply strncmp_spec.
Qed.
Print Assumptions C20_same_length_lexicographic_partial.
Example C20_ok : plain [97; 98] /\ plain [99] /\ sv_compareTo [97; 98] [99] = Ret 97%Z /\ sv_compareTo [97; 98] [97; 99] = Ret (-1)%Z.
Proof. repeat split; repeat constructor. Qed.

(** The claim in full is false in every part. *)
Theorem C20_compareTo_refuted :
  (* not lexicographic: "ba" is reported greater than "c" *)
  (lex_lt [98; 97] [99] /\ sv_compareTo [98; 97] [99] = Ret 98%Z) /\
  (* zero for different strings *)
  (sv_compareTo [0; 5] [7] = Ret 0%Z /\ sv_compareTo [0; 1] [0; 2] = Ret 0%Z) /\
  (* not antisymmetric: each of two strings is greater than the other *)
  (sv_compareTo [1; 255] [97] = Ret 1%Z /\ sv_compareTo [97] [1; 255] = Ret 1%Z) /\
  (* a cycle x < y < a < x *)
  (sv_compareTo [97] [98] = Ret (-1)%Z /\ sv_compareTo [98] [255; 1] = Ret (-1)%Z /\ sv_compareTo [255; 1] [97] = Ret (-1)%Z) /\
  (* comparing with the empty string ends the program *)
  (forall c s, sv_ok (c :: s) -> sv_compareTo (c :: s) [] = Terminates).
Proof.
  split; [split; [exists 0%nat; cbn; split; [reflexivity|lia]|reflexivity]|]. do 3 (split; [repeat split|]).
  intros c s H. unfold sv_compareTo, sv_ok in *. rewrite (@size_nil N).
  destruct (N.ltb_spec 0 (size (c :: s))) as [L|L]; [|rewrite size_cons in L; lia].
  unfold sv_charAt. change (sub16 0 1) with 65535. destruct (N.leb_spec (size (c :: s)) 65535); [reflexivity|lia].
Qed.
Print Assumptions C20_compareTo_refuted.

(** ** C21 *)
Theorem C21_indexOf : forall s after d da from, sv_ok s -> d <> [] ->
  exists o, sv_indexOf s after d da from = Ret o /\
    match o with
    | Some i => from <= i /\ occurs d s i /\ forall j, from <= j < i -> ~ occurs d s j
    | None => forall j, from <= j -> ~ occurs d s j
    end.
Proof. exact indexOf_spec. Qed.
Print Assumptions C21_indexOf.
Theorem C21_lastIndexOf : forall s after d da from, sv_ok s -> d <> [] ->
  exists o, sv_lastIndexOf s after d da from = Ret o /\
    match o with
    | Some i => from <= i /\ occurs d s i /\ forall j, i < j -> ~ occurs d s j
    | None => forall j, from <= j -> ~ occurs d s j
    end.
Proof. exact lastIndexOf_spec. Qed.
Print Assumptions C21_lastIndexOf.
Theorem C21_indexOf_char : forall s c from,
  exists o, sv_indexOf_char s c from = Ret o /\
    match o with
    | Some i => from <= i /\ occurs [c] s i /\ forall j, from <= j < i -> ~ occurs [c] s j
    | None => forall j, from <= j -> ~ occurs [c] s j
    end.
Proof. exact indexOf_char_spec. Qed.
Print Assumptions C21_indexOf_char.
Theorem C21_lastIndexOf_char : forall s c from,
  exists o, sv_lastIndexOf_char s c from = Ret o /\
    match o with
    | Some i => from <= i /\ occurs [c] s i /\ forall j, i < j -> ~ occurs [c] s j
    | None => forall j, from <= j -> ~ occurs [c] s j
    end.
Proof. exact lastIndexOf_char_spec. Qed.
Print Assumptions C21_lastIndexOf_char.
Theorem C21_contains : forall s after d da c, sv_ok s -> d <> [] ->
  (exists b, sv_contains s after d da = Ret b /\ (b = true <-> exists i, occurs d s i)) /\
  (exists b, sv_contains_char s c = Ret b /\ (b = true <-> In c s)).
Proof.
  intros s after d da c Hs Hd. split.
  - unfold sv_contains. destruct (indexOf_spec s after d da 0 Hs Hd) as (o & -> & H). cbn [bind]. eexists. split; [reflexivity|].
    destruct o as [i|]; cbn in *; [split; [intros _; exists i; tauto|reflexivity]|]. split; [discriminate|].
    intros (i & O). exfalso. eapply H; [|exact O]. lia.
  - unfold sv_contains_char. destruct (indexOf_char_spec s c 0) as (o & -> & H). cbn [bind]. eexists. split; [reflexivity|].
    assert (E : In c s <-> exists i, occurs [c] s i).
    { setoid_rewrite occurs_char. setoid_rewrite nnth_nth_error. split.
      - intros X. apply In_nth_error in X as (i & X). exists (N.of_nat i). now rewrite Nat2N.id.
      - intros (i & X). now apply nth_error_In in X. }
    rewrite E. destruct o as [i|]; cbn in *; [split; [intros _; exists i; tauto|reflexivity]|]. split; [discriminate|].
    intros (i & O). exfalso. eapply H; [|exact O]. lia.
Qed.
Print Assumptions C21_contains.
Example C21_ok : sv_indexOf [97;98;97;98;97] [] [97;98] [] 1 = Ret (Some 2) /\
  sv_lastIndexOf [97;98;97;98;97] [] [98;97] [] 0 = Ret (Some 3) /\ sv_indexOf [97;98;97] [] [98;98] [] 0 = Ret None.
Proof. repeat split. Qed.
(** Outside the claim: searching for the empty string reads a character that belongs to
    neither string. *)
Theorem C21_empty_needle_reads_outside : forall s from, sv_ok s -> size s <> 65535 -> from <= size s ->
  sv_indexOf s [] [] [] from = UB /\ sv_lastIndexOf s [] [] [] from = UB.
Proof.
  intros s from Hs Hn Hf. unfold sv_indexOf, sv_lastIndexOf, sv_ok in *. rewrite (@size_nil N), N.add_0_r, N.sub_0_r.
  destruct (N.ltb_spec (size s) from); [lia|]. destruct (N.ltb_spec (size s) 0); [lia|]. cbn [orb].
  rewrite u16_small by lia. destruct (N.to_nat (size s + 1 - from)) as [|k] eqn:E; [lia|].
  assert (M : sv_match_at s [] [] [] from = UB).
  { unfold sv_match_at. rewrite !app_nil_r. unfold peek. destruct (nnth s from); reflexivity. }
  cbn [sv_indexOf_loop sv_lastIndexOf_loop]. rewrite M. split; reflexivity.
Qed.
Print Assumptions C21_empty_needle_reads_outside.

(** ** C22 *)
(** The pieces are exactly those between the greedy left-to-right occurrences; the
    three-argument form also passes their consecutive indices.  The count is right
    unless there are 65536 pieces. *)
Theorem C22_split_partial : forall d s fuel, sv_ok s -> d <> [] -> (length s < fuel)%nat ->
  exists ps, splits d s ps /\
    sv_split fuel d s = Ret (ps, N.of_nat (length ps) mod 2 ^ 16) /\
    sv_split3 fuel d s = Ret (map (fun '(i, p) => (p, N.of_nat i, N.of_nat (length ps) mod 2 ^ 16)) (combine (seq 0 (length ps)) ps),
                              N.of_nat (length ps) mod 2 ^ 16).
Proof.
  intros d s fuel Hs Hd Hf. destruct (split_spec fuel d s Hs Hd Hf) as (ps & E & S).
  destruct (split3_spec fuel d s Hs Hd Hf) as (ps' & E' & S'). pose proof (splits_det d s ps ps' Hd S S') as <-.
  exists ps. split; [exact S|]. split; [exact E|]. rewrite E'. do 2 f_equal. clear. change (u16 (N.of_nat (length ps))) with (N.of_nat (length ps) mod 2 ^ 16).
  generalize (N.of_nat (length ps) mod 2 ^ 16). intros n.
  change 0 with (N.of_nat 0). generalize 0%nat. induction ps as [|p ps IH]; intros k; [reflexivity|].
  cbn [indexed length seq combine map]. f_equal. rewrite <- IH. f_equal. lia.
Qed.
Print Assumptions C22_split_partial.
Theorem C22_split_char_partial : forall c s, sv_ok s ->
  exists ps, splits [c] s ps /\ sv_split_char c s = Ret (ps, N.of_nat (length ps) mod 2 ^ 16).
Proof. intros c s Hs. destruct (split_char_spec c s Hs) as (ps & E & S). eauto. Qed.
Print Assumptions C22_split_char_partial.
(** What that means: the pieces are delimiter-free, glue back to the string, are
    uniquely determined and at most |s| / |d| + 1 in number. *)
Theorem C22_pieces : forall d s ps, d <> [] -> splits d s ps ->
  glue d ps = s /\ Forall (fun p => forall i, ~ occurs d p i) ps /\
  (forall qs, splits d s qs -> qs = ps) /\
  (N.of_nat (length ps) - 1) * N.of_nat (length d) <= N.of_nat (length s).
Proof.
  intros d s ps Hd S. split; [exact (splits_glue d s ps S)|]. split; [exact (splits_free d s ps Hd S)|].
  split; [|exact (splits_length d s ps S)]. intros qs Q. exact (splits_det d s qs ps Hd Q S).
Qed.
Print Assumptions C22_pieces.
(** Hence the count is right for every string of fewer than 65535 characters. *)
Theorem C22_count_partial : forall d s fuel, size s < 65535 -> d <> [] -> (length s < fuel)%nat ->
  exists ps, splits d s ps /\ sv_split fuel d s = Ret (ps, N.of_nat (length ps)).
Proof.
  intros d s fuel Hs Hd Hf. destruct (C22_split_partial d s fuel) as (ps & S & E & _); auto. { unfold sv_ok. lia. }
  exists ps. split; [exact S|]. rewrite E. rewrite N.mod_small; [reflexivity|].
  pose proof (splits_length _ _ _ S). pose proof (size_pos d Hd). unfold size in *. nia.
Qed.
Print Assumptions C22_count_partial.
Theorem C22_empty_delimiter : forall s fuel, sv_ok s -> sv_split fuel [] s = Ret (map (fun c => [c]) s, size s).
Proof.
  intros s fuel Hs. unfold sv_split. rewrite (@size_nil N). destruct (N.ltb_spec (size s) 0); [lia|]. cbn [N.eqb].
  rewrite split_chars_spec; auto; [now rewrite ndrop_0|]. unfold size. lia.
Qed.
Print Assumptions C22_empty_delimiter.
Example C22_ok : sv_split 9 [44;44] [97;44;44;44;98] = Ret ([[97];[44;98]], 2) /\
  sv_split3 9 [44] [97;44;98] = Ret ([([97], 0, 2); ([98], 1, 2)], 2) /\ sv_split_char 44 [44;97] = Ret ([[];[97]], 2).
Proof. repeat split. Qed.
(** A string of 65535 separators is reported to have zero pieces. *)
Theorem C22_count_refuted : forall c,
  exists s ps, sv_ok s /\ splits [c] s ps /\ length ps = N.to_nat 65536 /\ sv_split_char c s = Ret (ps, 0).
Proof.
  intros c. set (n := N.to_nat 65535). exists (repeat c n), (repeat [] (S n)).
  assert (OK : sv_ok (repeat c n)) by (unfold sv_ok, size; rewrite repeat_length; unfold n; lia).
  split; [exact OK|]. pose proof (splits_repeat c n) as S. split; [exact S|]. rewrite repeat_length.
  split; [unfold n; lia|]. destruct (C22_split_char_partial c _ OK) as (ps & S' & ->).
  rewrite (splits_det [c] _ _ _ ltac:(discriminate) S' S), repeat_length.
  replace (N.of_nat (Datatypes.S n)) with 65536 by (unfold n; lia). reflexivity.
Qed.
Print Assumptions C22_count_refuted.

(** ** C23 *)
(** split(StringView, f) and split(char, f) end for every string and delimiter ... *)
Theorem C23_split_terminates_partial : forall d s c, sv_ok s ->
  (forall fuel, (length s < fuel)%nat -> exists r, sv_split fuel d s = Ret r) /\ (exists r, sv_split_char c s = Ret r) /\
  (d <> [] -> forall fuel, (length s < fuel)%nat -> exists r, sv_split3 fuel d s = Ret r).
Proof.
  intros d s c Hs. split; [|split].
  - intros fuel Hf. destruct d as [|x d]; [rewrite C22_empty_delimiter by exact Hs; eauto|].
    destruct (split_spec fuel (x :: d) s Hs ltac:(discriminate) Hf) as (ps & -> & _). eauto.
  - destruct (split_char_spec c s Hs) as (ps & -> & _). eauto.
  - intros Hd fuel Hf. destruct (split3_spec fuel d s Hs Hd Hf) as (ps & -> & _). eauto.
Qed.
Print Assumptions C23_split_terminates_partial.
(** ... the overload with the three-argument callback never ends for the empty
    delimiter and a non-empty string: no number of iterations is enough. *)
Theorem C23_split3_terminates_refuted : forall s fuel, sv_ok s -> s <> [] -> sv_split3 fuel [] s = OutOfFuel.
Proof.
  intros s fuel Hs H. pose proof (size_pos s H). unfold sv_ok in Hs. unfold sv_split3.
  assert (L : forall f c, sv_count_loop f [] s 0 c = OutOfFuel).
  { induction f as [|f IH]; intros c; [reflexivity|]. cbn [sv_count_loop]. rewrite (@size_nil N), N.add_0_r.
    destruct (N.ltb_spec 0 (size s)); [|lia]. destruct (N.leb_spec 0 (size s)); [|lia]. cbn [andb].
    rewrite substring_spec. change (u16 0 - 0) with 0. rewrite ntake_0. cbn [sv_equals].
    change (u16 (sub16 0 1 + 1)) with 0. apply IH. }
  now rewrite L.
Qed.
Print Assumptions C23_split3_terminates_refuted.
Example C23_ok : exists r, sv_split 3 [] [97;98] = Ret r.
Proof. eexists. reflexivity. Qed.

(** ** C24 *)
Theorem C24_trim : forall s, exists t, sv_trim s = Ret t /\ trimmed whitespace s t /\ sv_trim t = Ret t.
Proof.
  intros s. unfold sv_trim. destruct (trim_by_spec isspace s) as (t & E & T). exists t. split; [exact E|].
  split; [eapply trimmed_ext; [|exact T]; apply isspace_spec|].
  destruct (trim_by_spec isspace t) as (t' & E' & T'). rewrite E'. f_equal. symmetry.
  eapply trimmed_unique; [|exact T']. exact (trimmed_self _ _ _ T).
Qed.
Print Assumptions C24_trim.
Theorem C24_trim_char : forall c s, exists t, sv_trim_char c s = Ret t /\ trimmed (fun x => x = c) s t /\ sv_trim_char c t = Ret t.
Proof.
  intros c s. unfold sv_trim_char. destruct (trim_by_spec (fun x => x =? c) s) as (t & E & T). exists t. split; [exact E|].
  split; [eapply trimmed_ext; [|exact T]; intros x; apply N.eqb_eq|].
  destruct (trim_by_spec (fun x => x =? c) t) as (t' & E' & T'). rewrite E'. f_equal. symmetry.
  eapply trimmed_unique; [|exact T']. exact (trimmed_self _ _ _ T).
Qed.
Print Assumptions C24_trim_char.
(** The specification determines the result. *)
Theorem C24_trimmed_unique : forall P s t t', trimmed P s t -> trimmed P s t' -> t = t'.
Proof. exact trimmed_unique. Qed.
Print Assumptions C24_trimmed_unique.
Example C24_ok : sv_trim [32;9;97;32;98;10] = Ret [97;32;98] /\ sv_trim [32;32] = Ret [] /\ sv_trim_char 45 [45;97;45] = Ret [97].
Proof. repeat split. Qed.

(** ** C25 *)
Theorem C25_hash_polynomial : forall s, bytes_ok s -> Z.of_N (sv_hashCode s) = (poly31 0 s mod 2 ^ 64)%Z.
Proof. intros s H. unfold sv_hashCode. apply hash_spec; auto. Qed.
Print Assumptions C25_hash_polynomial.
Theorem C25_hash_respects_equality : forall a b, sv_equals a b = true -> sv_hashCode a = sv_hashCode b.
Proof. intros a b H. apply sv_equals_spec in H. now subst. Qed.
Print Assumptions C25_hash_respects_equality.
Example C25_ok : sv_hashCode [97; 98] = 3105 /\ poly31 0 [97;98] = 3105%Z /\ sv_hashCode [255] = 2 ^ 64 - 1.
Proof. repeat split. Qed.
