(** C137: StringBuilder whatever the length of the text.  Sizes and indices are 16 bits
    wide, buffers are not. *)
From Verif Require Import Base BaseLemmas MemViewModel MemViewSpec MemViewProofs ByteIOModel ByteIOSpec ByteIOProofs.
From Verif Require Import Base16Proofs StringSpec StringModel StringViewModel StringViewProofs StringProofs.
From Verif Require Import FmtModel FmtSpec FmtProofs BuilderModel BuilderSpec BuilderProofs.
Ltac Zify.zify_post_hook ::= Z.div_mod_to_equations.

(** As much of a text as a 16-bit length can say. *)
Definition told (t : list N) : list N := firstn (N.to_nat (size t mod 2 ^ 16)) t.

Lemma view_any cap w t : holds cap w t -> sb_view w = told t.
Proof.
  intros (A & B & C & D & E & F). unfold sb_view, w_viewWritten, view_slice, storage_view, told. cbn [v_size v_addr].
  rewrite A, C, F, ntake_firstn. unfold u16. do 3 f_equal. lia.
Qed.

(** Every query of a builder after every history of appends, [t] being the text of the
    pieces that fitted. *)
Theorem C137_queries : forall host_be buf ps ts, size buf < 2 ^ 64 -> Forall piece_ok ps -> Forall2 renders ps ts ->
  let t := accumulate (size buf) [] (combine ps ts) in
  exists w, sb_appends host_be (sb_make buf) ps = Ret w /\
    sb_view w = told t /\ sb_length w = size t mod 2 ^ 16 /\ (sb_empty w = true <-> t = []) /\
    sb_remaining w = (size buf - size t) mod 2 ^ 16 /\
    (forall from to, sb_substring w from to = told (range from to t)) /\
    str_view (fst (sb_build w)) = told t.
Proof.
  intros host_be buf ps ts H F R t. destruct (appends_spec host_be (size buf) ps (sb_make buf) [] (holds_make buf H) F) as (w & E & K).
  exists w. split; [exact E|]. unfold t. rewrite (renders_map _ _ R). clear t. set (t := accumulate _ _ _) in *.
  split; [now apply (view_any (size buf))|]. destruct K as (A & B & C & D & G & P).
  assert (Q : sb_length w = size t mod 2 ^ 16) by (unfold sb_length, u16; now rewrite C).
  split; [exact Q|]. split; [|split; [|split]].
  - unfold sb_empty. rewrite C, N.eqb_eq. split; [apply size_0_nil|now intros ->].
  - unfold sb_remaining, w_remaining, u16. rewrite B, C, sub64_le by lia. reflexivity.
  - intros from to.
    assert (S : contents (w_buf w) (w_viewWritten w) = t).
    { unfold w_viewWritten. rewrite slice_contents by apply storage_valid. rewrite storage_contents, range_spec, ndrop_0, N.sub_0_r, C. exact P. }
    assert (Y : valid (w_buf w) (w_viewWritten w)).
    { unfold w_viewWritten. apply slice_valid. apply storage_valid. }
    rewrite <- S, <- slice_contents by exact Y. unfold sb_substring, told.
    pose proof (slice_valid _ _ from to Y) as Z. set (v := view_slice _ _ _) in *.
    unfold contents, valid in *. destruct (v_addr v) as [a|]; [|now rewrite firstn_nil].
    assert (size (firstn (N.to_nat (v_size v)) (skipn (N.to_nat a) (w_buf w))) = v_size v) as ->.
    { unfold size in *. rewrite firstn_length, skipn_length. lia. }
    rewrite ntake_firstn, ndrop_skipn, firstn_firstn. unfold u16. f_equal. lia.
  - unfold sb_build, str_view. cbn [fst st_buf st_size]. rewrite Q, ntake_firstn. unfold told.
    rewrite ntake_firstn in P. rewrite <- P at 3. rewrite firstn_firstn. f_equal. lia.
Qed.
Print Assumptions C137_queries.

(** All is well exactly when the text is shorter than 2^16 characters. *)
Theorem C137_told : forall t, told t = t <-> size t < 2 ^ 16.
Proof.
  intros t. unfold told. split; intros H.
  - apply (f_equal size) in H. unfold size in H at 1. rewrite firstn_length in H. unfold size in *. lia.
  - rewrite N.mod_small by exact H. unfold size. rewrite Nat2N.id. apply firstn_all.
Qed.
Print Assumptions C137_told.

(** ** Searching *)

Lemma index_loop_hit ch t : char_wf ch -> 65535 + size (char_bytes ch) < size t < 2 ^ 64 -> forall k fuel i, (k < fuel)%nat -> i < 2 ^ 16 ->
  (forall m, (m < k)%nat -> ~ occurs (char_bytes ch) t ((i + N.of_nat m) mod 2 ^ 16)) ->
  sb_index_loop fuel (reader_make t) ch i =
    if list_eqb (overwrite [0;0;0;0] 0 (ntake (char_count 4 ch) (ndrop ((i + N.of_nat k) mod 2 ^ 16) t))) ch then Ret (Some ((i + N.of_nat k) mod 2 ^ 16))
    else sb_index_loop (fuel - k - 1) (reader_make t) ch ((i + N.of_nat k + 1) mod 2 ^ 16).
Proof.
  intros W L. assert (C : size (char_bytes ch) = char_count 4 ch).
  { unfold char_bytes. rewrite size_ntake. destruct (char_count_spec 4 ch) as (A & B & _). lia. }
  assert (F : Forall (fun b => b <> 0) (char_bytes ch)) by (unfold char_bytes; apply (char_count_spec 4 ch)).
  rewrite C in L. induction k as [|k IH]; intros fuel i Hf Hi M; (destruct fuel as [|fuel]; [lia|]); cbn [sb_index_loop reader_make r_lim];
    (destruct (N.ltb_spec (i + char_count 4 ch) (size t)); [|lia]);
    rewrite r_read_at_spec by (cbn [reader_make r_lim r_buf]; lia); cbn [bind fst snd reader_make r_buf].
  - cbn [N.of_nat]. rewrite N.add_0_r, (N.mod_small i) by lia. replace (S fuel - 0 - 1)%nat with fuel by lia. reflexivity.
  - assert (S : size (ntake (char_count 4 ch) (ndrop i t)) = size (char_bytes ch)) by (rewrite size_ntake, size_ndrop; lia).
    pose proof (zeros_overwrite ch _ W S F) as Z.
    destruct (list_eqb (overwrite [0;0;0;0] 0 (ntake (char_count 4 ch) (ndrop i t))) ch).
    + exfalso. apply (M 0%nat); [lia|]. apply occurs_alt. cbn [N.of_nat]. rewrite N.add_0_r, N.mod_small by lia. rewrite C. split; [lia|]. now apply Z.
    + change (mkReader 0 (size t) t) with (reader_make t). rewrite IH; [|lia|unfold u16; lia|].
      * replace ((u16 (i + 1) + N.of_nat k) mod 2 ^ 16) with ((i + N.of_nat (Datatypes.S k)) mod 2 ^ 16) by (unfold u16; lia).
        replace ((u16 (i + 1) + N.of_nat k + 1) mod 2 ^ 16) with ((i + N.of_nat (Datatypes.S k) + 1) mod 2 ^ 16) by (unfold u16; lia).
        reflexivity.
      * intros m Hm. specialize (M (Datatypes.S m)). replace ((u16 (i + 1) + N.of_nat m) mod 2 ^ 16) with ((i + N.of_nat (Datatypes.S m)) mod 2 ^ 16) by (unfold u16; lia).
        apply M. lia.
Qed.
Lemma index_loop_none ch t : char_wf ch -> 65535 + size (char_bytes ch) < size t < 2 ^ 64 ->
  (forall j, j < 2 ^ 16 -> ~ occurs (char_bytes ch) t j) -> forall fuel i, i < 2 ^ 16 -> sb_index_loop fuel (reader_make t) ch i = OutOfFuel.
Proof.
  intros W L N0. induction fuel as [|fuel IH]; intros i Hi; [reflexivity|].
  rewrite (index_loop_hit ch t W L 0) by (try lia; intros m Hm; lia). cbn [N.of_nat]. rewrite N.add_0_r, N.mod_small by exact Hi.
  assert (C : size (char_bytes ch) = char_count 4 ch).
  { unfold char_bytes. rewrite size_ntake. destruct (char_count_spec 4 ch) as (A & B & _). lia. }
  assert (F : Forall (fun b => b <> 0) (char_bytes ch)) by (unfold char_bytes; apply (char_count_spec 4 ch)).
  assert (S : size (ntake (char_count 4 ch) (ndrop i t)) = size (char_bytes ch)) by (rewrite size_ntake, size_ndrop; lia).
  pose proof (zeros_overwrite ch _ W S F) as Z. destruct (list_eqb _ ch).
  - exfalso. apply (N0 i Hi). apply occurs_alt. rewrite C. split; [lia|]. now apply Z.
  - replace (Datatypes.S fuel - 0 - 1)%nat with fuel by lia. apply IH. lia.
Qed.

(** The first [k] with a property below a bound. *)
Lemma first_below (P : nat -> Prop) (D : forall k, P k \/ ~ P k) n : (exists k, (k < n)%nat /\ P k) -> exists k, (k < n)%nat /\ P k /\ forall m, (m < k)%nat -> ~ P m.
Proof.
  assert ((exists k, (k < n)%nat /\ P k /\ forall m, (m < k)%nat -> ~ P m) \/ forall m, (m < n)%nat -> ~ P m) as [G|G].
  { induction n as [|n [(k & H & Q)|IH]]; [right; intros; lia|left; exists k; split; [lia|exact Q]|].
    destruct (D n) as [X|X]; [left; exists n; split; [lia|]; split; [exact X|exact IH]|]. right. intros m Hm. destruct (Nat.eq_dec m n) as [->|]; [exact X|]. apply IH. lia. }
  - intros _. exact G.
  - intros (k & Hk & Pk). exfalso. now apply (G k).
Qed.
Lemma occurs_dec c t j : occurs c t j \/ ~ occurs c t j.
Proof.
  destruct (N.leb_spec (j + size c) (size t)) as [L|L].
  - destruct (list_eq_dec N.eq_dec (ntake (size c) (ndrop j t)) c) as [E|E]; [left|right]; rewrite occurs_alt; tauto.
  - right. rewrite occurs_alt. lia.
Qed.

(** Where a character is found.  As long as every index in question fits 16 bits this is
    its first occurrence at or after [from], the very end of the text excepted.  In a
    longer text the search wraps around: it finds the first occurrence at
    [from], [from + 1], ... counted modulo 2^16, and it never returns if there is none. *)
Theorem C137_indexOf : forall host_be buf ps ts ch from, size buf < 2 ^ 64 -> Forall piece_ok ps -> Forall2 renders ps ts ->
  char_wf ch -> from < 2 ^ 16 ->
  let t := accumulate (size buf) [] (combine ps ts) in let c := char_bytes ch in
  exists w, sb_appends host_be (sb_make buf) ps = Ret w /\
  (size t <= 65535 + size c -> forall fuel, 2 ^ 17 <= N.of_nat fuel -> exists o, sb_indexOf fuel w ch from = Ret o /\
     match o with
     | Some i => from <= i /\ i + size c < size t /\ occurs c t i /\ forall j, from <= j < i -> ~ occurs c t j
     | None => forall j, from <= j -> occurs c t j -> j + size c = size t
     end) /\
  (65535 + size c < size t ->
     (forall j, j < 2 ^ 16 -> ~ occurs c t j) -> forall fuel, sb_indexOf fuel w ch from = OutOfFuel) /\
  (65535 + size c < size t -> forall j, j < 2 ^ 16 -> occurs c t j ->
     exists k, k < 2 ^ 16 /\ (forall fuel, 2 ^ 17 <= N.of_nat fuel -> sb_indexOf fuel w ch from = Ret (Some ((from + k) mod 2 ^ 16))) /\
       occurs c t ((from + k) mod 2 ^ 16) /\ forall m, m < k -> ~ occurs c t ((from + m) mod 2 ^ 16)).
Proof.
  intros host_be buf ps ts ch from H F R W Hf t c.
  destruct (appends_spec host_be (size buf) ps (sb_make buf) [] (holds_make buf H) F) as (w & E & K).
  exists w. split; [exact E|]. unfold t. rewrite (renders_map _ _ R). clear t. set (t := accumulate _ _ _) in *.
  destruct K as (A & B & C & D & G & P). unfold sb_indexOf. rewrite C, P. split; [|split].
  - intros L fuel Fu. assert (C4 : size c <= 4) by (unfold c, char_bytes; rewrite size_ntake; destruct (char_count_spec 4 ch) as (? & ? & _); lia).
    destruct (index_loop_spec ch t W) with (fuel := fuel) (i := from) as (o & X & Q); [exact L|exact Hf|lia|].
    exists o. split; [exact X|]. destruct o as [j|].
    * destruct Q as (Q1 & Q2 & Q3 & Q4). repeat split; try assumption.
      -- apply occurs_alt. split; [fold c in Q2; lia|exact Q3].
      -- intros m Hm O. apply occurs_alt in O as [_ O]. now apply (Q4 m).
    * intros m Hm O. apply occurs_alt in O as [O1 O2]. destruct (N.eq_dec (m + size c) (size t)); [assumption|].
      exfalso. apply (Q m); try assumption. fold c. lia.
  - intros L N0 fuel. apply index_loop_none; auto; unfold c in *; lia.
  - intros L j Hj O.
    destruct (first_below (fun k => occurs c t ((from + N.of_nat k) mod 2 ^ 16)) (fun k => occurs_dec _ _ _) (N.to_nat (2 ^ 16))) as (k & Hk & Ok & M).
    { exists (N.to_nat ((j + 2 ^ 16 - from) mod 2 ^ 16)). split; [lia|]. rewrite N2Nat.id. replace ((from + _) mod 2 ^ 16) with j; [exact O|].
      rewrite N.add_mod_idemp_r by lia. replace (from + (j + 2 ^ 16 - from)) with (j + 1 * 2 ^ 16) by lia. rewrite N.mod_add by lia. symmetry. now apply N.mod_small. }
    exists (N.of_nat k). split; [lia|]. split; [|split; [exact Ok|]].
    + intros fuel Fu. rewrite (index_loop_hit ch t W) with (k := k); auto; try (unfold c in *; lia).
      assert (Cc : size (char_bytes ch) = char_count 4 ch).
      { unfold char_bytes. rewrite size_ntake. destruct (char_count_spec 4 ch) as (? & ? & _). lia. }
      assert (Fz : Forall (fun b => b <> 0) (char_bytes ch)) by (unfold char_bytes; apply (char_count_spec 4 ch)).
      apply occurs_alt in Ok as (O1 & O2). rewrite <- Cc. fold c in O2 |- *. rewrite O2.
      destruct (zeros_overwrite ch c W eq_refl Fz) as (_ & Z). now rewrite Z.
    + intros m Hm. specialize (M (N.to_nat m)). rewrite N2Nat.id in M. apply M. lia.
Qed.
Print Assumptions C137_indexOf.

(** A text of 65600 characters: it is told as its first 64, and looking for a character it
    does not contain never ends. *)
Lemma long_text buf s s2 : size buf = 65600 -> size s = 65500 -> size s2 = 100 -> ~ In 98 s -> ~ In 98 s2 ->
  Forall piece_ok [PText s; PText s2] /\ Forall2 renders [PText s; PText s2] [s; s2] /\ char_wf [98; 0; 0; 0] /\
  exists w, sb_appends false (sb_make buf) [PText s; PText s2] = Ret w /\ sb_length w = 64 /\ sb_view w = firstn 64 (s ++ s2) /\
    forall fuel, sb_indexOf fuel w [98; 0; 0; 0] 3 = OutOfFuel.
Proof.
  intros B Ls L2 N1 N2. assert (Forall piece_ok [PText s; PText s2]) as F.
  { constructor; [cbn [piece_ok]; rewrite Ls; reflexivity|]. constructor; [cbn [piece_ok]; rewrite L2; reflexivity|constructor]. }
  assert (Forall2 renders [PText s; PText s2] [s; s2]) as R by (repeat constructor).
  assert (char_wf [98; 0; 0; 0]) as W by (exists 3%nat; split; reflexivity).
  split; [exact F|]. split; [exact R|]. split; [exact W|].
  assert (accumulate (size buf) [] (combine [PText s; PText s2] [s; s2]) = s ++ s2) as T.
  { rewrite B. cbn [combine accumulate spare]. rewrite (@size_nil N), Ls, L2. change (0 + 65500 + 0 <=? 65600) with true. cbv iota.
    change ([] ++ s) with s. rewrite Ls. change (65500 + 100 + 0 <=? 65600) with true. reflexivity. }
  destruct (C137_queries false buf _ _ ltac:(rewrite B; reflexivity) F R) as (w & E & V & L & _).
  destruct (C137_indexOf false buf _ _ _ 3 ltac:(rewrite B; reflexivity) F R W ltac:(reflexivity)) as (w2 & E2 & _ & N0 & _).
  assert (w2 = w) as -> by congruence. rewrite T in *. unfold told in V. rewrite size_app, Ls, L2 in *. change ((65500 + 100) mod 2 ^ 16) with 64 in *.
  exists w. split; [exact E|]. split; [exact L|]. split; [exact V|].
  apply N0; [reflexivity|]. intros j Hj O. apply occurs_alt in O as (O1 & O2). change (char_bytes [98; 0; 0; 0]) with [98] in *.
  assert (In 98 (s ++ s2)) as I0; [|apply in_app_or in I0; tauto].
  rewrite ntake_firstn, ndrop_skipn in O2. rewrite <- (firstn_skipn (N.to_nat j) (s ++ s2)). apply in_or_app. right.
  rewrite <- (firstn_skipn (N.to_nat (size [98])) (skipn _ _)). apply in_or_app. left. rewrite O2. now left.
Qed.
Example C137_ok : exists buf s s2 : list N, size buf = 65600 /\ size s = 65500 /\ size s2 = 100 /\ ~ In 98 s /\ ~ In 98 s2.
Proof.
  assert (forall n : N, exists l : list N, size l = n /\ ~ In 98 l) as G.
  { intros n. exists (repeat 97 (N.to_nat n)). split; [unfold size; rewrite repeat_length; lia|]. intros X. apply repeat_spec in X. discriminate. }
  destruct (G 65600) as (b & B & _), (G 65500) as (s & S1 & S2), (G 100) as (t & T1 & T2). exists b, s, t. tauto.
Qed.
