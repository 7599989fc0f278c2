(** C52, C62-C64: StringBuilder. *)
From Verif Require Import Base BaseLemmas MemViewModel MemViewSpec MemViewProofs ByteIOModel ByteIOSpec ByteIOProofs.
From Verif Require Import Base16Proofs StringSpec StringModel StringViewModel StringViewProofs StringProofs.
From Verif Require Import FmtModel FmtSpec FmtProofs BuilderModel BuilderSpec BuilderProofs.
Ltac Zify.zify_post_hook ::= Z.div_mod_to_equations.

(** ** C52 *)
(** Every history of appends: the text is that of the pieces that fitted, in order; a
    number needs one byte more than its digits. *)
Theorem C52_history : forall host_be buf ps ts, size buf < 2 ^ 64 -> Forall piece_ok ps -> Forall2 renders ps ts ->
  exists w, sb_appends host_be (sb_make buf) ps = Ret w /\
  let t := accumulate (size buf) [] (combine ps ts) in
  (size t < 2 ^ 16 -> sb_view w = t /\ sb_length w = size t /\ (sb_empty w = true <-> t = []) /\ str_view (fst (sb_build w)) = t).
Proof.
  intros host_be buf ps ts H F R. destruct (appends_spec host_be (size buf) ps (sb_make buf) [] (holds_make buf H) F) as (w & E & K).
  exists w. split; [exact E|]. rewrite (renders_map _ _ R). set (t := accumulate _ _ _) in *. intros t' L. subst t'.
  pose proof (view_holds _ _ _ K L) as V. destruct K as (A & B & C & D & G & P).
  assert (Q : sb_length w = size t) by (unfold sb_length, u16; rewrite C; apply N.mod_small; lia).
  split; [exact V|]. split; [exact Q|]. split.
  - unfold sb_empty. rewrite C, N.eqb_eq. split; [apply size_0_nil|now intros ->].
  - unfold sb_build, str_view. cbn [fst st_buf st_size]. rewrite Q, N.min_r by lia. exact P.
Qed.
Print Assumptions C52_history.
(** The room left, as a uint16; after build the builder holds nothing, and whatever is
    appended to it then is dropped. *)
Theorem C52_remaining : forall host_be buf ps ts, size buf < 2 ^ 64 -> Forall piece_ok ps -> Forall2 renders ps ts ->
  exists w, sb_appends host_be (sb_make buf) ps = Ret w /\
    sb_remaining w = (size buf - size (accumulate (size buf) [] (combine ps ts))) mod 2 ^ 16.
Proof.
  intros host_be buf ps ts H F R. destruct (appends_spec host_be (size buf) ps (sb_make buf) [] (holds_make buf H) F) as (w & E & K).
  exists w. split; [exact E|]. rewrite (renders_map _ _ R). destruct K as (A & B & C & D & G & P).
  unfold sb_remaining, w_remaining, sub64, sub_wrap, u16. rewrite B, C. f_equal.
  rewrite (N.mod_small (size buf)), (N.mod_small (size (accumulate _ _ _))) by lia. set (t := size (accumulate _ _ _)) in *.
  replace (size buf + 2 ^ 64 - t) with ((size buf - t) + 1 * 2 ^ 64) by lia.
  rewrite N.mod_add by lia. apply N.mod_small. lia.
Qed.
Print Assumptions C52_remaining.
Theorem C52_after_build : forall host_be w ps, Forall piece_ok ps ->
  exists w', sb_appends host_be (snd (sb_build w)) ps = Ret w' /\
    sb_view w' = [] /\ sb_length w' = 0 /\ sb_empty w' = true /\ sb_remaining w' = 0 /\ str_view (fst (sb_build w')) = [].
Proof.
  intros host_be w ps F. assert (exists ts, Forall2 renders ps ts) as (ts & R).
  { exists (map piece_text ps). induction F as [|p ps P F IH]; cbn; constructor; [|exact IH]. apply piece_renders. }
  assert (forall ps ts acc, Forall2 renders ps ts -> acc = [] -> accumulate 0 acc (combine ps ts) = []) as G.
  { clear. intros ps ts acc R. revert acc. induction R as [|p t ps ts Rp R IH]; intros acc ->; cbn [combine accumulate]; [reflexivity|].
    destruct (N.leb_spec (@size N [] + size t + spare p) 0) as [X|X]; [|now apply IH]. apply IH. rewrite (@size_nil N) in X.
    assert (t = []) as -> by (apply size_0_nil; lia). reflexivity. }
  destruct (C52_history host_be [] ps ts) as (w' & E & K); [reflexivity|assumption|assumption|].
  destruct (C52_remaining host_be [] ps ts) as (w2 & E2 & Q); [reflexivity|assumption|assumption|]. rewrite E in E2. injection E2 as <-.
  cbv zeta in K. change (@size N []) with 0 in K, Q. rewrite G in K, Q by auto. destruct (K eq_refl) as (V & L & M & S).
  exists w'. split; [exact E|]. split; [exact V|]. split; [exact L|]. split; [now apply M|]. split; [exact Q|exact S].
Qed.
Print Assumptions C52_after_build.
(** If everything fits with a byte to spare the text is the concatenation. *)
Theorem C52_concatenation_partial : forall host_be buf ps ts, size buf < 2 ^ 64 -> Forall piece_ok ps -> Forall2 renders ps ts ->
  size (concat ts) + 1 <= size buf -> size (concat ts) < 2 ^ 16 ->
  exists w, sb_appends host_be (sb_make buf) ps = Ret w /\ sb_view w = concat ts /\ str_view (fst (sb_build w)) = concat ts.
Proof.
  intros host_be buf ps ts H F R L M. destruct (C52_history host_be buf ps ts H F R) as (w & E & K). cbv zeta in K.
  rewrite accumulate_fits in K; [|trivial|clear - R; induction R; cbn; congruence|rewrite (@size_nil N); lia]. cbn [app] in K.
  destruct (K M) as (V & _ & _ & B). eauto.
Qed.
Print Assumptions C52_concatenation_partial.
(** Without numbers an exact fit is enough. *)
Theorem C52_text_exact_fit : forall host_be buf ps ts, size buf < 2 ^ 64 -> Forall piece_ok ps -> Forall2 renders ps ts ->
  Forall (fun p => match p with PNum _ => False | _ => True end) ps ->
  size (concat ts) <= size buf -> size (concat ts) < 2 ^ 16 ->
  exists w, sb_appends host_be (sb_make buf) ps = Ret w /\ sb_view w = concat ts /\ str_view (fst (sb_build w)) = concat ts.
Proof.
  intros host_be buf ps ts H F R Q L M. destruct (C52_history host_be buf ps ts H F R) as (w & E & K). cbv zeta in K.
  assert (G : forall acc, size acc + size (concat ts) <= size buf -> accumulate (size buf) acc (combine ps ts) = acc ++ concat ts).
  { clear - R Q. induction R as [|p t ps ts Rp R IH]; intros acc L; cbn [combine accumulate concat] in *; [now rewrite app_nil_r|].
    inversion Q as [|? ? Qp Q']; subst. rewrite size_app in L. destruct (N.leb_spec (size acc + size t + spare p) (size buf)) as [G|G].
    - rewrite IH; [now rewrite app_assoc|assumption|]. rewrite size_app. lia.
    - destruct p; cbn in G, Qp; try lia. }
  rewrite G in K by (rewrite (@size_nil N); lia). cbn [app] in K. destruct (K M) as (V & _ & _ & B). eauto.
Qed.
Print Assumptions C52_text_exact_fit.
(** A number that exactly fills the remaining space is dropped. *)
Theorem C52_number_exact_fit_refuted : forall host_be buf v t, v < 2 ^ 64 -> decimal v t -> size buf = size t ->
  exists w, sb_appends host_be (sb_make buf) [PNum v] = Ret w /\ sb_view w = [] /\ t <> [].
Proof.
  intros host_be buf v t Hv D S. assert (T : size t <= 20) by (rewrite <- (decimal_unique _ _ _ (dec_spec v) D); now apply dec_size).
  destruct (C52_history host_be buf [PNum v] [t]) as (w & E & K); [lia|apply Forall_cons; [exact Hv|apply Forall_nil]|apply Forall2_cons; [exact D|apply Forall2_nil]|].
  cbv zeta in K. cbn [combine accumulate spare] in K. rewrite (@size_nil N) in K. destruct (N.leb_spec (0 + size t + 1) (size buf)); [lia|].
  exists w. split; [exact E|]. split; [|apply D]. apply K. reflexivity.
Qed.
Print Assumptions C52_number_exact_fit_refuted.
(** A text of 65536 characters is seen as the empty one. *)
Theorem C52_long_text_refuted : forall host_be buf s c, size s = 65535 -> is_byte c -> 65536 <= size buf < 2 ^ 64 ->
  exists w, sb_appends host_be (sb_make buf) [PText s; PChar c] = Ret w /\ sb_view w = [] /\ sb_length w = 0.
Proof.
  intros host_be buf s c S Hc L.
  destruct (appends_spec host_be (size buf) [PText s; PChar c] (sb_make buf) [] (holds_make buf (proj2 L))) as (w & E & K).
  { apply Forall_cons; [cbn; lia|]. apply Forall_cons; [exact Hc|apply Forall_nil]. }
  exists w. split; [exact E|]. cbn [map accumulate piece_text spare] in K. rewrite (@size_nil N) in K.
  destruct (N.leb_spec (0 + size s + 0) (size buf)); [|lia]. cbn [app] in K.
  destruct (N.leb_spec (size s + size [c] + 0) (size buf)) as [G|G]; [|change (size [c]) with 1 in G; lia].
  destruct K as (A & B & C & D & X & P). rewrite size_app in *. change (size [c]) with 1 in *. rewrite S in *. change (65535 + 1) with 65536 in *.
  split.
  - unfold sb_view, w_viewWritten, view_slice, storage_view. cbn [v_size v_addr]. rewrite A, C.
    replace (N.min (size buf) (N.max 65536 (N.min 0 (size buf))) - N.min 0 (size buf)) with 65536 by lia.
    change (u16 65536) with 0. apply ntake_0.
  - unfold sb_length. rewrite C. reflexivity.
Qed.
Print Assumptions C52_long_text_refuted.
Example C52_ok :
  let ps := [PText [120; 61]; PNum 1234; PChar 44; PWide [195; 169; 0; 0]; PNum 0] in
  Forall piece_ok ps /\ Forall2 renders ps [[120; 61]; dec 1234; [44]; [195; 169]; dec 0] /\ dec 1234 = [49; 50; 51; 52] /\
  (let! w := sb_appends false (sb_make (repeat 255 11)) ps in Ret (sb_view w)) = Ret [120; 61; 49; 50; 51; 52; 44; 195; 169; 48] /\
  (let! w := sb_appends false (sb_make (repeat 255 10)) ps in Ret (sb_view w)) = Ret [120; 61; 49; 50; 51; 52; 44; 195; 169] /\
  (let! w := sb_appends false (sb_make (repeat 255 6)) ps in Ret (sb_view w)) = Ret [120; 61; 44; 195; 169].
Proof.
  cbv zeta. split; [repeat constructor|]. split.
  - repeat apply Forall2_cons; try apply Forall2_nil; try reflexivity; try apply dec_spec. apply (wide_renders [195; 169; 0; 0]).
  - repeat (split; [vm_compute; reflexivity|]). vm_compute; reflexivity.
Qed.

(** ** C62: measureFormatted is the length of the text append writes *)
Theorem C62_measure : forall v t, v < 2 ^ 64 -> decimal v t -> sb_measure v = size t /\ 1 <= size t <= 20.
Proof.
  intros v t H D. rewrite <- (decimal_unique _ _ _ (dec_spec v) D). pose proof (dec_size v H). pose proof (dec_pos v).
  split; [|lia]. unfold sb_measure, u16. apply N.mod_small. lia.
Qed.
Print Assumptions C62_measure.
(** Decimal text determines the number, and every number has a decimal text. *)
Theorem C62_decimal : forall v, decimal v (dec v) /\ (forall t u, decimal v t -> decimal u t -> v = u).
Proof. intros v. split; [apply dec_spec|]. intros t u (_ & _ & E & _) (_ & _ & E' & _). congruence. Qed.
Print Assumptions C62_decimal.
(** A buffer of the measured size plus one holds exactly the number. *)
Theorem C62_measured_buffer : forall host_be buf v, v < 2 ^ 64 -> size buf = sb_measure v + 1 ->
  exists w, sb_appends host_be (sb_make buf) [PNum v] = Ret w /\ decimal v (sb_view w).
Proof.
  intros host_be buf v H L. destruct (C62_measure v (dec v) H (dec_spec v)) as (M & Z). rewrite M in L.
  destruct (C52_concatenation_partial host_be buf [PNum v] [dec v]) as (w & E & V & _);
    try (cbn [concat]; rewrite ?app_nil_r; lia); [apply Forall_cons; [exact H|apply Forall_nil]|apply Forall2_cons; [apply dec_spec|apply Forall2_nil]|].
  exists w. split; [exact E|]. rewrite V. cbn [concat]. rewrite app_nil_r. apply dec_spec.
Qed.
Print Assumptions C62_measured_buffer.
Example C62_ok : sb_measure 18446744073709551615 = 20 /\ sb_measure 0 = 1 /\ decimal 905 [57; 48; 53].
Proof. split; [vm_compute; reflexivity|]. split; [vm_compute; reflexivity|]. exact (dec_spec 905). Qed.

(** ** C63: searching for a character *)
(** indexOf finds the first occurrence, except that one at the very end of the text is
    never found. *)
Theorem C63_indexOf_partial : forall fuel host_be buf ps w ch from, Forall piece_ok ps -> size buf < 2 ^ 16 -> from < 2 ^ 16 ->
  sb_appends host_be (sb_make buf) ps = Ret w -> char_wf ch -> (length buf < fuel)%nat ->
  let t := sb_view w in let c := char_bytes ch in
  exists o, sb_indexOf fuel w ch from = Ret o /\
  match o with
  | Some i => from <= i /\ i + size c < size t /\ occurs c t i /\ forall j, from <= j < i -> ~ occurs c t j
  | None => forall j, from <= j -> occurs c t j -> j + size c = size t
  end.
Proof.
  intros fuel host_be buf ps w ch from F L Hf E W Fu t c.
  assert (L64 : size buf < 2 ^ 64) by lia.
  destruct (appends_spec host_be (size buf) ps (sb_make buf) [] (holds_make buf L64) F) as (w' & E' & K). rewrite E in E'. injection E' as <-.
  set (u := accumulate _ _ _) in *. assert (V : sb_view w = u) by (eapply view_holds; [exact K|]; destruct K as (_ & _ & _ & D & _); lia).
  unfold t. rewrite V. destruct K as (A & B & C & D & X & P). unfold sb_indexOf. rewrite C, P.
  destruct (index_loop_spec ch u W) with (fuel := fuel) (i := from) as (o & R & Q); [lia|lia|unfold size in *; lia|].
  exists o. split; [exact R|]. destruct o as [j|].
  - destruct Q as (Q1 & Q2 & Q3 & Q4). repeat split; try assumption.
    + apply occurs_alt. split; [fold c in Q2; lia|exact Q3].
    + intros m Hm O. apply occurs_alt in O as [_ O]. now apply (Q4 m).
  - intros m Hm O. apply occurs_alt in O as [O1 O2]. destruct (N.eq_dec (m + size c) (size u)); [assumption|].
    exfalso. apply (Q m); try assumption. fold c. lia.
Qed.
Print Assumptions C63_indexOf_partial.
(** The last character is not found. *)
Theorem C63_indexOf_refuted : exists ps w ch, sb_appends false (sb_make (repeat 0 4)) ps = Ret w /\
  sb_view w = [97; 98] /\ char_bytes ch = [98] /\ occurs [98] (sb_view w) 1 /\ sb_indexOf 9 w ch 0 = Ret None.
Proof.
  exists [PText [97; 98]]. eexists. exists [98; 0; 0; 0]. repeat (split; [vm_compute; reflexivity|]).
  split; [|vm_compute; reflexivity]. exists [97], []. split; vm_compute; reflexivity.
Qed.
Print Assumptions C63_indexOf_refuted.
Example C63_ok : char_wf [98; 0; 0; 0] /\
  (let! w := sb_appends false (sb_make (repeat 0 6)) [PText [97; 98; 97; 99]] in sb_indexOf 9 w [97; 0; 0; 0] 1) = Ret (Some 2).
Proof. split; [exists 3%nat; split; reflexivity|]. vm_compute; reflexivity. Qed.

(** ** C64: substring of the accumulated text *)
Theorem C64_substring : forall host_be buf ps w from to, Forall piece_ok ps -> size buf < 2 ^ 16 ->
  sb_appends host_be (sb_make buf) ps = Ret w -> sb_substring w from to = range from to (sb_view w).
Proof.
  intros host_be buf ps w from to F L E. assert (L64 : size buf < 2 ^ 64) by lia.
  destruct (appends_spec host_be (size buf) ps (sb_make buf) [] (holds_make buf L64) F) as (w' & E' & K). rewrite E in E'. injection E' as <-.
  set (u := accumulate _ _ _) in *. assert (V : sb_view w = u) by (eapply view_holds; [exact K|]; destruct K as (_ & _ & _ & D & _); lia).
  rewrite V. destruct K as (A & B & C & D & X & P).
  assert (S : contents (w_buf w) (w_viewWritten w) = u).
  { unfold w_viewWritten. rewrite slice_contents by apply storage_valid. rewrite storage_contents, range_spec, ndrop_0, N.sub_0_r, C. exact P. }
  assert (Y : valid (w_buf w) (w_viewWritten w)).
  { unfold w_viewWritten. apply slice_valid. apply storage_valid. }
  rewrite <- S, <- slice_contents by exact Y. rewrite contents_alt. unfold sb_substring.
  assert (Q : v_size (view_slice (w_viewWritten w) from to) < 2 ^ 16).
  { unfold w_viewWritten, view_slice, storage_view. cbn [v_size v_addr]. rewrite A, C. lia. }
  destruct (v_addr (view_slice (w_viewWritten w) from to)) as [a|]; [|reflexivity]. unfold u16. now rewrite N.mod_small by lia.
Qed.
Print Assumptions C64_substring.
Example C64_ok : (let! w := sb_appends false (sb_make (repeat 0 6)) [PText [97; 98]; PNum 42] in Ret (sb_substring w 1 3)) = Ret [98; 52].
Proof. vm_compute; reflexivity. Qed.
