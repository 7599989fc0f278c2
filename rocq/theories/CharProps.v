(** Properties of Char (C83, C84, C90). *)
From Coq Require Import String Ascii.
From Verif Require Import Base BaseLemmas ByteIOModel CharModel CharSpec CharProofs.
Open Scope N_scope.

(** C83: a Char made from the bytes of a character (at most four bytes, none zero) gives
    these bytes, their number, and a C string of them. *)
Theorem C83_bytes_partial : forall bs, character bs -> exists c,
  char_view bs = Ret c /\ char_getBytes c = bs /\ char_bytesCount c = size bs /\ char_c_str c = Ret bs.
Proof.
  intros bs (L & B). exists (mkChar (pad bs) (Some 0)). split; [now apply view_pad|].
  destruct (text_bytes bs (mkChar (pad bs) (Some 0)) L) as (C & G); [reflexivity|].
  rewrite (before_text bs B) in *. split; [exact G|]. split; [exact C|].
  unfold char_c_str. rewrite C, G. destruct (N.ltb_spec (size bs) 4); [reflexivity|]. cbn. f_equal.
  spread bs; cbn in *; try lia; try reflexivity; unfold size in *; cbn in *; lia.
Qed.
Print Assumptions C83_bytes_partial.
(** Other byte sequences: a zero byte ends the character, *)
Theorem C83_zero_cuts : forall bs c, (length bs <= 4)%nat -> char_view bs = Ret c ->
  char_getBytes c = before_zero bs /\ char_bytesCount c = size (before_zero bs).
Proof.
  intros bs c L E. rewrite view_pad in E by exact L. injection E as <-.
  destruct (text_bytes bs (mkChar (pad bs) (Some 0)) L) as (C & G); [reflexivity|]. now split.
Qed.
Print Assumptions C83_zero_cuts.
(** five bytes are cut to four, and leave a C string without its end, *)
Theorem C83_five_refuted : forall bs, length bs = 5%nat -> Forall (fun b => 0 < b < 256) bs -> exists c,
  char_view bs = Ret c /\ char_getBytes c = firstn 4 bs /\ char_c_str c = UB.
Proof.
  intros bs L B. exists (mkChar (firstn 4 bs) (Some (nth 4 bs 0))). split; [now apply view_five|].
  destruct bs as [|a [|b [|c [|d [|e [|]]]]]]; cbn in L; try discriminate. cbn [firstn nth].
  assert (X : char_bytesCount (mkChar [a; b; c; d] (Some e)) = 4).
  { unfold char_bytesCount. cbn [c_four]. rewrite count_before by (cbn; lia). rewrite before_text; [reflexivity|].
    repeat match goal with H : Forall _ (_ :: _) |- _ => inversion H; subst; clear H end. repeat constructor; lia. }
  split; [unfold char_getBytes; rewrite X; reflexivity|]. unfold char_c_str. rewrite X. cbn.
  repeat match goal with H : Forall _ (_ :: _) |- _ => inversion H; subst; clear H end. destruct e; [lia|reflexivity].
Qed.
Print Assumptions C83_five_refuted.
(** and more than five are written behind the object. *)
Theorem C83_overflow_refuted : forall bs, (5 < length bs)%nat -> char_view bs = UB.
Proof. exact view_out. Qed.
Print Assumptions C83_overflow_refuted.

(** Whatever sequence of constructions, assignments, moves and swaps is executed, every
    variable shows the bytes it should, and two variables are equal exactly when they hold
    the same character, on hosts of either byte order. *)
Theorem C83_history : forall be n os, Forall (op_ok n) os -> exists st,
  char_run os (repeat char_new n) = Ret st /\
  map char_getBytes st = text_run os (repeat [] n) /\
  forall i j a b, nth_error st i = Some a -> nth_error st j = Some b ->
    (char_equals be a b = true <-> nth i (text_run os (repeat [] n)) [] = nth j (text_run os (repeat [] n)) []).
Proof.
  intros be n os F. destruct (run_rel os (repeat [] n) (repeat char_new n)) as (st & E & R).
  { split.
    - clear. induction n as [|n IH]; [reflexivity|]. cbn. f_equal. exact IH.
    - apply Forall_forall. intros x X. apply repeat_spec in X. subst. split; [cbn; lia|constructor]. }
  { now rewrite repeat_length. }
  exists st. split; [exact E|]. set (ts := text_run os (repeat [] n)) in *. clearbody ts. split.
  - clear E. destruct R as (M & C). revert st M. induction C as [|t ts T _ IH]; intros [|c st] M; cbn in M; try discriminate; [reflexivity|].
    injection M as M1 M2. cbn. f_equal.
    + destruct T as (L & B). rewrite (proj2 (text_bytes t c L M1)). now apply before_text.
    + exact (IH st M2).
  - intros i j a b A B. pose proof (rel_length _ _ R) as L.
    assert (I : (i < length ts)%nat) by (rewrite <- L; apply nth_error_Some; congruence).
    assert (J : (j < length ts)%nat) by (rewrite <- L; apply nth_error_Some; congruence).
    destruct (rel_nth _ _ _ R I) as (a' & A' & Ta & Ca). destruct (rel_nth _ _ _ R J) as (b' & B' & Tb & Cb).
    rewrite A in A'. injection A' as <-. rewrite B in B'. injection B' as <-. unfold is_text in *. unfold char_equals. split.
    + intros H. apply N.eqb_eq in H. apply value_inj in H.
      * apply pad_inj; [exact Ca|exact Cb|congruence].
      * now rewrite Ta, Tb, !pad_length.
      * rewrite Ta. now apply pad_ok.
      * rewrite Tb. now apply pad_ok.
    + intros H. apply N.eqb_eq. unfold char_value. rewrite Ta, Tb, H. reflexivity.
Qed.
Print Assumptions C83_history.
Example C83_history_case : exists st,
  char_run [ChView 0 [0xE2; 0x82; 0xAC]; ChChar 1 97; ChCopy 2 0; ChSwap 0 1; ChMove 1 2] (repeat char_new 3) = Ret st /\
  map char_getBytes st = [[97]; [0xE2; 0x82; 0xAC]; [0xE2; 0x82; 0xAC]].
Proof. eexists. split; reflexivity. Qed.

(** The C string of a copy is the character again when it has at most three bytes. *)
Theorem C83_copy_c_str_partial : forall bs c, character bs -> size bs <= 3 -> char_view bs = Ret c ->
  char_c_str (char_copy c) = Ret bs.
Proof.
  intros bs c (L & B) S E. rewrite view_pad in E by exact L. injection E as <-.
  destruct (text_bytes bs (char_copy (mkChar (pad bs) (Some 0))) L) as (C & G); [reflexivity|].
  unfold char_c_str. rewrite C, G, before_text by exact B. rewrite (proj2 (N.ltb_lt (size bs) 4)) by lia. reflexivity.
Qed.
Print Assumptions C83_copy_c_str_partial.
(** For every character of four bytes, the copy has an indeterminate fifth byte: reading
    its C string is undefined. *)
Theorem C83_copy_c_str_refuted : forall bs c, character bs -> size bs = 4 -> char_view bs = Ret c ->
  char_c_str c = Ret bs /\ char_c_str (char_copy c) = UB.
Proof.
  intros bs c H S E. destruct (C83_bytes_partial bs H) as (c' & E' & _ & _ & T). rewrite E in E'. injection E' as <-.
  split; [exact T|]. destruct H as (L & B). rewrite view_pad in E by exact L. injection E as <-.
  destruct (text_bytes bs (char_copy (mkChar (pad bs) (Some 0))) L) as (C & G); [reflexivity|].
  unfold char_c_str. rewrite C, before_text by exact B. rewrite S. reflexivity.
Qed.
Print Assumptions C83_copy_c_str_refuted.
Example C83_copy_case : character [0xF0; 0x9F; 0x98; 0x80].
Proof. split; [cbn; lia|repeat constructor; lia]. Qed.

(** C84: the value of a Char is its code point, whether it was made from the number or from
    UTF-8 bytes: proved for ASCII on a little-endian host. *)
Theorem C84_ascii_partial : forall cp c, cp < 128 -> char_view (utf8 cp) = Ret c ->
  char_value false c = cp /\ char_equals false c (char_code false cp) = true /\
  char_getBytes (char_code false cp) = char_getBytes c /\
  char_equals false c (char_char cp) = true /\ char_equals false c (char_byte cp) = true.
Proof.
  intros cp c H E. unfold utf8 in E. rewrite (proj2 (N.ltb_lt cp 0x80)) in E by lia. rewrite view_pad in E by (cbn; lia). injection E as <-.
  unfold char_equals. rewrite value_code by lia.
  assert (V : forall f, char_value false (mkChar [cp; 0; 0; 0] f) = cp) by (intros f; unfold char_value; cbn [c_four le_load]; lia).
  cbn [pad]. unfold char_char, char_byte. rewrite !V. rewrite N.eqb_refl. split; [reflexivity|]. split; [reflexivity|]. split; [|now split].
  assert (X : c_four (char_code false cp) = [cp; 0; 0; 0]).
  { unfold char_code. cbn [c_four le_store]. rewrite (N.mod_small cp 256), (N.div_small cp 256) by lia. reflexivity. }
  unfold char_getBytes, char_bytesCount. rewrite X. reflexivity.
Qed.
Print Assumptions C84_ascii_partial.
Example C84_ascii_case : exists c, char_view (utf8 65) = Ret c /\ char_value false c = 65.
Proof. eexists. split; reflexivity. Qed.

(** It fails for every other code point: the Char made from the UTF-8 bytes has another
    value than the code point, differs from the Char made from the number, and that one
    does not hold the UTF-8 bytes. *)
Theorem C84_code_point_refuted : forall cp c, 128 <= cp < 0x110000 -> char_view (utf8 cp) = Ret c ->
  char_value false c <> cp /\ char_equals false c (char_code false cp) = false /\
  char_getBytes (char_code false cp) <> utf8 cp.
Proof.
  intros cp c H E. assert (K : character (utf8 cp)) by (apply utf8_character; lia).
  rewrite view_pad in E by apply K. injection E as <-.
  assert (V : char_value false (mkChar (pad (utf8 cp)) (Some 0)) <> cp).
  { unfold char_value. cbn [c_four]. unfold utf8. rewrite (proj2 (N.ltb_ge cp 0x80)) by lia.
    destruct (N.ltb_spec cp 0x800); [|destruct (N.ltb_spec cp 0x10000)]; cbn [pad firstn le_load]; lia. }
  split; [exact V|]. split.
  - unfold char_equals. rewrite value_code by lia. now apply N.eqb_neq.
  - intros G. assert (P : c_four (char_code false cp) = utf8 cp ++ ndrop (char_bytesCount (char_code false cp)) (c_four (char_code false cp))).
    { rewrite <- G. unfold char_getBytes. now rewrite ntake_firstn, ndrop_skipn, firstn_skipn. }
    revert P. generalize (ndrop (char_bytesCount (char_code false cp)) (c_four (char_code false cp))). intros r.
    unfold char_code, utf8. cbn [c_four le_store]. rewrite (proj2 (N.ltb_ge cp 0x80)) by lia.
    destruct (N.ltb_spec cp 0x800); [|destruct (N.ltb_spec cp 0x10000)]; cbn [app]; intros P.
    + apply (f_equal (fun l => nth 1 l 0)) in P. cbn [nth] in P. lia.
    + apply (f_equal (fun l => nth 2 l 0)) in P. cbn [nth] in P. lia.
    + apply (f_equal (fun l => nth 3 l 0)) in P. cbn [nth] in P. lia.
Qed.
Print Assumptions C84_code_point_refuted.
Example C84_code_point_case : exists c, char_view (utf8 0x20AC) = Ret c /\ char_value false c = 0xAC82E2.
Proof. eexists. split; reflexivity. Qed.

(** On a big-endian host it fails for every code point but zero. *)
Theorem C84_big_endian_refuted : forall cp c, 0 < cp < 0x110000 -> char_view (utf8 cp) = Ret c -> char_value true c <> cp.
Proof.
  intros cp c H E. rewrite view_pad in E by (apply utf8_character; lia). injection E as <-.
  unfold char_value, utf8. cbn [c_four]. destruct (N.ltb_spec cp 0x80); [|destruct (N.ltb_spec cp 0x800); [|destruct (N.ltb_spec cp 0x10000)]];
  cbn [pad firstn rev app le_load]; lia.
Qed.
Print Assumptions C84_big_endian_refuted.

(** The comparisons are one total order, that of the values. *)
Theorem C84_total_order : forall be a b c,
  char_le be a b = negb (char_gt be a b) /\ char_ge be a b = negb (char_lt be a b) /\ char_gt be a b = char_lt be b a /\
  (char_equals be a b = true \/ char_lt be a b = true \/ char_gt be a b = true) /\
  char_lt be a a = false /\ (char_lt be a b = true -> char_lt be b c = true -> char_lt be a c = true) /\
  (char_le be a b = true -> char_le be b a = true -> char_equals be a b = true).
Proof. intros. unfold char_le, char_gt, char_ge, char_lt, char_equals. repeat (split; [lia|]). lia. Qed.
Print Assumptions C84_total_order.
(** It is the order of the code points for ASCII characters, *)
Theorem C84_order_partial : forall cp cp' c c', cp < 128 -> cp' < 128 -> char_view (utf8 cp) = Ret c -> char_view (utf8 cp') = Ret c' ->
  (char_lt false c c' = true <-> cp < cp').
Proof.
  intros cp cp' c c' H H' E E'. destruct (C84_ascii_partial cp c H E) as (V & _). destruct (C84_ascii_partial cp' c' H' E') as (V' & _).
  unfold char_lt. rewrite V, V'. lia.
Qed.
Print Assumptions C84_order_partial.
(** but not in general. *)
Theorem C84_order_refuted : exists cp cp' c c', cp < cp' < 0x110000 /\ char_view (utf8 cp) = Ret c /\ char_view (utf8 cp') = Ret c' /\
  char_lt false c' c = true.
Proof. exists 0xFF, 0x100. do 2 eexists. split; [lia|]. repeat (split; [reflexivity|]). reflexivity. Qed.
Print Assumptions C84_order_refuted.

(** C90: every byte, as a Char, is classified as the "C" locale does (little-endian host). *)
Theorem C90_classes_partial : forall b, is_byte b ->
  char_isDigit false (char_char b) = Ret (digit b) /\
  char_isXDigit false (char_char b) = Ret (spelled HEX b) /\
  char_isLetter false (char_char b) = Ret (letter b) /\
  char_isLetterOrDigit false (char_char b) = Ret (letter b || digit b) /\
  char_isUpperCase false (char_char b) = Ret (spelled UPPER b) /\
  char_isLowerCase false (char_char b) = Ret (spelled LOWER b) /\
  char_isWhitespace false (char_char b) = Ret (blank b) /\
  char_isCntrl false (char_char b) = Ret (control b) /\
  char_isGraphical false (char_char b) = Ret (visible b) /\
  char_isPrintable false (char_char b) = Ret (visible b || (b =? 32)) /\
  char_isPunctuation false (char_char b) = Ret (spelled PUNCT b) /\
  char_isSymbol false (char_char b) = Ret (letter b || digit b || spelled "_" b) /\
  char_isFirstSymbol false (char_char b) = Ret (letter b || spelled "_" b) /\
  char_isNewLine (char_char b) = (b =? 10).
Proof.
  intros b B.
  assert (V : char_value false (char_char b) = b) by (unfold char_value, char_char; cbn [c_four le_load]; lia).
  assert (T : forall f, ctype f b = Ret (f b)). { intros f. unfold ctype. rewrite (proj2 (N.ltb_lt b 256)) by exact B. reflexivity. }
  assert (Z : char_is_byte 95 (char_char b) = spelled "_" b).
  { unfold char_is_byte, char_char. cbn [c_four spelled]. rewrite andb_true_r, orb_false_r, N.eqb_sym. reflexivity. }
  assert (Sw : forall f g : N -> bool, forallb (fun n => Bool.eqb (f (N.of_nat n)) (g (N.of_nat n))) (seq 0 256) = true -> f b = g b).
  { intros f g H. apply (byte_sweep (fun x => Bool.eqb (f x) (g x)) H) in B. now apply Bool.eqb_prop in B. }
  unfold char_isSymbol, char_isFirstSymbol, char_isDigit, char_isXDigit, char_isLetter, char_isLetterOrDigit, char_isUpperCase, char_isLowerCase,
    char_isWhitespace, char_isCntrl, char_isGraphical, char_isPrintable, char_isPunctuation.
  rewrite V, !T, Z. cbn [bind].
  rewrite (Sw c_isdigit digit) by reflexivity. rewrite (Sw c_isxdigit (spelled HEX)) by reflexivity.
  rewrite (Sw c_isalpha letter) by reflexivity. rewrite (Sw c_isalnum (fun c => letter c || digit c)) by reflexivity.
  rewrite (Sw c_isupper (spelled UPPER)) by reflexivity. rewrite (Sw c_islower (spelled LOWER)) by reflexivity.
  rewrite (Sw c_isspace blank) by reflexivity. rewrite (Sw c_iscntrl control) by reflexivity.
  rewrite (Sw c_isgraph visible) by reflexivity. rewrite (Sw c_isprint (fun c => visible c || (c =? 32))) by reflexivity.
  rewrite (Sw c_ispunct (spelled PUNCT)) by reflexivity.
  repeat (split; [reflexivity|]). unfold char_isNewLine, char_is_byte, char_char. cbn [c_four]. apply andb_true_r.
Qed.
Print Assumptions C90_classes_partial.
Example C90_classes_case : char_isSymbol false (char_char 95) = Ret true /\ char_isLetter false (char_char 95) = Ret false.
Proof. split; reflexivity. Qed.

(** The case conversions map the letters and nothing else, and keep the byte a byte. *)
Theorem C90_case_partial : forall b, is_byte b -> exists l u,
  char_toLower false (char_char b) = Ret l /\ char_toUpper false (char_char b) = Ret u /\
  char_value false l = lower_of b /\ char_value false u = upper_of b.
Proof.
  intros b B.
  assert (V : char_value false (char_char b) = b) by (unfold char_value, char_char; cbn [c_four le_load]; lia).
  assert (T : forall f, ctype_map f b = Ret (f b)). { intros f. unfold ctype_map. rewrite (proj2 (N.ltb_lt b 256)) by exact B. reflexivity. }
  assert (Sw : forall f g : N -> N, forallb (fun n => f (N.of_nat n) =? g (N.of_nat n)) (seq 0 256) = true -> f b = g b).
  { intros f g H. apply (byte_sweep (fun x => f x =? g x) H) in B. now apply N.eqb_eq in B. }
  unfold char_toLower, char_toUpper. rewrite V, !T. cbn [bind]. do 2 eexists. split; [reflexivity|]. split; [reflexivity|].
  unfold is_byte in B. rewrite !value_code; [split; apply Sw; reflexivity| |].
  - unfold c_toupper. destruct (c_islower b); lia.
  - unfold c_tolower. destruct (c_isupper b); lia.
Qed.
Print Assumptions C90_case_partial.

(** Char::Eof is in no class and has no case. *)
Theorem C90_eof : forall be,
  (forall f, ctype f (char_value be (char_eof be)) = Ret false) /\
  char_isSymbol be (char_eof be) = Ret false /\ char_isFirstSymbol be (char_eof be) = Ret false /\
  char_isNewLine (char_eof be) = false /\
  char_toLower be (char_eof be) = Ret (char_eof be) /\ char_toUpper be (char_eof be) = Ret (char_eof be).
Proof. intros be. destruct be; repeat (split; [reflexivity|]); reflexivity. Qed.
Print Assumptions C90_eof.

(** Every other Char is outside the domain of the C functions: the eleven classes and the
    conversions are undefined for it. *)
Theorem C90_wide_refuted : forall be c f g, 256 <= char_value be c -> char_value be c <> eof ->
  ctype f (char_value be c) = UB /\ ctype_map g (char_value be c) = UB /\
  char_isSymbol be c = UB /\ char_isFirstSymbol be c = UB /\ char_toLower be c = UB /\ char_toUpper be c = UB.
Proof.
  intros be c f g H E.
  assert (T : forall h, ctype h (char_value be c) = UB).
  { intros h. unfold ctype. rewrite (proj2 (N.ltb_ge (char_value be c) 256)), (proj2 (N.eqb_neq _ _) E) by exact H. reflexivity. }
  assert (M : forall h, ctype_map h (char_value be c) = UB).
  { intros h. unfold ctype_map. rewrite (proj2 (N.ltb_ge (char_value be c) 256)), (proj2 (N.eqb_neq _ _) E) by exact H. reflexivity. }
  split; [apply T|]. split; [apply M|].
  unfold char_isSymbol, char_isFirstSymbol, char_isLetterOrDigit, char_isLetter, char_toLower, char_toUpper. rewrite !T, !M. repeat split; reflexivity.
Qed.
Print Assumptions C90_wide_refuted.
(** So is every character of two or more bytes, on either host, *)
Theorem C90_multibyte_refuted : forall bs c, character bs -> 2 <= size bs -> bs <> [255; 255; 255; 255] -> char_view bs = Ret c ->
  char_isLetter false c = UB /\ char_isWhitespace false c = UB.
Proof.
  intros bs c K S X E. assert (G : 256 <= char_value false c /\ char_value false c <> eof).
  { rewrite view_pad in E by apply K. injection E as <-. destruct K as (L & B). unfold char_value. cbn [c_four].
    spread bs; cbn [length] in L; unfold size in S; cbn [length] in S; try lia;
    repeat match goal with H : Forall _ (_ :: _) |- _ => inversion H; subst; clear H end; cbn [pad firstn le_load]; unfold eof; try (split; lia).
    split; [lia|]. intros Q. apply X. assert (b0 = 255) by lia. assert (b1 = 255) by lia. assert (b2 = 255) by lia. assert (b3 = 255) by lia. now subst. }
  destruct G as (G & G'). split; now apply (C90_wide_refuted false c _ (fun x => x)).
Qed.
Print Assumptions C90_multibyte_refuted.
(** and, on a big-endian host, every ASCII character but zero: trimming a text (which asks
    isWhitespace for its first character) is undefined there. *)
Theorem C90_big_endian_refuted : forall b, 0 < b < 256 -> char_isWhitespace true (char_char b) = UB.
Proof.
  intros b B. apply (C90_wide_refuted true (char_char b) c_isspace (fun x => x)); unfold char_value, char_char, eof; cbn [c_four rev app le_load]; lia.
Qed.
Print Assumptions C90_big_endian_refuted.
