(** C143: Chars holding any bytes. *)
From Coq Require Import String Ascii.
From Verif Require Import Base BaseLemmas ByteIOModel LexSpec LexProofs CharModel CharSpec CharProofs CharProps.
Open Scope N_scope.
Notation length := List.length.

(** Four bytes made of any number of them. *)
Definition four_of (bs : list N) : list N := firstn 4 (bs ++ [0; 0; 0; 0]).

(** Histories on variables that hold four bytes; [None]: undefined behaviour, by a name
    that does not exist or by a view of more than five bytes. *)
Definition four_op (o : chop) (st : list (list N)) : option (list (list N)) :=
  let known i := Nat.ltb i (length st) in
  let at_ i := nth i st [] in
  match o with
  | ChView i bs => if known i && Nat.leb (length bs) 5 then Some (put_at i (four_of bs) st) else None
  | ChChar i b | ChByte i b => if known i then Some (put_at i [b; 0; 0; 0] st) else None
  | ChCopy i j => if known i && known j then Some (put_at i (at_ j) st) else None
  | ChMove i j | ChSwap i j => if known i && known j then Some (put_at j (at_ i) (put_at i (at_ j) st)) else None
  end.
Fixpoint four_run (os : list chop) (st : list (list N)) : option (list (list N)) :=
  match os with [] => Some st | o :: t => match four_op o st with Some st' => four_run t st' | None => None end end.

Lemma view_any bs : char_view bs = if Nat.leb (length bs) 5 then Ret (mkChar (four_of bs) (Some (nth 4 bs 0))) else UB.
Proof.
  destruct (Nat.leb_spec (length bs) 5) as [L|L]; [|now apply view_out].
  destruct bs as [|b0 [|b1 [|b2 [|b3 [|b4 [|b5 bs]]]]]]; cbn in L; try lia; reflexivity.
Qed.
Lemma nth_known {A} (st : list A) i : nth_error st i = None \/ exists c, nth_error st i = Some c /\ (i < length st)%nat.
Proof. destruct (nth_error st i) as [c|] eqn:E; [right; exists c; split; [reflexivity|]; apply nth_error_Some; congruence|now left]. Qed.
Lemma put_at_self {A} (st : list A) i x : nth_error st i = Some x -> put_at i x st = st.
Proof. intros E. apply nth_error_split in E as (a & b & -> & <-). unfold put_at. rewrite firstn_app, firstn_all, Nat.sub_diag, skipn_app, skipn_all, Nat.sub_diag. cbn. now rewrite app_nil_r. Qed.
Lemma four_step o st :
  match four_op o (map c_four st) with
  | Some q => exists st', char_op o st = Ret st' /\ map c_four st' = q /\ map c_fifth st' = map c_fifth st
  | None => char_op o st = UB
  end.
Proof.
  assert (K : forall i, Nat.ltb i (length (map c_four st)) = match nth_error st i with Some _ => true | None => false end).
  { intros i. rewrite map_length. destruct (nth_error st i) as [c|] eqn:E.
    - apply Nat.ltb_lt, nth_error_Some. congruence.
    - apply Nat.ltb_ge, nth_error_None, E. }
  assert (V : forall i c, nth_error st i = Some c -> nth i (map c_four st) [] = c_four c).
  { intros i c E. apply nth_error_nth. now apply map_nth_error. }
  assert (P5 : forall i c c', nth_error st i = Some c -> c_fifth c' = c_fifth c -> map c_fifth (put_at i c' st) = map c_fifth st).
  { intros i c c' E Q. rewrite put_at_map. apply put_at_self. rewrite Q. now apply map_nth_error. }
  destruct o as [i bs|i b|i b|i j|i j|i j]; cbn [four_op char_op]; rewrite ?K.
  - rewrite view_any. destruct (Nat.leb (length bs) 5); cbn [bind]; [|now rewrite andb_false_r].
    destruct (nth_error st i) as [c|] eqn:E; cbn [andb]; [|reflexivity]. eexists. split; [reflexivity|]. split; [rewrite put_at_map; reflexivity|]. now apply (P5 i c).
  - destruct (nth_error st i) as [c|] eqn:E; [|reflexivity]. eexists. split; [reflexivity|]. split; [rewrite put_at_map; reflexivity|]. now apply (P5 i c).
  - destruct (nth_error st i) as [c|] eqn:E; [|reflexivity]. eexists. split; [reflexivity|]. split; [rewrite put_at_map; reflexivity|]. now apply (P5 i c).
  - destruct (nth_error st i) as [a|] eqn:E; [|reflexivity]. destruct (nth_error st j) as [b|] eqn:Ej; [|reflexivity]. cbn [andb].
    eexists. split; [reflexivity|]. rewrite (V j b Ej). split; [rewrite put_at_map; reflexivity|]. now apply (P5 i a).
  - destruct (nth_error st i) as [a|] eqn:E; [|reflexivity]. destruct (nth_error st j) as [b|] eqn:Ej; [|reflexivity]. cbn [andb].
    rewrite (V i a E), (V j b Ej). destruct (Nat.eqb_spec i j) as [<-|N].
    + rewrite E in Ej. injection Ej as <-. exists st. split; [reflexivity|]. split; [|reflexivity].
      rewrite !put_at_self; auto using map_nth_error. rewrite put_at_self; auto using map_nth_error.
    + cbn [char_move_assign char_swap]. eexists. split; [reflexivity|]. rewrite !put_at_map. split; [reflexivity|]. cbn [c_fifth].
      rewrite put_at_self; apply map_nth_error with (f := c_fifth) in E, Ej; rewrite put_at_self; auto.
  - destruct (nth_error st i) as [a|] eqn:E; [|reflexivity]. destruct (nth_error st j) as [b|] eqn:Ej; [|reflexivity]. cbn [andb].
    rewrite (V i a E), (V j b Ej). destruct (Nat.eqb_spec i j) as [<-|N].
    + rewrite E in Ej. injection Ej as <-. exists st. split; [reflexivity|]. split; [|reflexivity].
      rewrite !put_at_self; auto using map_nth_error. rewrite put_at_self; auto using map_nth_error.
    + cbn [char_swap]. eexists. split; [reflexivity|]. rewrite !put_at_map. split; [reflexivity|]. cbn [c_fifth].
      rewrite put_at_self; apply map_nth_error with (f := c_fifth) in E, Ej; rewrite put_at_self; auto.
Qed.

(** Every history from any state: undefined exactly when the specification says so;
    otherwise every variable holds its four bytes, and the fifth byte of no variable ever
    changes. *)
Theorem C143_history : forall os st,
  match four_run os (map c_four st) with
  | Some q => exists st', char_run os st = Ret st' /\ map c_four st' = q /\ map c_fifth st' = map c_fifth st
  | None => char_run os st = UB
  end.
Proof.
  induction os as [|o os IH]; intros st; cbn [four_run char_run].
  - exists st. auto.
  - pose proof (four_step o st) as S. destruct (four_op o (map c_four st)) as [q|].
    + destruct S as (st' & -> & <- & F). cbn [bind]. specialize (IH st'). destruct (four_run os (map c_four st')) as [q'|]; [|exact IH].
      destruct IH as (st2 & R & Q & F2). exists st2. split; [exact R|]. split; [exact Q|congruence].
    + rewrite S. reflexivity.
Qed.
Print Assumptions C143_history.

(** What a Char of four bytes shows: the bytes before the first zero; as a C string too,
    if there are fewer than four of them or the fifth byte is known to be zero. *)
Theorem C143_shows : forall c, length (c_four c) = 4%nat ->
  char_getBytes c = before_zero (c_four c) /\ char_bytesCount c = N.of_nat (length (before_zero (c_four c))) /\
  (char_c_str c = Ret (before_zero (c_four c)) <-> (In 0 (c_four c) \/ c_fifth c = Some 0)) /\
  (char_c_str c = UB <-> ~ (In 0 (c_four c) \/ c_fifth c = Some 0)).
Proof.
  intros c L. assert (X : char_bytesCount c = size (before_zero (c_four c))) by (unfold char_bytesCount; apply count_before; lia).
  assert (G : char_getBytes c = before_zero (c_four c)) by (unfold char_getBytes; rewrite X; apply take_before).
  split; [exact G|]. split; [exact X|].
  assert (Z : forall l, (In 0 l /\ (length (before_zero l) < length l)%nat) \/ (~ In 0 l /\ before_zero l = l)).
  { induction l as [|b l IH]; [right; split; [intros []|reflexivity]|]. cbn [before_zero In length]. destruct (N.eqb_spec b 0) as [->|NB].
    - left. split; [now left|cbn; lia].
    - destruct IH as [(I & S)|(I & S)]; [left; split; [now right|cbn; lia]|right]. split; [intros [J|J]; congruence|now rewrite S]. }
  unfold char_c_str. rewrite X, G. unfold size. destruct (Z (c_four c)) as [(I & S)|(I & S)].
  - rewrite L in S. rewrite (proj2 (N.ltb_lt _ 4)) by lia. split; split; intros H; [now left|reflexivity|discriminate|destruct H; now left].
  - rewrite S, L. change (N.of_nat 4 <? 4) with false. cbn iota.
    destruct (c_fifth c) as [[|p]|].
    + split; split; intros H; [now right|reflexivity|discriminate|destruct H; now right].
    + split; split; intros H; [discriminate|destruct H as [H|H]; [tauto|discriminate]|intros [J|J]; [tauto|discriminate]|reflexivity].
    + split; split; intros H; [discriminate|destruct H as [H|H]; [tauto|discriminate]|intros [J|J]; [tauto|discriminate]|reflexivity].
Qed.
Print Assumptions C143_shows.

(** As a C string, a new Char can be read exactly: always if made of a char or a byte; if made
    of a view, when there are at most four bytes or a zero among the five; if a copy or made of
    a number, when there is a zero among its four bytes. *)
Theorem C143_new :
  (forall b, char_c_str (char_char b) = Ret (before_zero [b; 0; 0; 0]) /\ char_c_str (char_byte b) = Ret (before_zero [b; 0; 0; 0])) /\
  (forall bs, (length bs <= 5)%nat -> exists c, char_view bs = Ret c /\
     (if Nat.leb (length bs) 4 || existsb (N.eqb 0) bs then char_c_str c = Ret (before_zero (four_of bs)) else char_c_str c = UB)) /\
  (forall c, length (c_four c) = 4%nat ->
     if existsb (N.eqb 0) (c_four c) then char_c_str (char_copy c) = Ret (before_zero (c_four c)) else char_c_str (char_copy c) = UB) /\
  (forall be v, let c := char_code be v in
     if existsb (N.eqb 0) (c_four c) then char_c_str c = Ret (before_zero (c_four c)) else char_c_str c = UB).
Proof.
  assert (Z : forall l, existsb (N.eqb 0) l = true <-> In 0 l).
  { intros l. rewrite existsb_exists. split; [intros (x & I & E); apply N.eqb_eq in E; now subst|intros I; exists 0; now split]. }
  assert (G : forall c, length (c_four c) = 4%nat -> (existsb (N.eqb 0) (c_four c) = true \/ c_fifth c = Some 0) -> char_c_str c = Ret (before_zero (c_four c))).
  { intros c L H. apply (C143_shows c L). rewrite <- Z. exact H. }
  assert (U : forall c, length (c_four c) = 4%nat -> existsb (N.eqb 0) (c_four c) = false -> c_fifth c <> Some 0 -> char_c_str c = UB).
  { intros c L H F. apply (C143_shows c L). rewrite <- Z. intros [X|X]; [congruence|contradiction]. }
  assert (K : forall c, length (c_four c) = 4%nat -> c_fifth c = None ->
     if existsb (N.eqb 0) (c_four c) then char_c_str c = Ret (before_zero (c_four c)) else char_c_str c = UB).
  { intros c L F. destruct (existsb (N.eqb 0) (c_four c)) eqn:E; [apply G; auto|apply U; auto; congruence]. }
  split; [|split; [|split]].
  - intros b. split; (rewrite G; [reflexivity|reflexivity|left; cbn; now rewrite orb_true_r]).
  - intros bs L. rewrite view_any. assert (F4 : length (four_of bs) = 4%nat) by (unfold four_of; rewrite firstn_length, app_length; cbn [length]; lia).
    rewrite (proj2 (Nat.leb_le _ _) L). eexists. split; [reflexivity|].
    destruct bs as [|b0 [|b1 [|b2 [|b3 [|b4 [|b5 bs]]]]]]; cbn [length] in L; try lia; cbn [length Nat.leb orb]; try (apply G; [reflexivity|right; reflexivity]).
    cbn [existsb nth]. change (four_of [b0; b1; b2; b3; b4]) with [b0; b1; b2; b3]. destruct (N.eqb_spec 0 b4) as [<-|N4].
    + rewrite !orb_true_r. apply G; [reflexivity|right; reflexivity].
    + cbn [orb]. destruct (_ || _) eqn:E; [apply G; [reflexivity|left; cbn [c_four existsb]; exact E]|apply U; [reflexivity|exact E|cbn [c_fifth]; congruence]].
  - intros c L. apply (K (char_copy c)); [exact L|reflexivity].
  - intros be v. apply K; [|reflexivity]. unfold char_code. cbn [c_four]. destruct be; rewrite ?rev_length; reflexivity.
Qed.
Print Assumptions C143_new.
Example C143_new_ok : (exists c, char_view [1; 2; 3; 4] = Ret c /\ char_c_str c = Ret [1; 2; 3; 4] /\ char_c_str (char_copy c) = UB) /\
  (exists c, char_view [1; 2; 3; 4; 5] = Ret c /\ char_c_str c = UB) /\ char_c_str (char_code false 66051) = Ret [3; 2; 1].
Proof. repeat split; try (eexists; repeat split; vm_compute; reflexivity). Qed.

(** Chars are equal exactly when all four bytes are, and ordered by the last byte that
    differs (little-endian hosts) or the first one (big-endian). *)
Lemma load_order : forall l m, length l = length m -> bytes_ok l -> bytes_ok m -> (le_load l < le_load m <-> lex_lt (rev l) (rev m)).
Proof.
  assert (LT : forall l, bytes_ok l -> le_load l < 256 ^ size l).
  { induction 1 as [|b l B _ IH]; [reflexivity|]. cbn [le_load]. rewrite size_cons, N.add_1_r, N.pow_succ_r'. unfold is_byte in B. lia. }
  assert (AP : forall a b, le_load (a ++ [b]) = le_load a + b * 256 ^ size a).
  { induction a as [|x a IH]; intros b; [cbn; lia|]. cbn [app le_load]. rewrite IH, size_cons, N.add_1_r, N.pow_succ_r'. lia. }
  induction l as [|x l IH] using rev_ind; intros m E Bl Bm.
  - destruct m; [|discriminate E]. cbn. split; [lia|]. intros H. now apply lex_irrefl in H.
  - destruct m as [|y m _] using rev_ind; [rewrite app_length in E; cbn in E; lia|]. rewrite !app_length in E. cbn [length] in E.
    assert (length l = length m) as E' by lia. apply Forall_app in Bl as (Bl & _), Bm as (Bm & _). specialize (IH m E' Bl Bm).
    rewrite !rev_app_distr. cbn [rev app]. rewrite <- lexltb_spec. cbn [lexltb]. rewrite !AP. assert (size m = size l) as -> by (unfold size; lia).
    pose proof (LT l Bl). pose proof (LT m Bm) as Lm. assert (size m = size l) as Em by (unfold size; lia). rewrite Em in Lm. generalize dependent (256 ^ size l). intros P Hl Lm.
    destruct (N.ltb_spec x y); [split; [reflexivity|]; intros _; nia|]. destruct (N.eqb_spec x y) as [->|].
    + rewrite lexltb_spec, <- IH. lia.
    + split; [nia|discriminate].
Qed.
Theorem C143_order : forall be a b, length (c_four a) = 4%nat -> length (c_four b) = 4%nat -> bytes_ok (c_four a) -> bytes_ok (c_four b) ->
  (char_equals be a b = true <-> c_four a = c_four b) /\
  (char_lt be a b = true <-> if be then lex_lt (c_four a) (c_four b) else lex_lt (rev (c_four a)) (rev (c_four b))).
Proof.
  intros be a b La Lb Ba Bb. assert (Br : forall l, bytes_ok l -> bytes_ok (rev l)).
  { intros l B. apply Forall_forall. intros x I. apply in_rev in I. unfold bytes_ok in B. rewrite Forall_forall in B. auto. }
  split.
  - unfold char_equals. rewrite N.eqb_eq. split; [apply value_inj; auto; congruence|unfold char_value; intros ->; reflexivity].
  - unfold char_lt. rewrite N.ltb_lt. unfold char_value. destruct be.
    + rewrite load_order by (rewrite ?rev_length; auto; congruence). now rewrite !rev_involutive.
    + apply load_order; auto; congruence.
Qed.
Print Assumptions C143_order.

(** The byte a Char is classified by: the first, on a little-endian host, if the others are
    zero; the last on a big-endian host. *)
Inductive class := Byte (b : N) | Everywhere255 | Neither.
Definition class_of (be : bool) (four : list N) : class :=
  match (if be then rev four else four) with
  | b :: r => if forallb (N.eqb 0) r then Byte b else if forallb (N.eqb 255) (b :: r) then Everywhere255 else Neither
  | [] => Neither
  end.
Definition classified (k : class) (f : N -> bool) : outcome bool :=
  match k with Byte b => Ret (f b) | Everywhere255 => Ret false | Neither => UB end.

Lemma value_class be c : length (c_four c) = 4%nat -> bytes_ok (c_four c) ->
  match class_of be (c_four c) with
  | Byte b => char_value be c = b /\ is_byte b
  | Everywhere255 => char_value be c = eof
  | Neither => 256 <= char_value be c /\ char_value be c <> eof
  end.
Proof.
  intros L B. unfold class_of, char_value. assert (K : forall l, length l = 4%nat -> bytes_ok l ->
    match match l with b :: r => if forallb (N.eqb 0) r then Byte b else if forallb (N.eqb 255) (b :: r) then Everywhere255 else Neither | [] => Neither end with
    | Byte b => le_load l = b /\ is_byte b | Everywhere255 => le_load l = eof | Neither => 256 <= le_load l /\ le_load l <> eof end).
  { clear. intros l L B. destruct l as [|a [|b [|c [|d [|]]]]]; try discriminate L. repeat match goal with H : bytes_ok (_ :: _) |- _ => inversion H; subst; clear H | H : Forall _ (_ :: _) |- _ => inversion H; subst; clear H end.
    unfold is_byte, eof in *. cbn [forallb le_load]. destruct (N.eqb_spec 0 b), (N.eqb_spec 0 c), (N.eqb_spec 0 d); cbn [andb]; try (split; [lia|assumption]);
      destruct (N.eqb_spec 255 a), (N.eqb_spec 255 b), (N.eqb_spec 255 c), (N.eqb_spec 255 d); cbn [andb]; try (split; lia); lia. }
  destruct be; [|now apply K]. apply K; [now rewrite rev_length|].
  apply Forall_forall. intros x I. apply in_rev in I. unfold bytes_ok in B. rewrite Forall_forall in B. auto.
Qed.

(** Every classification of every Char on every host: that of the byte; false for four
    times 255 (Eof); otherwise undefined. *)
Theorem C143_classes : forall be c, length (c_four c) = 4%nat -> bytes_ok (c_four c) ->
  let k := class_of be (c_four c) in
  char_isDigit be c = classified k digit /\
  char_isXDigit be c = classified k (spelled HEX) /\
  char_isLetter be c = classified k letter /\
  char_isLetterOrDigit be c = classified k (fun b => letter b || digit b) /\
  char_isUpperCase be c = classified k (spelled UPPER) /\
  char_isLowerCase be c = classified k (spelled LOWER) /\
  char_isWhitespace be c = classified k blank /\
  char_isCntrl be c = classified k control /\
  char_isGraphical be c = classified k visible /\
  char_isPrintable be c = classified k (fun b => visible b || (b =? 32)) /\
  char_isPunctuation be c = classified k (spelled PUNCT) /\
  char_isNewLine c = match c_four c with x :: y :: _ => (x =? 10) && (y =? 0) | _ => false end.
Proof.
  intros be c L B k. pose proof (value_class be c L B) as V. fold k in V.
  unfold char_isDigit, char_isXDigit, char_isLetter, char_isLetterOrDigit, char_isUpperCase, char_isLowerCase,
    char_isWhitespace, char_isCntrl, char_isGraphical, char_isPrintable, char_isPunctuation. destruct k as [b| |]; cbn [classified].
  - destruct V as (V & Bb). rewrite V. assert (W : char_value false (char_char b) = b) by (unfold char_value, char_char; cbn [c_four le_load]; lia).
    pose proof (C90_classes_partial b Bb) as C. unfold char_isDigit, char_isXDigit, char_isLetter, char_isLetterOrDigit, char_isUpperCase, char_isLowerCase,
      char_isWhitespace, char_isCntrl, char_isGraphical, char_isPrintable, char_isPunctuation in C. rewrite W in C. intuition.
  - rewrite V. repeat (split; [reflexivity|]). reflexivity.
  - destruct V as (V1 & V2). assert (T : forall f, ctype f (char_value be c) = UB).
    { intros f. unfold ctype. now rewrite (proj2 (N.ltb_ge _ 256) V1), (proj2 (N.eqb_neq _ _) V2). }
    rewrite !T. repeat (split; [reflexivity|]). reflexivity.
Qed.
Print Assumptions C143_classes.

(** Symbols: letters, digits and what begins with an underscore and a zero byte. *)
Theorem C143_symbols : forall be c, length (c_four c) = 4%nat -> bytes_ok (c_four c) ->
  let k := class_of be (c_four c) in
  let underscore := match c_four c with x :: y :: _ => (x =? 95) && (y =? 0) | _ => false end in
  char_isSymbol be c = match k with Byte b => Ret (letter b || digit b || underscore) | Everywhere255 => Ret false | Neither => UB end /\
  char_isFirstSymbol be c = match k with Byte b => Ret (letter b || underscore) | Everywhere255 => Ret false | Neither => UB end.
Proof.
  intros be c L B k underscore. destruct (C143_classes be c L B) as (_ & _ & A1 & A2 & _). unfold char_isSymbol, char_isFirstSymbol. rewrite A1, A2. fold k.
  pose proof (value_class be c L B) as V. fold k in V. change (char_is_byte 95 c) with underscore.
  destruct k as [b| |]; cbn [classified bind]; [split; reflexivity| |split; reflexivity].
  assert (underscore = false) as ->; [|split; reflexivity]. unfold underscore, char_value in *.
  destruct (c_four c) as [|x [|y [|z [|w [|]]]]]; try discriminate L. unfold eof in V. repeat match goal with H : bytes_ok (_ :: _) |- _ => inversion H; subst; clear H | H : Forall _ (_ :: _) |- _ => inversion H; subst; clear H end.
  unfold is_byte in *. destruct (N.eqb_spec x 95), (N.eqb_spec y 0); try reflexivity. exfalso. destruct be; cbn [rev app le_load] in V; lia.
Qed.
Print Assumptions C143_symbols.

(** The case conversions likewise; the result is a Char of that value. *)
Theorem C143_case : forall be c, length (c_four c) = 4%nat -> bytes_ok (c_four c) ->
  let converted (f : N -> N) := match class_of be (c_four c) with Byte b => Ret (char_code be (f b)) | Everywhere255 => Ret (char_code be eof) | Neither => UB end in
  char_toLower be c = converted lower_of /\ char_toUpper be c = converted upper_of.
Proof.
  intros be c L B converted. subst converted. cbv beta. pose proof (value_class be c L B) as V. unfold char_toLower, char_toUpper. destruct (class_of be (c_four c)) as [b| |].
  - destruct V as (-> & Bb). unfold ctype_map. unfold is_byte in Bb. rewrite (proj2 (N.ltb_lt b 256) Bb). cbn [bind].
    assert (Sw : forall f g : N -> N, forallb (fun n => f (N.of_nat n) =? g (N.of_nat n)) (seq 0 256) = true -> f b = g b).
    { intros f g H. apply (byte_sweep (fun x => f x =? g x) H) in Bb. now apply N.eqb_eq in Bb. }
    rewrite (Sw c_tolower lower_of) by reflexivity. rewrite (Sw c_toupper upper_of) by reflexivity. split; reflexivity.
  - rewrite V. split; reflexivity.
  - destruct V as (V1 & V2). unfold ctype_map. rewrite (proj2 (N.ltb_ge _ 256) V1), (proj2 (N.eqb_neq _ _) V2). split; reflexivity.
Qed.
Print Assumptions C143_case.

(** Five bytes, moves and a swap; the letter a on both kinds of host. *)
Example C143_ok : exists st, char_run [ChView 0 [226; 130; 172; 33; 7]; ChChar 1 97; ChSwap 0 1; ChCopy 2 1] (repeat char_new 3) = Ret st /\
  map c_four st = [[97; 0; 0; 0]; [226; 130; 172; 33]; [226; 130; 172; 33]] /\ map c_fifth st = [None; None; None] /\
  class_of false [97; 0; 0; 0] = Byte 97 /\ class_of true [97; 0; 0; 0] = Neither.
Proof. eexists. repeat split. Qed.
