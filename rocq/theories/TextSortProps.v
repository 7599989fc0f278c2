(** C150: all comparison operators on all texts, and exactly which texts they sort. *)
From Verif Require Import Base BaseLemmas LexSpec LexProofs StringModel StringViewModel StringViewProofs CompareAllSpec CompareAllProps.
From Verif Require Import TextOpsModel TextOpsSpec TextOpsProofs TextOpsProps.
Ltac Zify.zify_post_hook ::= Z.div_mod_to_equations.

(** ** Equality *)
(** What the operators see of an operand: of a C string of [n] characters the first [n] modulo
    65536; nothing of memory without a zero byte, which is undefined. *)
Inductive sees : operand -> option (list N) -> Prop :=
| sees_string s t unused : size t < 2 ^ 16 -> st_buf s = t ++ unused -> st_size s = size t -> sees (OStr s) (Some t)
| sees_view t : size t < 2 ^ 16 -> sees (OView t) (Some t)
| sees_literal t : size t < 2 ^ 16 -> sees (OLit t) (Some t)
| sees_null : sees (OCstr None) (Some [])
| sees_cstring t after : ~ In 0 t -> sees (OCstr (Some (t ++ 0 :: after))) (Some (firstn (N.to_nat (size t mod 2 ^ 16)) t))
| sees_unterminated m : ~ In 0 m -> sees (OCstr (Some m)) None.

Lemma view_of_sees o t : sees o t -> view_of o = match t with Some s => Ret s | None => UB end.
Proof.
  intros H. destruct H as [s t unused L B Z|t L|t L| |t after Z|m Z]; cbn [view_of view_of_cstr]; try reflexivity.
  - f_equal. unfold str_view. rewrite Z, B, size_app. rewrite N.min_r by lia. apply ntake_app_exact.
  - change (view_of_cstr (Some (t ++ 0 :: after)) = Ret (firstn (N.to_nat (size t mod 2 ^ 16)) t)). rewrite cstr_spec by exact Z. now rewrite ntake_firstn.
  - assert (strlen m = UB) as ->; [|reflexivity]. induction m as [|b m IH]; [reflexivity|]. cbn [strlen].
    destruct (N.eqb_spec b 0) as [->|_]; [exfalso; apply Z; now left|]. rewrite IH; [reflexivity|]. intros X. apply Z. now right.
Qed.

(** Between operands of any types and contents: the operators are there for the comparable
    pairs; they are undefined if one operand has no end; otherwise == tells whether what is
    seen is the same, != the opposite, in both orders. *)
Theorem C150_equal : forall x y a b, sees x a -> sees y b ->
  (comparable x y ->
     match a, b with
     | Some s, Some t => exists e, op_eq x y = Some (Ret e) /\ op_eq y x = Some (Ret e) /\ op_ne x y = Some (Ret (negb e)) /\ op_ne y x = Some (Ret (negb e)) /\ (e = true <-> s = t)
     | _, _ => op_eq x y = Some UB /\ op_eq y x = Some UB /\ op_ne x y = Some UB /\ op_ne y x = Some UB
     end) /\
  (~ comparable x y -> op_eq x y = None /\ op_ne x y = None).
Proof.
  intros x y a b X Y. pose proof (view_of_sees x a X) as VX. pose proof (view_of_sees y b Y) as VY. split.
  - intros C. assert (comparable y x) as C' by (now apply (proj2 (proj2 (C118_both_orders x y)))). destruct a as [s|], b as [t|].
    + exists (sv_equals s t). destruct (op_eq_views x y s t C VX VY) as (-> & ->). destruct (op_eq_views y x t s C' VY VX) as (-> & ->).
      rewrite (sv_equals_sym t s). repeat split; apply sv_equals_spec.
    + destruct x, y; cbn [comparable] in C; try contradiction; cbn [op_eq op_ne]; unfold not_equals_of, equals_of; cbn [view_of] in *; rewrite ?VX, ?VY; cbn [bind]; rewrite ?VX, ?VY; repeat split; reflexivity.
    + destruct x, y; cbn [comparable] in C; try contradiction; cbn [op_eq op_ne]; unfold not_equals_of, equals_of; cbn [view_of] in *; rewrite ?VX, ?VY; cbn [bind]; rewrite ?VX, ?VY; repeat split; reflexivity.
    + destruct x, y; cbn [comparable] in C; try contradiction; cbn [op_eq op_ne]; unfold not_equals_of, equals_of; cbn [view_of] in *; rewrite ?VX, ?VY; cbn [bind]; rewrite ?VX, ?VY; repeat split; reflexivity.
  - intros C. destruct x, y; cbn in *; tauto.
Qed.
Print Assumptions C150_equal.

(** ** Order *)
Definition tells (r : rel) (s : comparison) : bool :=
  match r, s with Lt, Datatypes.Lt | Le, (Datatypes.Lt | Eq) | Gt, Datatypes.Gt | Ge, (Datatypes.Gt | Eq) => true | _, _ => false end.
Lemma op_ord_compares r a b v : text_ok a -> text_ok b -> compares a b v -> op_ord r a b = match v with Some s => Ret (tells r s) | None => Terminates end.
Proof.
  intros A B C. apply compares_sound in C; [|exact A|exact B]. unfold op_ord. destruct v as [s|]; cbn [answers] in C; [|now rewrite C].
  destruct C as (z & -> & <-). cbn [bind]. f_equal. destruct r; cbn [tells]; unfold Z.ltb, Z.leb; rewrite ?(Z.compare_antisym z 0); destruct (z ?= 0)%Z; reflexivity.
Qed.
Lemma fun_compares a b v w : text_ok a -> text_ok b -> compares a b v -> compares a b w -> v = w.
Proof. intros A B V W. exact (answers_fun _ _ _ (compares_sound _ _ _ A B V) (compares_sound _ _ _ A B W)). Qed.
Lemma sign_gt c : sign c = Datatypes.Gt <-> 0 < c < 128.
Proof. unfold sign; destruct (N.eqb_spec c 0), (N.ltb_spec c 128); split; intros; try discriminate; try lia; reflexivity. Qed.
Lemma sign_lt c : sign c = Datatypes.Lt <-> 128 <= c.
Proof. unfold sign; destruct (N.eqb_spec c 0), (N.ltb_spec c 128); split; intros; try discriminate; try lia; reflexivity. Qed.
Lemma opp_lt c : CompOpp (sign c) = Datatypes.Lt <-> 0 < c < 128.
Proof. rewrite <- sign_gt; destruct (sign c); cbn; split; congruence. Qed.
Lemma opp_gt c : CompOpp (sign c) = Datatypes.Gt <-> 128 <= c.
Proof. rewrite <- sign_lt; destruct (sign c); cbn; split; congruence. Qed.
Lemma compares_short a b : (length a < length b)%nat -> compares a b (Some (CompOpp (sign (last b 0)))).
Proof.
  intros L. destruct b as [|c p _] using rev_ind; [cbn in L; lia|]. rewrite last_last. apply compares_shorter. rewrite app_length in L. cbn in L. lia.
Qed.
Lemma compares_long a b : (length b < length a)%nat -> b <> [] -> compares a b (Some (sign (nth (length b - 1) a 0))).
Proof.
  intros L E. assert (length b - 1 < length a)%nat as K by lia. destruct (nth_split a 0 K) as (p & r & Q & P). rewrite Q at 1.
  apply compares_longer.
  - intros ->. apply (f_equal (@length N)) in Q. rewrite app_length in Q. cbn in Q. destruct b; [congruence|]. cbn [length] in *. lia.
  - rewrite P. destruct b; [congruence|]. cbn [length] in *. lia.
Qed.
Lemma compares_same a b s : length a = length b -> compares a b (Some s) -> 
  match s with Datatypes.Lt => lex_lt (before_nul a) (before_nul b) | Eq => before_nul a = before_nul b | Datatypes.Gt => lex_lt (before_nul b) (before_nul a) end.
Proof.
  intros L C. inversion C; subst; trivial; exfalso.
  - rewrite app_length in L. destruct r; [congruence|]. cbn in L. lia.
  - rewrite app_length in L. cbn in L. lia.
Qed.

(** Exactly what each operator answers, for any two texts.  [a < b] if they have the same
    length and [a] is smaller up to the first NUL, or if [b] is longer and ends with a byte
    from 1 to 127, or if [a] is longer and has a byte from 128 on at the last position of [b];
    and so on.  They end the program if something is compared with the empty text. *)
Theorem C150_order : forall a b, text_ok a -> text_ok b ->
  (op_ord Lt a b = Ret true <->
     (length a = length b /\ lex_lt (before_nul a) (before_nul b)) \/
     ((length a < length b)%nat /\ 0 < last b 0 < 128) \/
     ((length b < length a)%nat /\ b <> [] /\ 128 <= nth (length b - 1) a 0)) /\
  (op_ord Gt a b = Ret true <->
     (length a = length b /\ lex_lt (before_nul b) (before_nul a)) \/
     ((length a < length b)%nat /\ 128 <= last b 0) \/
     ((length b < length a)%nat /\ b <> [] /\ 0 < nth (length b - 1) a 0 < 128)) /\
  (op_ord Le a b = Ret true <-> op_ord Gt a b = Ret false) /\
  (op_ord Ge a b = Ret true <-> op_ord Lt a b = Ret false) /\
  (forall r, op_ord r a b = Terminates <-> a <> [] /\ b = []) /\
  (forall r, op_ord r a b = Terminates \/ exists v, op_ord r a b = Ret v) /\
  (forall s t, str_view s = a -> str_view t = b -> str_lt s t = op_ord Lt a b).
Proof.
  intros a b A B. destruct (compares_total a b) as (v & V).
  assert (forall r, op_ord r a b = match v with Some s => Ret (tells r s) | None => Terminates end) as R by (intros r; now apply op_ord_compares).
  split; [|split; [|split; [|split; [|split; [|split]]]]].
  - rewrite R. split.
    + intros H. destruct v as [[| |]|]; try discriminate H. destruct (Nat.lt_trichotomy (length a) (length b)) as [L|[L|L]].
      * right; left. split; [exact L|]. apply opp_lt. pose proof (fun_compares _ _ _ _ A B V (compares_short _ _ L)) as Q. congruence.
      * left. split; [exact L|]. apply (compares_same _ _ _ L V).
      * right; right. destruct b as [|y b]; [exfalso; destruct a as [|x a]; [cbn in L; lia|]; now pose proof (fun_compares _ _ _ _ A B V (compares_nothing x a))|]. split; [exact L|]. split; [discriminate|]. apply sign_lt.
        pose proof (fun_compares _ _ _ _ A B V (compares_long _ _ L ltac:(discriminate))) as Q. congruence.
    + intros [(L & H)|[(L & H)|(L & E & H)]].
      * now rewrite (fun_compares _ _ _ _ A B V (compares_less _ _ L H)).
      * rewrite (fun_compares _ _ _ _ A B V (compares_short _ _ L)). now rewrite (proj2 (opp_lt _) H).
      * rewrite (fun_compares _ _ _ _ A B V (compares_long _ _ L E)). now rewrite (proj2 (sign_lt _) H).
  - rewrite R. split.
    + intros H. destruct v as [[| |]|]; try discriminate H. destruct (Nat.lt_trichotomy (length a) (length b)) as [L|[L|L]].
      * right; left. split; [exact L|]. apply opp_gt. pose proof (fun_compares _ _ _ _ A B V (compares_short _ _ L)) as Q. congruence.
      * left. split; [exact L|]. apply (compares_same _ _ _ L V).
      * right; right. destruct b as [|y b]; [exfalso; destruct a as [|x a]; [cbn in L; lia|]; now pose proof (fun_compares _ _ _ _ A B V (compares_nothing x a))|]. split; [exact L|]. split; [discriminate|]. apply sign_gt.
        pose proof (fun_compares _ _ _ _ A B V (compares_long _ _ L ltac:(discriminate))) as Q. congruence.
    + intros [(L & H)|[(L & H)|(L & E & H)]].
      * now rewrite (fun_compares _ _ _ _ A B V (compares_greater _ _ L H)).
      * rewrite (fun_compares _ _ _ _ A B V (compares_short _ _ L)). now rewrite (proj2 (opp_gt _) H).
      * rewrite (fun_compares _ _ _ _ A B V (compares_long _ _ L E)). now rewrite (proj2 (sign_gt _) H).
  - rewrite !R. destruct v as [[| |]|]; cbn; split; congruence.
  - rewrite !R. destruct v as [[| |]|]; cbn; split; congruence.
  - intros r. rewrite R. split.
    + destruct v as [s|]; [discriminate|]. intros _. inversion V; subst. split; [discriminate|reflexivity].
    + intros (X & ->). destruct a as [|c a]; [congruence|]. now rewrite (fun_compares _ _ _ _ A B V (compares_nothing c a)).
  - intros r. rewrite R. destruct v; [right; eauto|now left].
  - intros s t <- <-. unfold str_lt. pose proof (R Lt) as Q. unfold op_ord in *. destruct (sv_compareTo (str_view s) (str_view t)); cbn [bind] in *; try reflexivity. destruct v; discriminate.
Qed.
Print Assumptions C150_order.

(** ** Sorting *)
(** [<] sorts a collection of texts: it always answers, no text is before itself, of two
    different texts one is before the other, and it goes through. *)
Definition sorts (T : list N -> Prop) : Prop :=
  (forall a b, T a -> T b -> exists v, op_ord Lt a b = Ret v) /\
  (forall a, T a -> op_ord Lt a a = Ret false) /\
  (forall a b, T a -> T b -> a <> b -> op_ord Lt a b = Ret true \/ op_ord Lt b a = Ret true) /\
  (forall a b c, T a -> T b -> T c -> op_ord Lt a b = Ret true -> op_ord Lt b c = Ret true -> op_ord Lt a c = Ret true).

(** A text that comes after the shorter ones. *)
Definition ends_low (a : list N) : Prop := 0 < last a 0 < 128.

(** The collections of texts that can be sorted, in full: different texts of the same length
    differ before a NUL; the empty text is alone; a text has a byte from 128 on at the last
    position of a shorter one exactly if it does not itself end with a byte from 1 to 127; of
    two texts of the same length and longer than a third, one that ends with such a byte is
    after one that does not. *)
Theorem C150_sortable : forall T : list N -> Prop, (forall a, T a -> text_ok a) ->
  (sorts T <->
   (forall a b, T a -> T b -> length a = length b -> before_nul a = before_nul b -> a = b) /\
   (forall a b, T a -> T b -> (length b < length a)%nat -> b <> [] /\ (128 <= nth (length b - 1) a 0 <-> ~ ends_low a)) /\
   (forall a b c, T a -> T b -> T c -> length a = length b -> (length c < length a)%nat -> ends_low a -> ~ ends_low b ->
      lex_lt (before_nul b) (before_nul a))).
Proof.
  intros T OK.
  assert (forall a b, T a -> T b -> length a = length b -> (op_ord Lt a b = Ret true <-> lex_lt (before_nul a) (before_nul b))) as SAME.
  { intros a b A B L. rewrite (proj1 (C150_order a b (OK a A) (OK b B))). split; [|intros H; left; now split]. intros [(_ & H)|[(H & _)|(H & _)]]; [exact H|lia|lia]. }
  assert (forall a b, T a -> T b -> (length b < length a)%nat -> (op_ord Lt b a = Ret true <-> ends_low a)) as UP.
  { intros a b A B L. rewrite (proj1 (C150_order b a (OK b B) (OK a A))). unfold ends_low. split; [|intros H; right; left; now split]. intros [(H & _)|[(_ & H)|(H & _)]]; [lia|exact H|lia]. }
  assert (forall a b, T a -> T b -> (length b < length a)%nat -> b <> [] -> (op_ord Lt a b = Ret true <-> 128 <= nth (length b - 1) a 0)) as DOWN.
  { intros a b A B L E. rewrite (proj1 (C150_order a b (OK a A) (OK b B))). split; [|intros H; right; right; now repeat split]. intros [(H & _)|[(H & _)|(_ & _ & H)]]; [lia|lia|exact H]. }
  split.
  - intros (DEF & IRR & TOT & TR).
    assert (forall a b, T a -> T b -> op_ord Lt a b = Ret true -> op_ord Lt b a = Ret true -> False) as ASYM.
    { intros a b A B X Y. pose proof (TR a b a A B A X Y) as Z. rewrite (IRR a A) in Z. discriminate. }
    assert (forall a b, T a -> T b -> (length b < length a)%nat -> b <> []) as NE.
    { intros a b A B L ->. destruct (DEF a [] A B) as (v & V). assert (op_ord Lt a [] = Terminates) as X; [|congruence].
      apply (C150_order a [] (OK a A) (OK [] B)). split; [|reflexivity]. intros ->. cbn in L. lia. }
    split; [|split].
    + intros a b A B L E. destruct (list_eq_dec N.eq_dec a b) as [D|D]; [exact D|exfalso].
      destruct (TOT a b A B D) as [X|X]; apply SAME in X; trivial; try (now symmetry); rewrite E in X; now apply lex_irrefl in X.
    + intros a b A B L. pose proof (NE a b A B L) as E. split; [exact E|]. rewrite <- (DOWN a b), <- (UP a b) by assumption. split.
      * intros X Y. now apply (ASYM a b).
      * intros X. destruct (TOT a b A B) as [Y|Y]; [intros ->; lia|exact Y|contradiction].
    + intros a b c A B C L K X Y. pose proof (proj2 (UP a c A C K) X) as P.
      assert (length c < length b)%nat as K' by lia. assert (op_ord Lt b c = Ret true) as Q.
      { destruct (TOT b c B C) as [Z|Z]; [intros ->; lia|exact Z|]. now apply (UP b c) in Z. }
      apply SAME; auto. now apply (TR b c a).
  - intros (UNI & LEN & MIX).
    assert (forall a b, T a -> T b -> exists v, op_ord Lt a b = Ret v) as DEF.
    { intros a b A B. destruct (C150_order a b (OK a A) (OK b B)) as (_ & _ & _ & _ & X & Y & _). destruct (Y Lt) as [Z|Z]; [|exact Z].
      apply X in Z. destruct Z as (Z & ->). destruct a as [|x a]; [congruence|]. destruct (LEN (x :: a) [] A B); [cbn; lia|congruence]. }
    assert (forall a, T a -> op_ord Lt a a <> Ret true) as IRR by (intros a A X; apply SAME in X; trivial; now apply lex_irrefl in X).
    assert (forall a b, T a -> T b -> (length b < length a)%nat -> (op_ord Lt a b = Ret true <-> ~ ends_low a)) as DN.
    { intros a b A B L. destruct (LEN a b A B L) as (E & X). now rewrite (DOWN a b). }
    assert (forall a b, T a -> T b -> a <> b -> op_ord Lt a b = Ret true \/ op_ord Lt b a = Ret true) as TOT.
    { assert (forall a b, T a -> T b -> (length b < length a)%nat -> op_ord Lt a b = Ret true \/ op_ord Lt b a = Ret true) as H.
      { intros a b A B L. rewrite (DN a b), (UP a b) by assumption. unfold ends_low. lia. }
      intros a b A B D. destruct (Nat.lt_trichotomy (length a) (length b)) as [L|[L|L]]; [now apply or_comm, H| |now apply H].
      rewrite (SAME a b), (SAME b a) by auto. destruct (lex_total (before_nul a) (before_nul b)) as [X|[X|X]]; auto. now apply UNI in X. }
    assert (forall a b, T a -> T b -> op_ord Lt a b = Ret true -> op_ord Lt b a = Ret true -> False) as ASYM.
    { intros a b A B X Y. destruct (Nat.lt_trichotomy (length a) (length b)) as [L|[L|L]].
      - apply (UP b a B A L) in X. apply (DN b a B A L) in Y. contradiction.
      - apply SAME in X, Y; auto. now apply (lex_asym _ _ X).
      - apply (UP a b A B L) in Y. apply (DN a b A B L) in X. contradiction. }
    split; [exact DEF|]. split; [|split; [exact TOT|]].
    { intros a A. destruct (DEF a a A A) as ([] & V); [now apply IRR in V|exact V]. }
    assert (forall a b c, T a -> T b -> T c -> (length b <= length a)%nat -> (length c <= length a)%nat ->
              op_ord Lt a b = Ret true -> op_ord Lt b c = Ret true -> op_ord Lt c a = Ret true -> False) as CYC.
    { intros a b c A B C LB LC X Y Z. destruct (Nat.eq_dec (length b) (length a)) as [EB|EB], (Nat.eq_dec (length c) (length a)) as [EC|EC].
      - apply SAME in X, Y, Z; try congruence. apply (lex_asym _ _ Z). now apply (lex_trans _ (before_nul b)).
      - apply (UP a c) in Z; trivial; [|lia]. apply (DN b c) in Y; trivial; [|lia]. apply SAME in X; auto.
        apply (lex_asym _ _ X). apply (MIX a b c); auto; lia.
      - apply (DN a b) in X; trivial; [|lia]. apply (UP c b) in Y; trivial; [|lia]. apply SAME in Z; auto.
        apply (lex_asym _ _ Z). apply (MIX c a b); auto; lia.
      - apply (DN a b) in X; trivial; [|lia]. apply (UP a c) in Z; trivial; [|lia]. contradiction. }
    intros a b c A B C X Y. destruct (list_eq_dec N.eq_dec a c) as [<-|D]; [exfalso; now apply (ASYM a b)|].
    destruct (TOT a c A C D) as [Z|Z]; [exact Z|exfalso].
    destruct (Nat.le_gt_cases (length b) (length a)) as [P|P], (Nat.le_gt_cases (length c) (length a)) as [Q|Q], (Nat.le_gt_cases (length c) (length b)) as [R|R];
      first [apply (CYC a b c); auto; lia|apply (CYC b c a); auto; lia|apply (CYC c a b); auto; lia].
Qed.
Print Assumptions C150_sortable.

(** Texts without NUL and without bytes from 128 on, other than the empty one, can be sorted;
    so can all texts of one length without NUL. *)
Theorem C150_sorted : 
  sorts (fun a => text_ok a /\ a <> [] /\ Forall (fun c => 0 < c < 128) a) /\
  (forall n, sorts (fun a => text_ok a /\ length a = n /\ ~ In 0 a)).
Proof.
  assert (forall a, ~ In 0 a -> before_nul a = a) as BN.
  { induction a as [|c a IH]; intros H; [reflexivity|]. cbn [before_nul]. destruct (N.eqb_spec c 0) as [->|_]; [exfalso; apply H; now left|]. now rewrite IH by (intros X; apply H; now right). }
  split.
  - apply C150_sortable; [intros a (K & _); exact K|].
    assert (forall a, Forall (fun c => 0 < c < 128) a -> before_nul a = a) as BF.
    { intros a F. apply BN. intros X. rewrite Forall_forall in F. specialize (F 0 X). lia. }
    assert (forall a, a <> [] -> Forall (fun c => 0 < c < 128) a -> ends_low a) as EL.
    { intros a E F. unfold ends_low. destruct a as [|c p _] using rev_ind; [congruence|]. rewrite last_last. apply Forall_app in F. destruct F as (_ & F). now inversion F. }
    split; [|split].
    + intros a b (_ & _ & A) (_ & _ & B) _. now rewrite !BF by assumption.
    + intros a b (_ & E & A) (_ & E' & B) L. split; [exact E'|]. pose proof (EL a E A) as H. split; [|contradiction]. intros G _.
      rewrite Forall_forall in A. assert (In (nth (length b - 1) a 0) a) as X by (apply nth_In; lia). specialize (A _ X). lia.
    + intros a b c _ (_ & E & B) _ _ _ _ H. exfalso. now apply H, EL.
  - intros n. apply C150_sortable; [intros a (K & _); exact K|]. split; [|split].
    + intros a b (_ & _ & A) (_ & _ & B) _. now rewrite !BN by assumption.
    + intros a b (_ & A & _) (_ & B & _) L. lia.
    + intros a b c (_ & A & _) (_ & B & _) (_ & C & _) L K. lia.
Qed.
Print Assumptions C150_sorted.
(** Three texts that go round: without NUL, none empty, each before the next. *)
Example C150_cycle : ~ sorts (fun a => In a [[97; 97]; [200; 200]; [120]]) /\
  op_ord Lt [97; 97] [200; 200] = Ret true /\ op_ord Lt [200; 200] [120] = Ret true /\ op_ord Lt [120] [97; 97] = Ret true.
Proof.
  split; [|repeat split; reflexivity]. intros (_ & IRR & _ & TR).
  assert (op_ord Lt [97; 97] [120] = Ret true) as X by (apply (TR [97; 97] [200; 200] [120]); [cbn; auto|cbn; auto|cbn; auto|reflexivity|reflexivity]).
  discriminate X.
Qed.
(** A mixed collection that can be sorted. *)
Example C150_case : sorts (fun a => In a [[200; 200]; [120]; [97; 97; 97]]) /\ op_ord Lt [200; 200] [120] = Ret true /\ op_ord Lt [120] [97; 97; 97] = Ret true.
Proof.
  split; [|split; reflexivity]. apply C150_sortable.
  - intros a [<-|[<-|[<-|[]]]]; (split; [reflexivity|repeat constructor]).
  - split; [|split].
    + intros a b [<-|[<-|[<-|[]]]] [<-|[<-|[<-|[]]]] L E; try discriminate L; reflexivity.
    + intros a b [<-|[<-|[<-|[]]]] [<-|[<-|[<-|[]]]] L; cbn [length] in L; try lia; (split; [discriminate|]); unfold ends_low; cbn; lia.
    + intros a b c [<-|[<-|[<-|[]]]] [<-|[<-|[<-|[]]]] [<-|[<-|[<-|[]]]] L K E F; try discriminate L; contradiction.
Qed.
Example C150_ok : sees (OCstr (Some [97; 98; 0; 9])) (Some [97; 98]) /\ sees (OView [97; 98]) (Some [97; 98]) /\ sees (OCstr (Some [97; 98])) None /\
  op_eq (OCstr (Some [97; 98; 0; 9])) (OView [97; 98]) = Some (Ret true) /\ op_eq (OCstr (Some [97; 98])) (OView [97; 98]) = Some UB.
Proof.
  split; [|split; [now apply sees_view|split; [|split; reflexivity]]].
  - apply (sees_cstring [97; 98] [9]). intros [H|[H|[]]]; discriminate H.
  - apply sees_unterminated. intros [H|[H|[]]]; discriminate H.
Qed.
