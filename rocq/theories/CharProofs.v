(** Lemmas for Char. *)
From Coq Require Import String Ascii.
From Verif Require Import Base BaseLemmas ByteIOModel CharModel CharSpec.
Open Scope N_scope.

(** The four bytes that represent a text. *)
Definition pad (bs : list N) : list N :=
  match bs with
  | [] => [0; 0; 0; 0]
  | [a] => [a; 0; 0; 0]
  | [a; b] => [a; b; 0; 0]
  | [a; b; c] => [a; b; c; 0]
  | _ => firstn 4 bs
  end.
Definition is_text (bs : list N) (c : char) : Prop := c_four c = pad bs.

Ltac spread bs := destruct bs as [|?b0 [|?b1 [|?b2 [|?b3 [|?b4 ?bs]]]]].

Lemma view_pad bs : (length bs <= 4)%nat -> char_view bs = Ret (mkChar (pad bs) (Some 0)).
Proof. intros L. spread bs; cbn in L; try lia; reflexivity. Qed.

Lemma view_five bs : length bs = 5%nat -> char_view bs = Ret (mkChar (firstn 4 bs) (Some (nth 4 bs 0))).
Proof. intros L. spread bs; try destruct bs; cbn in L; try lia; reflexivity. Qed.

Lemma fill_out bs : forall i c, 5 <= i -> bs <> [] -> char_fill i bs c = UB.
Proof.
  intros i c H. destruct bs as [|b t]; [congruence|]. intros _. cbn. unfold char_put.
  rewrite (proj2 (N.ltb_ge i 4)) by lia. rewrite (proj2 (N.eqb_neq i 4)) by lia. reflexivity.
Qed.

Lemma view_out bs : (5 < length bs)%nat -> char_view bs = UB.
Proof.
  intros L. destruct bs as [|b0 [|b1 [|b2 [|b3 [|b4 [|b5 bs]]]]]]; cbn in L; try lia.
  reflexivity.
Qed.

Lemma count_before n bs : (length bs <= n)%nat -> count_bytes n bs = size (before_zero bs).
Proof.
  revert bs. induction n as [|n IH]; intros [|b t] L; cbn in *; try reflexivity; try lia.
  destruct (b =? 0); [reflexivity|]. rewrite IH by lia. rewrite size_cons. reflexivity.
Qed.
Lemma take_before bs : ntake (size (before_zero bs)) bs = before_zero bs.
Proof.
  rewrite ntake_firstn. unfold size. rewrite Nat2N.id. induction bs as [|b t IH]; [reflexivity|].
  cbn. destruct (b =? 0); [reflexivity|]. cbn. now rewrite IH.
Qed.

Lemma before_pad bs : (length bs <= 4)%nat -> before_zero (pad bs) = before_zero bs.
Proof. intros L. spread bs; cbn in L; try lia; cbn; repeat (destruct (_ =? 0)); reflexivity. Qed.
Lemma pad_length bs : length (pad bs) = 4%nat.
Proof. spread bs; reflexivity. Qed.
Lemma before_text bs : Forall (fun b => 0 < b < 256) bs -> before_zero bs = bs.
Proof. induction 1 as [|b t H _ IH]; [reflexivity|]. cbn. rewrite (proj2 (N.eqb_neq b 0)) by lia. now rewrite IH. Qed.

Lemma text_bytes bs c : (length bs <= 4)%nat -> is_text bs c ->
  char_bytesCount c = size (before_zero bs) /\ char_getBytes c = before_zero bs.
Proof.
  intros L T. unfold is_text in T. assert (X : char_bytesCount c = size (before_zero bs)).
  { unfold char_bytesCount. rewrite T, count_before by now rewrite pad_length. now rewrite before_pad. }
  split; [exact X|]. unfold char_getBytes. rewrite X, T. rewrite <- (before_pad bs L). apply take_before.
Qed.

Lemma pad_inj bs bs' : character bs -> character bs' -> pad bs = pad bs' -> bs = bs'.
Proof.
  intros (L & B) (L' & B') E. rewrite <- (before_text bs B), <- (before_text bs' B').
  rewrite <- (before_pad bs L), <- (before_pad bs' L'). now rewrite E.
Qed.

Lemma le_load_inj a : forall b, length a = length b -> bytes_ok a -> bytes_ok b -> le_load a = le_load b -> a = b.
Proof.
  induction a as [|x a IH]; intros [|y b] L A B E; cbn in L; try discriminate; [reflexivity|].
  inversion A; inversion B; subst. cbn [le_load] in E. unfold is_byte in *.
  assert (x = y) by lia. subst. f_equal. apply IH; auto; lia.
Qed.
Lemma value_inj be a b : length (c_four a) = length (c_four b) -> bytes_ok (c_four a) -> bytes_ok (c_four b) ->
  char_value be a = char_value be b -> c_four a = c_four b.
Proof.
  intros L A B E. unfold char_value in E. destruct be.
  - rewrite <- (rev_involutive (c_four a)), <- (rev_involutive (c_four b)). f_equal.
    apply le_load_inj; [now rewrite !rev_length|now apply Forall_rev|now apply Forall_rev|exact E].
  - now apply le_load_inj.
Qed.
Lemma pad_ok bs : character bs -> bytes_ok (pad bs).
Proof.
  intros (L & B). assert (bytes_ok bs). { revert B. apply Forall_impl. intros b H. unfold is_byte. lia. }
  assert (is_byte 0) by (unfold is_byte; lia).
  spread bs; cbn in L; try lia; cbn; repeat match goal with H : bytes_ok (_ :: _) |- _ => inversion H; subst; clear H | H : Forall _ (_ :: _) |- _ => inversion H; subst; clear H end;
  repeat constructor; assumption.
Qed.

(** put_at *)
Lemma put_at_length {A} i (x : A) l : length (put_at i x l) = length l.
Proof.
  unfold put_at. rewrite app_length. rewrite <- (firstn_skipn i l) at 3. rewrite app_length.
  destruct (skipn i l); reflexivity.
Qed.
Lemma put_at_nth {A} i (x : A) l k d : (i < length l)%nat ->
  nth k (put_at i x l) d = if Nat.eqb k i then x else nth k l d.
Proof.
  revert k l. unfold put_at. induction i as [|i IH]; intros k [|y l] H; cbn in H; try lia.
  - destruct k; reflexivity.
  - cbn. destruct k as [|k]; [reflexivity|]. cbn. apply IH. lia.
Qed.
Lemma put_at_map {A B} (f : A -> B) i x l : map f (put_at i x l) = put_at i (f x) (map f l).
Proof.
  unfold put_at. rewrite map_app, firstn_map, skipn_map. destruct (skipn i l); reflexivity.
Qed.

(** Every statement keeps "variable i holds text i". *)
Definition rel (ts : list (list N)) (st : list char) : Prop := map c_four st = map pad ts /\ Forall character ts.

Lemma rel_length ts st : rel ts st -> length st = length ts.
Proof. intros (M & _). apply (f_equal (@length _)) in M. now rewrite !map_length in M. Qed.
Lemma rel_nth ts st i : rel ts st -> (i < length ts)%nat ->
  exists c, nth_error st i = Some c /\ is_text (nth i ts []) c /\ character (nth i ts []).
Proof.
  intros R H. pose proof (rel_length _ _ R) as L. destruct R as (M & F). destruct (nth_error st i) as [c|] eqn:E.
  - exists c. split; [reflexivity|]. split.
    + unfold is_text. apply (f_equal (fun l => nth i l [])) in M.
      rewrite (nth_indep _ [] (c_four c)) in M by (rewrite map_length; lia). rewrite map_nth in M.
      rewrite (nth_error_nth _ _ _ E) in M. rewrite M. rewrite (nth_indep _ [] (pad [])) by (now rewrite map_length).
      now rewrite map_nth.
    + rewrite Forall_forall in F. apply F. now apply nth_In.
  - apply nth_error_None in E. lia.
Qed.
Lemma rel_put ts st i t c : rel ts st -> is_text t c -> character t -> rel (put_at i t ts) (put_at i c st).
Proof.
  intros (M & F) T C. split.
  - rewrite !put_at_map, M. now rewrite T.
  - unfold put_at. apply Forall_app. split.
    + rewrite <- (firstn_skipn i ts) in F. now apply Forall_app in F.
    + rewrite <- (firstn_skipn i ts) in F. apply Forall_app in F as (_ & F). destruct (skipn i ts); [constructor|].
      inversion F; subst. now constructor.
Qed.
Lemma put_same {A} i (l : list A) d : put_at i (nth i l d) l = l.
Proof.
  revert l. induction i as [|i IH]; intros [|x l]; try reflexivity. unfold put_at. cbn. f_equal. apply IH.
Qed.

Lemma op_rel o ts st : rel ts st -> op_ok (length ts) o -> exists st', char_op o st = Ret st' /\ rel (text_op o ts) st'.
Proof.
  intros R O. assert (One : forall b, b < 256 -> character (if b =? 0 then [] else [b]) /\ pad (if b =? 0 then [] else [b]) = [b; 0; 0; 0]).
  { intros b H. destruct (N.eqb_spec b 0) as [->|Z]; split; try reflexivity; split; cbn; try lia; repeat constructor; lia. }
  assert (Two : forall i j, (i < length ts)%nat -> (j < length ts)%nat -> exists a b,
    nth_error st i = Some a /\ nth_error st j = Some b /\
    rel (put_at j (nth i ts []) (put_at i (nth j ts []) ts))
        (if Nat.eqb i j then st else put_at j (mkChar (c_four a) (c_fifth b)) (put_at i (mkChar (c_four b) (c_fifth a)) st))).
  { intros i j I J. destruct (rel_nth _ _ _ R I) as (a & A & Ta & Ca). destruct (rel_nth _ _ _ R J) as (b & B & Tb & Cb).
    exists a, b. split; [exact A|]. split; [exact B|]. destruct (Nat.eqb_spec i j) as [<-|D].
    - now rewrite !put_same.
    - apply rel_put; [apply rel_put; [exact R|exact Tb|exact Cb]|exact Ta|exact Ca]. }
  destruct o as [i bs|i b|i b|i j|i j|i j]; cbn [op_ok] in O; destruct O as (I & O).
  - cbn [char_op text_op]. rewrite view_pad by apply O. cbn [bind]. destruct (rel_nth _ _ _ R I) as (c & -> & _).
    eexists. split; [reflexivity|]. apply rel_put; [exact R|reflexivity|exact O].
  - cbn [char_op text_op]. destruct (rel_nth _ _ _ R I) as (c & -> & _). eexists. split; [reflexivity|].
    apply rel_put; [exact R| |now apply One]. unfold is_text. now rewrite (proj2 (One b O)).
  - cbn [char_op text_op]. destruct (rel_nth _ _ _ R I) as (c & -> & _). eexists. split; [reflexivity|].
    apply rel_put; [exact R| |now apply One]. unfold is_text. now rewrite (proj2 (One b O)).
  - cbn [char_op text_op]. destruct (rel_nth _ _ _ R I) as (a & -> & _). destruct (rel_nth _ _ _ R O) as (b & -> & Tb & Cb).
    eexists. split; [reflexivity|]. apply rel_put; [exact R|exact Tb|exact Cb].
  - cbn [char_op text_op]. destruct (Two i j I O) as (a & b & -> & -> & T). destruct (Nat.eqb i j); eexists; split; try reflexivity; exact T.
  - cbn [char_op text_op]. destruct (Two i j I O) as (a & b & -> & -> & T). destruct (Nat.eqb i j); eexists; split; try reflexivity; exact T.
Qed.

Lemma text_op_length o ts : length (text_op o ts) = length ts.
Proof. destruct o; cbn; now rewrite !put_at_length. Qed.

Lemma run_rel os : forall ts st, rel ts st -> Forall (op_ok (length ts)) os ->
  exists st', char_run os st = Ret st' /\ rel (text_run os ts) st'.
Proof.
  induction os as [|o os IH]; intros ts st R F.
  - exists st. split; [reflexivity|exact R].
  - inversion F; subst. destruct (op_rel o ts st R) as (st1 & E & R1); [assumption|].
    cbn. rewrite E. cbn. apply IH; [exact R1|]. now rewrite text_op_length.
Qed.

(** Code points *)
Lemma utf8_character cp : 0 < cp < 0x110000 -> character (utf8 cp).
Proof.
  intros H. unfold utf8. destruct (N.ltb_spec cp 0x80); [split; cbn; [lia|repeat constructor; lia]|].
  destruct (N.ltb_spec cp 0x800); [split; cbn [length]; [lia|repeat constructor; lia]|].
  destruct (N.ltb_spec cp 0x10000); (split; cbn [length]; [lia|repeat constructor; lia]).
Qed.

Lemma value_code be v : v < 4294967296 -> char_value be (char_code be v) = v.
Proof.
  intros H. unfold char_value, char_code. cbn [c_four]. destruct be; rewrite ?rev_involutive; cbn [le_store le_load]; lia.
Qed.
