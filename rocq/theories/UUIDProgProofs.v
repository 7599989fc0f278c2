From Verif Require Import Base BaseLemmas MemViewModel MemViewSpec MemViewProofs ByteIOModel ByteIOSpec ByteIOProofs.
From Verif Require Import Base16Model Base16Spec Base16Proofs LexSpec UUIDModel UUIDSpec UUIDProofs UUIDProgModel UUIDProgSpec.

Lemma Forall_firstn {A} (P : A -> Prop) n : forall l, Forall P l -> Forall P (firstn n l).
Proof. induction n as [|n IH]; intros [|x l] H; cbn; auto. inversion H; subst. constructor; auto. Qed.
Lemma Forall_skipn {A} (P : A -> Prop) n : forall l, Forall P l -> Forall P (skipn n l).
Proof. induction n as [|n IH]; intros [|x l] H; cbn; auto. inversion H; subst. auto. Qed.

(** ** Numbers *)

Lemma number_acc l : forall v, fold_left (fun v b => 256 * v + b) l v = v * 256 ^ size l + number l.
Proof.
  unfold number. induction l as [|b l IH]; intros v; cbn [fold_left]; [rewrite size_nil; cbn; lia|].
  rewrite IH, (IH (256 * 0 + b)). rewrite size_cons, N.pow_add_r. change (256 ^ 1) with 256. lia.
Qed.
Lemma number_cons b l : number (b :: l) = b * 256 ^ size l + number l.
Proof. unfold number at 1. cbn [fold_left]. rewrite number_acc. lia. Qed.
Lemma number_app a b : number (a ++ b) = number a * 256 ^ size b + number b.
Proof. unfold number at 1. rewrite fold_left_app. fold (number a). apply number_acc. Qed.
Lemma number_lt l : bytes_ok l -> number l < 256 ^ size l.
Proof.
  induction 1 as [|b l Hb _ IH]; [reflexivity|]. unfold is_byte in Hb. rewrite number_cons, size_cons, N.pow_add_r. change (256 ^ 1) with 256. nia.
Qed.
Lemma pow_pos k : 0 < 256 ^ k.
Proof. apply N.neq_0_lt_0. apply N.pow_nonzero. lia. Qed.

Lemma part_app A B C : bytes_ok B -> bytes_ok C -> size A + size B + size C = 16 ->
  part (number (A ++ B ++ C)) (size A) (size B) = number B.
Proof.
  intros FB FC E. unfold part. replace (16 - size A - size B) with (size C) by lia.
  rewrite app_assoc, number_app, N.div_add_l by (apply N.pow_nonzero; lia). rewrite (N.div_small (number C)) by now apply number_lt.
  rewrite N.add_0_r, number_app, N.add_comm, N.mod_add by (apply N.pow_nonzero; lia). apply N.mod_small. now apply number_lt.
Qed.
Lemma replaced_app A B B' C : bytes_ok B -> bytes_ok C -> size A + size B + size C = 16 -> size B' = size B ->
  replaced (number (A ++ B ++ C)) (size A) (size B) (number B') = number (A ++ B' ++ C).
Proof.
  intros FB FC E S. unfold replaced. rewrite part_app by assumption. replace (16 - size A - size B) with (size C) by lia.
  rewrite !number_app, !size_app, S. lia.
Qed.

Lemma memcmp_number a : forall b, length a = length b -> bytes_ok a -> bytes_ok b -> memcmp a b = (number a ?= number b).
Proof.
  induction a as [|x a IH]; intros [|y b] L Fa Fb; try discriminate; [reflexivity|]. injection L as L.
  inversion Fa as [|? ? Hx Fa']; subst. inversion Fb as [|? ? Hy Fb']; subst. cbn [memcmp].
  assert (size a = size b) as S by (unfold size; lia). rewrite !number_cons, S.
  pose proof (number_lt a Fa') as La. pose proof (number_lt b Fb') as Lb. rewrite S in La. rewrite IH by assumption.
  set (p := 256 ^ size b) in *. destruct (N.compare_spec x y) as [-> |C|C].
  - destruct (N.compare_spec (number a) (number b)); symmetry; [apply N.compare_eq_iff|apply N.compare_lt_iff|apply N.compare_gt_iff]; lia.
  - symmetry. apply N.compare_lt_iff. nia.
  - symmetry. apply N.compare_gt_iff. nia.
Qed.

Lemma isNull_number u : bytes_ok u -> uuid_isNull u = (number u =? 0).
Proof.
  intros F. apply eq_true_iff_eq. rewrite isNull_spec, N.eqb_eq. split.
  - induction 1 as [|b l -> _ IH]; [reflexivity|]. rewrite number_cons. inversion F; subst. rewrite IH by assumption. lia.
  - induction F as [|b l Hb F IH]; [constructor|]. rewrite number_cons. intros E. pose proof (pow_pos (size l)).
    constructor; [nia|apply IH; nia].
Qed.

Lemma uuid_size u : is_uuid u -> size u = 16.
Proof. intros (L & _). unfold size. lia. Qed.

(** ** Text *)

Lemma digit_pair A b C : size A + 1 + size C = 16 -> is_byte b -> bytes_ok C ->
  let v := number (A ++ b :: C) in
  digit v (2 * length A) = hex_digit (b / 16) /\ digit v (2 * length A + 1) = hex_digit (b mod 16).
Proof.
  intros E Hb FC v. unfold is_byte in Hb. unfold digit.
  assert (V : v / 256 ^ size C = number A * 256 + b).
  { unfold v. rewrite number_app, number_cons, size_cons, N.pow_add_r. change (256 ^ 1) with 256.
    replace (number A * (256 ^ size C * 256) + (b * 256 ^ size C + number C)) with ((number A * 256 + b) * 256 ^ size C + number C) by lia.
    rewrite N.div_add_l by (apply N.pow_nonzero; lia). rewrite N.div_small by now apply number_lt. lia. }
  assert (P : forall k, 16 ^ (2 * k) = 256 ^ k) by (intros; rewrite N.pow_mul_r; reflexivity).
  unfold size in E. split.
  - replace (31 - N.of_nat (2 * length A)) with (2 * size C + 1) by (unfold size; lia).
    rewrite N.pow_add_r, P, <- N.div_div by (apply N.pow_nonzero; lia || discriminate). rewrite V. change (16 ^ 1) with 16.
    replace (number A * 256 + b) with (number A * 16 * 16 + b) by lia. rewrite N.div_add_l by lia.
    rewrite N.add_comm, N.mod_add by lia. f_equal. apply N.mod_small. apply N.div_lt_upper_bound; lia.
  - replace (31 - N.of_nat (2 * length A + 1)) with (2 * size C) by (unfold size; lia).
    rewrite P, V. replace (number A * 256 + b) with (b + number A * 16 * 16) by lia. now rewrite N.mod_add by lia.
Qed.

Lemma digits_section u : is_uuid u -> forall n i, (i + n <= 16)%nat ->
  hex_text (section u (N.of_nat i) (N.of_nat n)) = digits (number u) (2 * i) (2 * n).
Proof.
  intros (L & F). induction n as [|n IH]; intros i Hi.
  { unfold section. reflexivity. }
  unfold section in *. rewrite !Nat2N.id in *.
  destruct (skipn i u) as [|b C] eqn:E; [apply (f_equal (@List.length N)) in E; rewrite skipn_length in E; cbn in E; lia|].
  assert (U : u = firstn i u ++ b :: C) by (rewrite <- E; symmetry; apply firstn_skipn).
  assert (LA : length (firstn i u) = i) by (rewrite firstn_length; lia).
  assert (E' : skipn (S i) u = C).
  { rewrite U at 1. rewrite skipn_app, LA. rewrite skipn_all2 by lia. replace (S i - i)%nat with 1%nat by lia. reflexivity. }
  specialize (IH (S i)). rewrite !Nat2N.id, E' in IH. cbn [firstn]. unfold hex_text in *. cbn [flat_map]. rewrite IH by lia.
  assert (FC : bytes_ok C /\ is_byte b).
  { rewrite U in F. apply Forall_app in F as (_ & F). inversion F; subst; auto. }
  destruct (digit_pair (firstn i u) b C) as (D1 & D2); [|apply FC..|].
  { rewrite U in L. rewrite app_length in L. cbn [length] in L. unfold size. lia. }
  rewrite <- U, LA in D1, D2. unfold digits. replace (2 * S n)%nat with (S (S (2 * n))) by lia. cbn [seq map].
  rewrite D1. replace (S (2 * i)) with (2 * i + 1)%nat by lia. rewrite D2. replace (S (2 * i + 1)) with (2 * S i)%nat by lia. reflexivity.
Qed.

Lemma text_of_number u : is_uuid u -> uuid_text u = number_text (number u).
Proof.
  intros H. unfold uuid_text, number_text.
  pose proof (digits_section u H 4 0 ltac:(lia)) as D1. pose proof (digits_section u H 2 4 ltac:(lia)) as D2. pose proof (digits_section u H 2 6 ltac:(lia)) as D3.
  pose proof (digits_section u H 2 8 ltac:(lia)) as D4. pose proof (digits_section u H 6 10 ltac:(lia)) as D5.
  cbn [N.of_nat Pos.of_succ_nat Pos.succ] in D1, D2, D3, D4, D5. rewrite D1, D2, D3, D4, D5.
  reflexivity.
Qed.

Lemma text_number_filter t : forall v, text_number v t = text_number v (filter (fun c => negb (c =? 45)) t).
Proof.
  induction t as [|c t IH]; intros v; [reflexivity|]. cbn [text_number filter]. destruct (c =? 45) eqn:E; cbn [negb]; [apply IH|].
  cbn [text_number]. rewrite E. destruct (digit_value c); [apply IH|reflexivity].
Qed.

Lemma text_number_hex : forall (k : nat) g v, (length g <= 2 * k)%nat -> Forall (fun c => c <> 45) g -> Nat.even (length g) = true ->
  text_number v g = match hex_value g with Some bs => Some (fold_left (fun v b => 256 * v + b) bs v) | None => None end.
Proof.
  induction k as [|k IH]; intros g v L F E.
  { destruct g; [reflexivity|cbn in L; lia]. }
  destruct g as [|a [|b g]]; [reflexivity|discriminate|]. inversion F as [|? ? Ha F1]; subst. inversion F1 as [|? ? Hb F2]; subst.
  cbn [text_number hex_value]. destruct (N.eqb_spec a 45); [contradiction|]. destruct (digit_value a) as [h|]; [|reflexivity].
  destruct (N.eqb_spec b 45); [contradiction|]. destruct (digit_value b) as [l|]; [|reflexivity].
  rewrite IH by (cbn in *; assumption || lia). destruct (hex_value g) as [bs|]; [|reflexivity]. cbn [fold_left]. do 2 f_equal. lia.
Qed.

(** ** Objects in memory *)

Fixpoint setl (l : list (list N)) (a : nat) (x : list N) : list (list N) :=
  match l, a with
  | [], _ => []
  | _ :: t, O => x :: t
  | y :: t, S a' => y :: setl t a' x
  end.

Lemma setl_app l1 u l2 x : setl (l1 ++ u :: l2) (length l1) x = l1 ++ x :: l2.
Proof. induction l1; cbn; [reflexivity|]. now f_equal. Qed.
Lemma length_setl l : forall a x, length (setl l a x) = length l.
Proof. induction l; intros [|a'] x; cbn; auto. Qed.
Lemma nth_error_setl l : forall a x j, nth_error (setl l a x) j = if Nat.eqb j a then (if Nat.ltb a (length l) then Some x else None) else nth_error l j.
Proof.
  induction l as [|y l IH]; intros [|a] x [|j]; cbn; try reflexivity.
  - destruct (Nat.eqb j a); reflexivity.
  - rewrite IH. reflexivity.
Qed.
Lemma list_ext {A} (l m : list A) : (forall j, nth_error l j = nth_error m j) -> l = m.
Proof.
  revert m. induction l as [|x l IH]; intros [|y m] H; [reflexivity|specialize (H 0%nat); discriminate|specialize (H 0%nat); discriminate|].
  pose proof (H 0%nat) as E. injection E as ->. f_equal. apply IH. intros j. exact (H (S j)).
Qed.
Lemma setl_same l a u : nth_error l a = Some u -> setl l a u = l.
Proof.
  intros E. apply list_ext. intros j. rewrite nth_error_setl. destruct (Nat.eqb_spec j a) as [-> |]; [|reflexivity].
  destruct (Nat.ltb_spec a (length l)) as [H|H]; [now rewrite E|]. apply nth_error_None in H. congruence.
Qed.
Lemma set_at_map us a x : set_at (map number us) a (number x) = map number (setl us a x).
Proof. revert a. induction us as [|u us IH]; intros [|a]; cbn; try reflexivity. now rewrite IH. Qed.
Lemma Forall_setl (P : list N -> Prop) l : forall a x, Forall P l -> P x -> Forall P (setl l a x).
Proof.
  induction l as [|y l IH]; intros [|a] x F Hx; cbn; auto; inversion F; subst; constructor; auto.
Qed.

Definition uuids (us : list (list N)) : Prop := Forall is_uuid us.

Lemma size_concat us : uuids us -> size (concat us) = 16 * N.of_nat (length us).
Proof. induction 1 as [|u us H _ IH]; [reflexivity|]. cbn [concat length]. rewrite size_app, IH, (uuid_size u H). lia. Qed.

Lemma uuids_nth us a u : uuids us -> nth_error us a = Some u -> is_uuid u.
Proof. intros F E. apply nth_error_In in E. unfold uuids in F. rewrite Forall_forall in F. auto. Qed.

Lemma object_at us a u : uuids us -> nth_error us (N.to_nat a) = Some u ->
  exists P Q, concat us = P ++ u ++ Q /\ size P = 16 * a /\ forall x, concat (setl us (N.to_nat a) x) = P ++ x ++ Q.
Proof.
  intros F E. apply nth_error_split in E as (l1 & l2 & -> & L). exists (concat l1), (concat l2).
  split; [rewrite concat_app; reflexivity|]. split.
  - apply Forall_app in F as (F & _). rewrite size_concat by assumption. lia.
  - intros x. rewrite <- L, setl_app, concat_app. reflexivity.
Qed.

Lemma load_object us a u i n : uuids us -> nth_error us (N.to_nat a) = Some u -> i + n <= 16 ->
  load (concat us) (Some (16 * a + i)) n = Ret (ntake n (ndrop i u)).
Proof.
  intros F E H. pose proof (uuid_size u (uuids_nth _ _ _ F E)) as SU. destruct (object_at us a u F E) as (P & Q & -> & SP & _). unfold load. destruct (N.eqb_spec n 0) as [-> |NZ]; [now rewrite ntake_firstn|].
  rewrite !size_app, SU. destruct (N.leb_spec (16 * a + i + n) (size P + (16 + size Q))); [|lia]. f_equal.
  rewrite ndrop_app, (ndrop_skipn P), skipn_all2 by (unfold size in *; lia). cbn [app].
  replace (16 * a + i - size P) with i by lia. rewrite ndrop_app, ntake_app.
  assert (n - size (ndrop i u) = 0) as -> by (rewrite size_ndrop; lia). rewrite (ntake_firstn (ndrop _ Q)). cbn [N.to_nat firstn]. apply app_nil_r.
Qed.

Lemma store_object us a u i bs : uuids us -> nth_error us (N.to_nat a) = Some u -> i + size bs <= 16 ->
  store (concat us) (Some (16 * a + i)) bs = Ret (concat (setl us (N.to_nat a) (overwrite u i bs))).
Proof.
  intros F E H. pose proof (uuid_size u (uuids_nth _ _ _ F E)) as SU. destruct (object_at us a u F E) as (P & Q & C & SP & Cx). unfold store. destruct (N.eqb_spec (size bs) 0) as [Z|NZ].
  - f_equal. rewrite setl_same; [reflexivity|]. rewrite E. f_equal. destruct bs; [|rewrite size_cons in Z; lia].
    unfold overwrite. cbn [app]. rewrite size_nil, N.add_0_r. symmetry. apply ntake_ndrop.
  - rewrite C, !size_app, SU. destruct (N.leb_spec (16 * a + i + size bs) (size P + (16 + size Q))); [|lia]. f_equal. rewrite Cx.
    unfold overwrite. rewrite ntake_app, (ntake_all _ P) by lia. rewrite ndrop_app, (ndrop_skipn P), skipn_all2 by (unfold size in *; lia).
    cbn [app]. rewrite ntake_app, ndrop_app. replace (16 * a + i - size P) with i by lia.
    replace (16 * a + i + size bs - size P) with (i + size bs) by lia.
    replace (i - size u) with 0 by lia. replace (i + size bs - size u) with 0 by lia.
    rewrite (ntake_firstn Q), (ndrop_skipn Q). cbn [N.to_nat firstn skipn]. rewrite app_nil_r, <- !app_assoc. reflexivity.
Qed.

Lemma with_object_some us a u f : uuids us -> nth_error us (N.to_nat a) = Some u ->
  with_object (concat us) a f = f (mkView (Some (16 * a)) 16) u.
Proof.
  intros F E. pose proof (uuid_size u (uuids_nth _ _ _ F E)) as SU. unfold with_object, object_view. rewrite size_concat by assumption.
  assert (N.to_nat a < length us)%nat by (apply nth_error_Some; congruence).
  destruct (N.leb_spec (16 * a + 16) (16 * N.of_nat (length us))); [|lia]. cbn [v_addr v_size].
  rewrite <- (N.add_0_r (16 * a)) at 1. rewrite (load_object us a u 0 16 F E) by lia. cbn [bind].
  rewrite ndrop_skipn. cbn [N.to_nat skipn]. now rewrite ntake_all by lia.
Qed.
Lemma with_object_none us a f : uuids us -> nth_error us (N.to_nat a) = None -> with_object (concat us) a f = Ret (concat us, ANoObject).
Proof.
  intros F E. apply nth_error_None in E. unfold with_object, object_view. rewrite size_concat by assumption.
  destruct (N.leb_spec (16 * a + 16) (16 * N.of_nat (length us))); [lia|reflexivity].
Qed.

Lemma overwrite_uuid u i bs : is_uuid u -> i + size bs <= 16 -> bytes_ok bs -> is_uuid (overwrite u i bs).
Proof.
  intros (L & F) H Fb. unfold overwrite. split.
  - assert (size (ntake i u ++ bs ++ ndrop (i + size bs) u) = 16) as S by (rewrite !size_app, size_ntake, size_ndrop; unfold size in *; lia).
    match type of S with size ?l = _ => change (N.of_nat (length l) = 16) in S end. lia.
  - apply Forall_app. split; [rewrite ntake_firstn; now apply Forall_firstn|]. apply Forall_app. split; [assumption|]. rewrite ndrop_skipn. now apply Forall_skipn.
Qed.

Lemma ntake_1 (u : list N) i (x : N) : nnth u i = Some x -> ntake 1 (ndrop i u) = [x] /\ ndrop i u = x :: ndrop (i + 1) u /\ ntake (i + 1) u = ntake i u ++ [x].
Proof.
  rewrite nnth_nth_error, !ndrop_skipn, !ntake_firstn. replace (N.to_nat (i + 1)) with (S (N.to_nat i)) by lia. generalize (N.to_nat i). clear i.
  induction u as [|y u IH]; intros [|k] E; try discriminate.
  - injection E as ->. repeat split.
  - apply IH in E as (E1 & E2 & E3). repeat split; [exact E1|exact E2|]. cbn [firstn app]. f_equal. exact E3.
Qed.

Lemma swap_two a b : a <> b -> forall k i us u v, uuids us -> nth_error us (N.to_nat a) = Some u -> nth_error us (N.to_nat b) = Some v ->
  i + N.of_nat k = 16 ->
  swap_bytes (concat us) a b k i =
    Ret (concat (setl (setl us (N.to_nat a) (ntake i u ++ ndrop i v)) (N.to_nat b) (ntake i v ++ ndrop i u))).
Proof.
  intros D. induction k as [|k IH]; intros i us u v F Eu Ev H.
  { pose proof (uuids_nth _ _ _ F Eu) as U. pose proof (uuids_nth _ _ _ F Ev) as V. apply uuid_size in U, V.
    cbn [swap_bytes]. do 2 f_equal. rewrite !ntake_all, !ndrop_skipn, !skipn_all2, !app_nil_r by (unfold size in *; lia).
    rewrite (setl_same us) by assumption. now rewrite setl_same. }
  pose proof (uuids_nth _ _ _ F Eu) as U. pose proof (uuids_nth _ _ _ F Ev) as V. pose proof (uuid_size u U) as SU. pose proof (uuid_size v V) as SV.
  cbn [swap_bytes]. destruct (nnth u i) as [x|] eqn:Ex; [|rewrite nnth_nth_error in Ex; apply nth_error_None in Ex; unfold size in *; lia].
  destruct (nnth v i) as [y|] eqn:Ey; [|rewrite nnth_nth_error in Ey; apply nth_error_None in Ey; unfold size in *; lia].
  destruct (ntake_1 u i x Ex) as (U1 & U2 & U3). destruct (ntake_1 v i y Ey) as (V1 & V2 & V3).
  rewrite (load_object us a u), (load_object us b v), U1, V1 by (assumption || lia). cbn [bind].
  assert (is_byte x) as Bx by (destruct U as (_ & B); rewrite nnth_nth_error in Ex; apply nth_error_In in Ex; unfold bytes_ok in B; rewrite Forall_forall in B; auto).
  assert (is_byte y) as By by (destruct V as (_ & B); rewrite nnth_nth_error in Ey; apply nth_error_In in Ey; unfold bytes_ok in B; rewrite Forall_forall in B; auto).
  assert (bytes_ok [x]) as Fx by (constructor; [assumption|constructor]). assert (bytes_ok [y]) as Fy by (constructor; [assumption|constructor]).
  rewrite (store_object us a u) by (assumption || (rewrite (size_cons _ []), size_nil; lia)). cbn [bind].
  set (us1 := setl us (N.to_nat a) (overwrite u i [y])).
  assert (F1 : uuids us1) by (apply Forall_setl; [assumption|apply overwrite_uuid; [assumption|rewrite (size_cons _ []), size_nil; lia|assumption]]).
  assert (NE : Nat.eqb (N.to_nat b) (N.to_nat a) = false) by (apply Nat.eqb_neq; lia).
  assert (NE' : Nat.eqb (N.to_nat a) (N.to_nat b) = false) by (apply Nat.eqb_neq; lia).
  assert (LA : (N.to_nat a < length us)%nat) by (apply nth_error_Some; congruence).
  assert (LB : (N.to_nat b < length us)%nat) by (apply nth_error_Some; congruence).
  assert (E1 : nth_error us1 (N.to_nat b) = Some v) by (unfold us1; now rewrite nth_error_setl, NE).
  rewrite (store_object us1 b v) by (assumption || (rewrite (size_cons _ []), size_nil; lia)). cbn [bind].
  set (us2 := setl us1 (N.to_nat b) (overwrite v i [x])).
  assert (F2 : uuids us2) by (apply Forall_setl; [assumption|apply overwrite_uuid; [assumption|rewrite (size_cons _ []), size_nil; lia|assumption]]).
  rewrite (IH (i + 1) us2 (overwrite u i [y]) (overwrite v i [x])); [|assumption| | |lia].
  - do 2 f_equal.
    assert (O : forall (w : list N) (z : N), size w = 16 -> ntake (i + 1) (overwrite w i [z]) = ntake i w ++ [z] /\ ndrop (i + 1) (overwrite w i [z]) = ndrop (i + 1) w).
    { intros w z SW. unfold overwrite. change (size [z]) with 1. rewrite app_assoc.
      assert (size (ntake i w ++ [z]) = i + 1) as S1 by (rewrite size_app, size_ntake; change (size [z]) with 1; lia).
      rewrite <- S1 at 1. rewrite ntake_app_exact. split; [reflexivity|]. rewrite <- S1 at 1. apply ndrop_app_exact. }
    destruct (O u y SU) as (-> & ->). destruct (O v x SV) as (-> & ->). rewrite <- !app_assoc. cbn [app]. rewrite <- V2, <- U2.
    apply list_ext. intros j. unfold us2, us1. rewrite !nth_error_setl, !length_setl.
    destruct (Nat.eqb j (N.to_nat b)); [reflexivity|]. destruct (Nat.eqb j (N.to_nat a)); reflexivity.
  - unfold us2, us1. rewrite !nth_error_setl, NE', Nat.eqb_refl. destruct (Nat.ltb_spec (N.to_nat a) (length us)); [reflexivity|lia].
  - unfold us2. rewrite nth_error_setl, Nat.eqb_refl. unfold us1. rewrite length_setl. destruct (Nat.ltb_spec (N.to_nat b) (length us)); [reflexivity|lia].
Qed.

Lemma swap_self us a u : uuids us -> nth_error us (N.to_nat a) = Some u -> forall k i, i + N.of_nat k = 16 -> swap_bytes (concat us) a a k i = Ret (concat us).
Proof.
  intros F E. pose proof (uuids_nth _ _ _ F E) as U. pose proof (uuid_size u U) as SU.
  induction k as [|k IH]; intros i H; [reflexivity|]. cbn [swap_bytes].
  destruct (nnth u i) as [x|] eqn:Ex; [|rewrite nnth_nth_error in Ex; apply nth_error_None in Ex; unfold size in *; lia].
  destruct (ntake_1 u i x Ex) as (U1 & U2 & U3). rewrite (load_object us a u), U1 by (assumption || lia). cbn [bind].
  assert (S : store (concat us) (Some (16 * a + i)) [x] = Ret (concat us)).
  { rewrite (store_object us a u) by (assumption || (rewrite (size_cons _ []), size_nil; lia)). do 2 f_equal. rewrite setl_same; [reflexivity|].
    rewrite E. f_equal. unfold overwrite. change (size [x]) with 1. cbn [app]. rewrite <- U2. symmetry. apply ntake_ndrop. }
  rewrite S. cbn [bind]. rewrite S. cbn [bind]. apply IH. lia.
Qed.

Lemma swap_all us a b u v : uuids us -> nth_error us (N.to_nat a) = Some u -> nth_error us (N.to_nat b) = Some v ->
  swap_bytes (concat us) a b 16 0 = Ret (concat (setl (setl us (N.to_nat a) v) (N.to_nat b) u)).
Proof.
  intros F Eu Ev. destruct (N.eq_dec a b) as [-> |D].
  - rewrite (swap_self us b u) by (assumption || lia). assert (u = v) as -> by congruence. rewrite (setl_same us) by assumption. now rewrite setl_same.
  - rewrite (swap_two a b D 16 0 us u v) by (assumption || lia). rewrite !ntake_firstn, !ndrop_skipn. reflexivity.
Qed.

(** ** Each operation *)

Definition sim (mem vs : list N) : Prop := exists us, mem = concat us /\ uuids us /\ vs = map number us.

Lemma sim_new us u : uuids us -> is_uuid u -> sim (new_object (concat us) u) (map number us ++ [number u]).
Proof.
  intros F U. exists (us ++ [u]). split; [|split].
  - unfold new_object. rewrite ntake_all by (rewrite (uuid_size u U); lia). rewrite concat_app. cbn. now rewrite app_nil_r.
  - apply Forall_app. split; [assumption|]. constructor; [assumption|constructor].
  - rewrite map_app. reflexivity.
Qed.

Lemma sim_put us a x : uuids us -> is_uuid x -> sim (concat (setl us (N.to_nat a) x)) (put (map number us) a (number x)).
Proof. intros F U. exists (setl us (N.to_nat a) x). split; [reflexivity|]. split; [now apply Forall_setl|]. unfold put. apply set_at_map. Qed.

Lemma sim_same us : uuids us -> sim (concat us) (map number us).
Proof. intros F. exists us. auto. Qed.

Definition goes (r : outcome (list N * uans)) (s : list N * uans) : Prop :=
  exists mem x, r = Ret (mem, x) /\ sim mem (fst s) /\ snd s = x.

Lemma goes_one us a f g : uuids us ->
  (forall u, nth_error us (N.to_nat a) = Some u -> is_uuid u -> goes (f (mkView (Some (16 * a)) 16) u) (g (number u))) ->
  goes (with_object (concat us) a f) (one (map number us) a g).
Proof.
  intros F H. unfold one. destruct (nth_error us (N.to_nat a)) as [u|] eqn:E.
  - rewrite (map_nth_error number _ _ E). rewrite (with_object_some us a u f F E). apply H; [reflexivity|]. now apply (uuids_nth us (N.to_nat a)).
  - rewrite with_object_none by assumption. replace (nth_error (map number us) (N.to_nat a)) with (@None N).
    + exists (concat us), ANoObject. split; [reflexivity|]. split; [now apply sim_same|reflexivity].
    + symmetry. apply nth_error_None. rewrite map_length. now apply nth_error_None.
Qed.

Lemma goes_ask us a b f g : uuids us -> (forall u v, is_uuid u -> is_uuid v -> f u v = g (number u) (number v)) ->
  goes (ask_two (concat us) a b f) (two (map number us) a b (fun v w => (map number us, ABool (g v w)))).
Proof.
  intros F H. apply goes_one; [assumption|]. intros u Eu U. apply goes_one; [assumption|]. intros v Ev V.
  exists (concat us), (ABool (f u v)). split; [reflexivity|]. split; [now apply sim_same|]. cbn. now rewrite H.
Qed.

Lemma cmp_number u v : is_uuid u -> is_uuid v -> memcmp u v = (number u ?= number v).
Proof. intros (L1 & F1) (L2 & F2). apply memcmp_number; congruence || assumption. Qed.
Lemma eq_number u v : is_uuid u -> is_uuid v -> uuid_eq u v = (number u =? number v).
Proof. intros U V. unfold uuid_eq, uuid_equals. rewrite cmp_number by assumption. unfold N.eqb. rewrite <- N.eqb_compare. reflexivity. Qed.
Lemma lt_number u v : is_uuid u -> is_uuid v -> uuid_lt u v = (number u <? number v).
Proof. intros U V. unfold uuid_lt. rewrite cmp_number by assumption. reflexivity. Qed.

Lemma byte_number u i x : is_uuid u -> nnth u i = Some x -> part (number u) i 1 = x.
Proof.
  intros U E. destruct (ntake_1 u i x E) as (E1 & E2 & _). pose proof (uuid_size u U) as SU.
  assert (i < 16). { rewrite nnth_nth_error in E. assert (N.to_nat i < length u)%nat by (apply nth_error_Some; congruence). unfold size in SU. lia. }
  assert (D : u = ntake i u ++ [x] ++ ndrop (i + 1) u) by (cbn [app]; rewrite <- E2; symmetry; apply ntake_ndrop).
  assert (S1 : size (ntake i u) = i) by (rewrite size_ntake; lia). assert (S2 : size (ndrop (i + 1) u) = 15 - i) by (rewrite size_ndrop; lia).
  destruct U as (_ & F). rewrite D in F. apply Forall_app in F as (_ & F). apply Forall_app in F as (Fx & F).
  pose proof (part_app (ntake i u) [x] (ndrop (i + 1) u) Fx F) as Q. rewrite <- D, S1, S2 in Q. change (size [x]) with 1 in Q.
  rewrite Q by lia. unfold number. cbn. lia.
Qed.

Lemma overwrite_number u i bs : is_uuid u -> i + size bs <= 16 -> replaced (number u) i (size bs) (number bs) = number (overwrite u i bs).
Proof.
  intros U H. pose proof (uuid_size u U) as SU. destruct U as (_ & F).
  set (B := ntake (size bs) (ndrop i u)).
  assert (D : u = ntake i u ++ B ++ ndrop (i + size bs) u).
  { unfold B. rewrite <- (ntake_ndrop i u) at 1. f_equal. rewrite <- (ntake_ndrop (size bs) (ndrop i u)) at 1. f_equal.
    rewrite !ndrop_skipn. replace (N.to_nat (i + size bs)) with (N.to_nat i + N.to_nat (size bs))%nat by lia. generalize (N.to_nat i), (N.to_nat (size bs)).
    clear. intros a b. revert a. induction u as [|x u IH]; intros [|a]; cbn; try reflexivity; [now rewrite !skipn_nil|apply IH]. }
  assert (S1 : size (ntake i u) = i) by (rewrite size_ntake; lia). assert (S2 : size B = size bs) by (unfold B; rewrite size_ntake, size_ndrop; lia).
  assert (S3 : size (ndrop (i + size bs) u) = 16 - i - size bs) by (rewrite size_ndrop; lia).
  assert (FB : bytes_ok B) by (unfold B; rewrite ntake_firstn, ndrop_skipn; apply Forall_firstn, Forall_skipn; assumption).
  assert (FC : bytes_ok (ndrop (i + size bs) u)) by (rewrite ndrop_skipn; apply Forall_skipn; assumption).
  pose proof (replaced_app (ntake i u) B bs (ndrop (i + size bs) u) FB FC) as Q. rewrite <- D, S1, S2, S3 in Q. apply Q; lia.
Qed.

Lemma section_number u i k : is_uuid u -> i + k <= 16 -> part (number u) i k = number (ntake k (ndrop i u)).
Proof.
  intros U H. pose proof (uuid_size u U) as SU. destruct U as (_ & F).
  set (B := ntake k (ndrop i u)). set (C := ndrop k (ndrop i u)).
  assert (D : u = ntake i u ++ B ++ C) by (unfold B, C; now rewrite !ntake_ndrop).
  assert (S1 : size (ntake i u) = i) by (rewrite size_ntake; lia). assert (S2 : size B = k) by (unfold B; rewrite size_ntake, size_ndrop; lia).
  assert (S3 : size C = 16 - i - k) by (unfold C; rewrite !size_ndrop; lia).
  pose proof (part_app (ntake i u) B C) as Q. rewrite <- D, S1, S2, S3 in Q. apply Q.
  - unfold B. rewrite ntake_firstn, ndrop_skipn. apply Forall_firstn, Forall_skipn. assumption.
  - unfold C. rewrite !ndrop_skipn. apply Forall_skipn, Forall_skipn. assumption.
  - lia.
Qed.

Lemma step_goes us o : uuids us -> given_ok o -> goes (ustep (concat us) o) (sstep (map number us) o).
Proof.
  intros F G. destruct o as [|bytes|bytes|t after|a|a|a b|a b|a b|a i x|a x|a b from to|a|a b|a b|a b|a b|a b|a b|a i|a|a|a g]; cbn [ustep sstep given_ok] in *.
  - eexists _, _. split; [reflexivity|]. split; [|reflexivity]. apply (sim_new us (repeat 0 16) F). split; [reflexivity|]. apply Forall_forall. intros y Hy. apply repeat_spec in Hy as ->. unfold is_byte. lia.
  - destruct G as (L & B). unfold load. cbn [N.eqb]. destruct (N.leb_spec (0 + 16) (size bytes)) as [H|H]; [|unfold size in H; lia]. cbn [bind].
    eexists _, _. split; [reflexivity|]. split; [|reflexivity]. rewrite ndrop_skipn, ntake_firstn. cbn [N.to_nat skipn fst]. apply sim_new; [assumption|].
    split; [rewrite firstn_length; lia|now apply Forall_firstn].
  - assert (V : valid bytes (mkView (Some 0) (size bytes))) by (cbn; lia). unfold makeUUID_view. cbn [v_size].
    destruct (N.leb_spec 16 (size bytes)) as [H|H].
    + rewrite uuid_copy_spec by (assumption || (cbn; lia)).
      destruct (Nat.leb_spec 16 (length bytes)) as [H'|H']; [|unfold size in H; lia].
      eexists _, _. split; [reflexivity|]. split; [|reflexivity]. cbn [fst].
      match goal with |- sim (new_object _ ?l) _ => assert (l = firstn 16 bytes) as -> end.
      { cbn [N.to_nat skipn]. f_equal. unfold contents. cbn [v_addr v_size N.to_nat skipn]. rewrite firstn_all2 by (unfold size; lia). reflexivity. }
      apply sim_new; [assumption|]. split; [rewrite firstn_length; lia|now apply Forall_firstn].
    + destruct (Nat.leb_spec 16 (length bytes)) as [H'|H']; [unfold size in H; lia|].
      eexists _, _. split; [reflexivity|]. split; [now apply sim_same|reflexivity].
  - destruct G as (A & D). destruct (dash_positions_grouped t A D) as (g1 & g2 & g3 & g4 & g5 & T & G1 & G2 & G3 & G4 & G5).
    pose proof (filter_grouped g1 g2 g3 g4 g5 G1 G2 G3 G4 G5) as FG. rewrite <- T in FG.
    assert (TN : text_number 0 t = match hex_value (g1 ++ g2 ++ g3 ++ g4 ++ g5) with Some bs => Some (number bs) | None => None end).
    { rewrite text_number_filter, FG. apply (text_number_hex 16).
      - destruct G1 as (S1 & _), G2 as (S2 & _), G3 as (S3 & _), G4 as (S4 & _), G5 as (S5 & _). rewrite !app_length. unfold size in *. lia.
      - destruct G1 as (_ & _ & S1), G2 as (_ & _ & S2), G3 as (_ & _ & S3), G4 as (_ & _ & S4), G5 as (_ & _ & S5). repeat (apply Forall_app; split); assumption.
      - destruct G1 as (S1 & _), G2 as (S2 & _), G3 as (S3 & _), G4 as (S4 & _), G5 as (S5 & _). rewrite !app_length. unfold size in *.
        replace (length g1 + (length g2 + (length g3 + (length g4 + length g5))))%nat with 32%nat by lia. reflexivity. }
    rewrite TN. pose proof (parse_grouped g1 g2 g3 g4 g5 after G1 G2 G3 G4 G5) as PG. rewrite <- T in PG.
    rewrite PG. destruct (hex_value (g1 ++ g2 ++ g3 ++ g4 ++ g5)) as [bs|] eqn:E; cbn [bind].
    + assert (forallb (fun c : option N => match c with Some _ => true | None => false end) (map Some bs) = true) as -> by (apply forallb_forall; intros c Hc; apply in_map_iff in Hc as (y & <- & _); reflexivity).
      assert (flat_map (fun c : option N => match c with Some b => [b] | None => [] end) (map Some bs) = bs) as ->.
      { clear. induction bs as [|y bs IH]; [reflexivity|]. cbn. now rewrite IH. }
      destruct (grouped_text g1 g2 g3 g4 g5 bs G1 G2 G3 G4 G5 E) as (U & _).
      eexists _, _. split; [reflexivity|]. split; [now apply sim_new|reflexivity].
    + eexists _, _. split; [reflexivity|]. split; [now apply sim_same|reflexivity].
  - apply goes_one; [assumption|]. intros u E U. eexists _, _. split; [reflexivity|]. split; [now apply sim_new|reflexivity].
  - apply goes_one; [assumption|]. intros u E U. eexists _, _. split; [reflexivity|]. split; [now apply sim_new|reflexivity].
  - apply goes_one; [assumption|]. intros u Eu U. apply goes_one; [assumption|]. intros v Ev V.
    assert (F' : uuids (us ++ [v])) by (apply Forall_app; split; [assumption|constructor; [assumption|constructor]]).
    assert (NO : new_object (concat us) v = concat (us ++ [v])).
    { unfold new_object. rewrite ntake_all by (rewrite (uuid_size v V); lia). rewrite concat_app. cbn. now rewrite app_nil_r. }
    assert (LA : (N.to_nat a < length us)%nat) by (apply nth_error_Some; congruence).
    rewrite NO, size_concat by assumption. rewrite N.mul_comm, N.div_mul by lia.
    rewrite (swap_all (us ++ [v]) (N.of_nat (length us)) a v u).
    2: assumption. 2: rewrite Nat2N.id, nth_error_app2, Nat.sub_diag by lia; reflexivity. 2: now rewrite nth_error_app1.
    cbn [bind]. rewrite Nat2N.id. eexists _, _. split; [reflexivity|]. split; [|reflexivity]. cbn [fst].
    rewrite setl_app.
    assert (Q : setl (us ++ [u]) (N.to_nat a) v = setl us (N.to_nat a) v ++ [u]).
    { apply list_ext. intros j. rewrite nth_error_setl. rewrite app_length. cbn [length].
      destruct (Nat.ltb_spec (N.to_nat a) (length us + 1)); [|lia].
      destruct (Nat.lt_ge_cases j (length us)) as [J|J].
      - rewrite !nth_error_app1 by (rewrite ?length_setl; lia). rewrite nth_error_setl. destruct (Nat.ltb_spec (N.to_nat a) (length us)); [reflexivity|lia].
      - rewrite !nth_error_app2 by (rewrite ?length_setl; lia). rewrite length_setl. destruct (Nat.eqb_spec j (N.to_nat a)); [lia|reflexivity]. }
    rewrite Q, concat_app. replace (N.of_nat (length us) * 16) with (size (concat (setl us (N.to_nat a) v)))
      by (rewrite size_concat by (now apply Forall_setl); rewrite length_setl; lia).
    rewrite ntake_app_exact. now apply sim_put.
  - apply goes_one; [assumption|]. intros u Eu U. apply goes_one; [assumption|]. intros v Ev V. rewrite (swap_all us a b u v) by assumption. cbn [bind].
    eexists _, _. split; [reflexivity|]. split; [|reflexivity]. cbn [fst]. unfold put at 2. rewrite set_at_map. apply sim_put; [now apply Forall_setl|assumption].
  - apply goes_one; [assumption|]. intros u Eu U. apply goes_one; [assumption|]. intros v Ev V. rewrite (swap_all us a b u v) by assumption. cbn [bind].
    eexists _, _. split; [reflexivity|]. split; [|reflexivity]. cbn [fst]. unfold put at 2. rewrite set_at_map. apply sim_put; [now apply Forall_setl|assumption].
  - apply goes_one; [assumption|]. intros u E U. cbn [v_size v_addr ptr_add]. destruct (N.leb_spec 16 i) as [H|H]; destruct (N.ltb_spec i 16) as [H'|H']; try lia.
    + eexists _, _. split; [reflexivity|]. split; [now apply sim_same|reflexivity].
    + assert (S1 : size [x] = 1) by reflexivity. assert (Fx : bytes_ok [x]) by (constructor; [assumption|constructor]).
      unfold ptr_add; cbn [option_map]. rewrite (store_object us a u) by (assumption || lia). cbn [bind].
      eexists _, _. split; [reflexivity|]. split; [|reflexivity]. cbn [fst].
      replace x with (number [x]) at 2 by (unfold number; cbn; lia). rewrite <- S1. rewrite overwrite_number by (assumption || lia).
      apply sim_put; [assumption|]. apply overwrite_uuid; assumption || lia.
  - apply goes_one; [assumption|]. intros u E U. unfold mview_fill. cbn [v_addr v_size].
    assert (S1 : size (repeat x 16) = 16) by reflexivity. change (N.to_nat 16) with 16%nat.
    assert (Fx : bytes_ok (repeat x 16)) by (apply Forall_forall; intros y Hy; now apply repeat_spec in Hy as ->).
    rewrite <- (N.add_0_r (16 * a)). rewrite (store_object us a u) by (assumption || lia). cbn [bind].
    eexists _, _. split; [reflexivity|]. split; [|reflexivity]. cbn [fst].
    assert (overwrite u 0 (repeat x 16) = repeat x 16) as ->.
    { unfold overwrite. rewrite S1, ndrop_skipn, skipn_all2 by (destruct U; lia). rewrite ntake_firstn. cbn [N.to_nat firstn app]. now rewrite app_nil_r. }
    apply sim_put; [assumption|]. split; [reflexivity|assumption].
  - apply goes_one; [assumption|]. intros u Eu U. apply goes_one; [assumption|]. intros v Ev V.
    set (l := N.min to 16). set (f := N.min from l).
    assert (v_size (view_slice (mkView (Some (16 * b)) 16) from to) = l - f /\ (0 < l - f -> v_addr (view_slice (mkView (Some (16 * b)) 16) from to) = Some (16 * b + f))) as (Sz & Ad).
    { unfold view_slice, l, f, ptr_add. cbn [v_size v_addr option_map]. split; [lia|]. intros Q. f_equal. lia. }
    unfold mview_write. cbn [v_addr v_size]. rewrite Sz. destruct (N.ltb_spec 16 (l - f)); [lia|].
    pose proof (uuid_size v V) as SV. pose proof (uuid_size u U) as SU.
    assert (S1 : size (ntake (l - f) (ndrop f v)) = l - f) by (rewrite size_ntake, size_ndrop; lia).
    assert (FB : bytes_ok (ntake (l - f) (ndrop f v))) by (rewrite ntake_firstn, ndrop_skipn; apply Forall_firstn, Forall_skipn; apply V).
    assert (R : replaced (number u) 0 (l - f) (part (number v) f (l - f)) = number (overwrite u 0 (ntake (l - f) (ndrop f v)))).
    { rewrite section_number by (assumption || lia). rewrite <- S1 at 1. apply overwrite_number; [assumption|lia]. }
    destruct (N.ltb_spec 0 (l - f)) as [P|P].
    + rewrite Ad by assumption. rewrite (load_object us b v) by (assumption || lia). cbn [bind].
      rewrite <- (N.add_0_r (16 * a)). rewrite (store_object us a u) by (assumption || lia). cbn [bind].
      eexists _, _. split; [reflexivity|]. split; [|reflexivity]. cbn [fst]. rewrite R. apply sim_put; [assumption|]. apply overwrite_uuid; assumption || lia.
    + eexists _, _. split; [reflexivity|]. split; [|reflexivity]. cbn [fst]. rewrite R.
      assert (overwrite u 0 (ntake (l - f) (ndrop f v)) = u) as ->.
      { replace (l - f) with 0 by lia. rewrite ntake_firstn. cbn [N.to_nat firstn]. unfold overwrite. change (size (@nil N)) with 0. rewrite ntake_firstn, ndrop_skipn. reflexivity. }
      rewrite <- (setl_same us (N.to_nat a) u) at 1 by assumption. now apply sim_put.
  - apply goes_one; [assumption|]. intros u E U. eexists _, _. split; [reflexivity|]. split; [now apply sim_same|]. cbn. now rewrite isNull_number by apply U.
  - apply goes_ask; [assumption|]. apply eq_number.
  - apply (goes_ask us a b uuid_ne (fun v w => negb (v =? w))); [assumption|]. intros u v U V. unfold uuid_ne. now rewrite eq_number.
  - apply goes_ask; [assumption|]. apply lt_number.
  - apply (goes_ask us a b uuid_gt (fun v w => w <? v)); [assumption|]. intros u v U V. unfold uuid_gt. now rewrite lt_number.
  - apply (goes_ask us a b uuid_le (fun v w => v <=? w)); [assumption|]. intros u v U V. unfold uuid_le. rewrite lt_number by assumption.
    destruct (N.ltb_spec (number v) (number u)); destruct (N.leb_spec (number u) (number v)); try lia; reflexivity.
  - apply (goes_ask us a b uuid_ge (fun v w => w <=? v)); [assumption|]. intros u v U V. unfold uuid_ge. rewrite lt_number by assumption.
    destruct (N.ltb_spec (number u) (number v)); destruct (N.leb_spec (number v) (number u)); try lia; reflexivity.
  - apply goes_one; [assumption|]. intros u E U. unfold uuid_index. destruct (N.leb_spec 16 i) as [H|H]; destruct (N.ltb_spec i 16) as [H'|H']; try lia.
    + eexists _, _. split; [reflexivity|]. split; [now apply sim_same|reflexivity].
    + destruct (nnth u i) as [x|] eqn:Ex; [|rewrite nnth_nth_error in Ex; apply nth_error_None in Ex; destruct U; lia].
      eexists _, _. split; [reflexivity|]. split; [now apply sim_same|]. cbn. f_equal. now apply byte_number.
  - apply goes_one; [assumption|]. intros u E U.
    destruct (nnth u 0) as [x|] eqn:Ex; [|rewrite nnth_nth_error in Ex; apply nth_error_None in Ex; destruct U; lia].
    eexists _, _. split; [reflexivity|]. split; [now apply sim_same|]. cbn [snd]. f_equal. now apply byte_number.
  - apply goes_one; [assumption|]. intros u E U.
    destruct (nnth u 15) as [x|] eqn:Ex; [|rewrite nnth_nth_error in Ex; apply nth_error_None in Ex; destruct U; lia].
    eexists _, _. split; [reflexivity|]. split; [now apply sim_same|]. cbn [snd]. f_equal. now apply byte_number.
  - apply goes_one; [assumption|]. intros u E U. unfold uuid_toString. rewrite toString_buf_ok by (assumption || (unfold size; lia)). cbn [bind].
    eexists _, _. split; [reflexivity|]. split; [now apply sim_same|]. cbn [snd fst]. f_equal. symmetry. now apply text_of_number.
Qed.

Lemma run_goes : forall ops mem vs, Forall given_ok ops -> sim mem vs ->
  exists mem' xs, urun mem ops = Ret (mem', xs) /\ sim mem' (fst (srun vs ops)) /\ snd (srun vs ops) = xs.
Proof.
  induction ops as [|o ops IH]; intros mem vs G S.
  { exists mem, []. auto. }
  inversion G as [|? ? Go G']; subst. destruct S as (us & -> & F & ->).
  destruct (step_goes us o F Go) as (m1 & x & E & S1 & X). cbn [urun srun]. rewrite E. cbn [bind fst snd].
  destruct (sstep (map number us) o) as [vs1 x1] eqn:Es. cbn [fst snd] in *. subst x1.
  destruct (IH m1 vs1 G' S1) as (m2 & xs & E2 & S2 & X2). rewrite E2. cbn [bind fst snd].
  destruct (srun vs1 ops) as [vs2 l]. cbn [fst snd] in *. subst l. eauto.
Qed.
