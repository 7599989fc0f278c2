From Verif Require Import Base BaseLemmas MemViewModel MemViewSpec MemViewProofs ByteIOModel ByteIOSpec ByteIOProofs.
From Verif Require Import Base16Proofs StringSpec StringModel StringViewModel StringViewProofs StringProofs.
From Verif Require Import FmtModel FmtSpec FmtProofs BuilderModel BuilderSpec BuilderProofs BuilderProps.
From Verif Require Import TextOpsModel TextOpsSpec.
Ltac Zify.zify_post_hook ::= Z.div_mod_to_equations.

Lemma strlen_spec t after : ~ In 0 t -> strlen (t ++ 0 :: after) = Ret (size t).
Proof.
  induction t as [|b t IH]; intros H; [reflexivity|]. cbn [app strlen]. destruct (N.eqb_spec b 0) as [->|_]; [exfalso; apply H; now left|].
  rewrite IH by (intros X; apply H; now right). cbn [bind]. now rewrite size_cons, N.add_comm.
Qed.

Lemma cstr_spec t after : ~ In 0 t -> view_of_cstr (Some (t ++ 0 :: after)) = Ret (ntake (u16 (size t)) t).
Proof.
  intros H. unfold view_of_cstr. rewrite strlen_spec by exact H. cbn [bind]. f_equal.
  rewrite ntake_app. replace (u16 (size t) - size t) with 0; [rewrite ntake_0; apply app_nil_r|].
  pose proof (N.mod_le (size t) (2 ^ 16)). unfold u16. lia.
Qed.

Lemma view_of_shows o t : shows o t -> (is_cstr o -> size t < 2 ^ 16) -> view_of o = Ret t.
Proof.
  destruct o as [s|s|s|[m|]]; cbn [shows view_of is_cstr]; intros H L.
  - destruct H as (B & E & u & F). unfold str_view. rewrite E, F, size_app, N.min_r by lia. f_equal. apply ntake_app_exact.
  - f_equal. apply H.
  - f_equal. apply H.
  - destruct H as (Z & r & ->). rewrite cstr_spec by exact Z. f_equal. unfold u16. rewrite N.mod_small by (apply L; exact I).
    apply ntake_all. lia.
  - now subst.
Qed.

Lemma equals_of_views x y a b : view_of x = Ret a -> view_of y = Ret b -> equals_of x y = Ret (sv_equals a b).
Proof. intros A B. unfold equals_of. rewrite B. cbn [bind]. rewrite A. reflexivity. Qed.

Lemma sv_equals_sym a b : sv_equals a b = sv_equals b a.
Proof.
  destruct (sv_equals a b) eqn:E, (sv_equals b a) eqn:F; try reflexivity.
  - apply sv_equals_spec in E. subst. rewrite sv_equals_refl in F. discriminate.
  - apply sv_equals_spec in F. subst. rewrite sv_equals_refl in E. discriminate.
Qed.

Lemma op_eq_views x y a b : comparable x y -> view_of x = Ret a -> view_of y = Ret b ->
  op_eq x y = Some (Ret (sv_equals a b)) /\ op_ne x y = Some (Ret (negb (sv_equals a b))).
Proof.
  intros C A B. pose proof (equals_of_views x y a b A B) as E. pose proof (equals_of_views y x b a B A) as F.
  rewrite (sv_equals_sym b a) in F. unfold op_eq, op_ne, not_equals_of.
  destruct x, y; cbn [comparable] in C; try contradiction; rewrite ?E, ?F; split; reflexivity.
Qed.

(** ** Measured buffers *)
Lemma measure_ge i t : item_ok i -> item_text i t ->
  (match i with IQuoted _ => size t + 1 <= sb_measure_item i | _ => sb_measure_item i = size t end) /\
  (sb_measure_item i = 0 <-> i = IText []).
Proof.
  destruct i as [c|s|v|s]; cbn [item_ok item_text sb_measure_item]; intros K T.
  - subst. split; [reflexivity|]. split; [lia|discriminate].
  - subst. split; [reflexivity|]. split; [intros H; now rewrite (size_0_nil _ H)|intros H; now injection H as ->].
  - destruct (C62_measure v t K T) as (-> & P). split; [reflexivity|]. split; [lia|discriminate].
  - destruct T as (Z & r & E). apply (f_equal size) in E. rewrite !size_app, !size_cons in E. unfold u16. rewrite N.mod_small by lia.
    change (size (@nil N)) with 0 in E. split; [lia|]. split; [lia|discriminate].
Qed.

Definition item_piece (q : item * list N) : piece :=
  match fst q with IChar c => PChar c | IText s => PText s | INum v => PNum v | IQuoted _ => PText (snd q) end.

Lemma items_pieces host_be l ts : Forall item_ok l -> Forall2 item_text l ts -> forall w,
  sb_append_items host_be w l = sb_appends host_be w (map item_piece (combine l ts)).
Proof.
  intros F R. induction R as [|i t l ts T R IH]; intros w; [reflexivity|]. inversion F as [|? ? K F']; subst.
  cbn [sb_append_items combine map sb_appends]. replace (sb_append_item host_be w i) with (sb_append host_be w (item_piece (i, t))).
  - destruct (sb_append host_be w (item_piece (i, t))); cbn [bind]; auto.
  - destruct i as [c|s|v|s]; try reflexivity. cbn [sb_append_item item_piece fst snd]. destruct T as (Z & r & E). rewrite E, cstr_spec by exact Z.
    cbn [bind]. do 2 f_equal. apply (f_equal size) in E. rewrite !size_app, !size_cons in E. cbn [item_ok] in K.
    unfold u16. rewrite N.mod_small by (change (size (@nil N)) with 0 in E; lia). now rewrite ntake_all by lia.
Qed.

Lemma pieces_ok l ts : Forall item_ok l -> Forall2 item_text l ts ->
  Forall piece_ok (map item_piece (combine l ts)) /\ Forall2 renders (map item_piece (combine l ts)) ts.
Proof.
  intros F R. induction R as [|i t l ts T R IH]; [split; constructor|]. inversion F as [|? ? K F']; subst. destruct (IH F') as (P & Q).
  cbn [combine map]. split; constructor; trivial; destruct i as [c|s|v|s]; cbn [item_piece fst snd piece_ok renders]; trivial.
  destruct T as (Z & r & E). apply (f_equal size) in E. rewrite !size_app, !size_cons in E. change (size (@nil N)) with 0 in E. cbn [item_ok] in K. lia.
Qed.

Lemma accumulate_size cap q : forall acc, size (accumulate cap acc q) <= size acc + size (concat (map snd q)).
Proof.
  induction q as [|(p, t) q IH]; intros acc; cbn [accumulate map concat snd]; [lia|]. rewrite size_app.
  etransitivity; [apply IH|]. destruct (_ <=? _); rewrite ?size_app; lia.
Qed.

Lemma map_snd_combine {A B} (l : list A) : forall (m : list B), length l = length m -> map snd (combine l m) = m.
Proof. induction l as [|x l IH]; intros [|y m] H; cbn in *; try discriminate; [reflexivity|]. f_equal. apply IH. lia. Qed.

(** [k] bytes of the buffer are known to be left over. *)
Definition room_from (k : N) (l : list item) : Prop :=
  forall before v after, l = before ++ INum v :: after ->
    0 < k \/ (exists s, In (IQuoted s) before) \/ Exists (fun i => i <> IText []) after.

Lemma measured_pos l ts : Forall item_ok l -> Forall2 item_text l ts -> (0 < measured l <-> Exists (fun i => i <> IText []) l).
Proof.
  intros F R. induction R as [|i t l ts T R IH]; cbn [measured]; [split; [lia|intros H; inversion H]|].
  inversion F as [|? ? K F']; subst. rewrite Exists_cons, <- IH by exact F'. destruct (measure_ge i t K T) as (_ & M).
  destruct (N.eq_dec (sb_measure_item i) 0) as [Z|Z].
  - split; [lia|]. intros [H|H]; [now elim H; apply M|lia].
  - split; [intros _; left; now rewrite <- M|lia].
Qed.

Lemma room_cons k k' i l : (match i with IQuoted _ => 0 < k' | INum _ => False | _ => k' = k end) ->
  (room_from k (i :: l) <-> room_from k' l).
Proof.
  intros K. split.
  - intros H b v a ->. destruct (H (i :: b) v a eq_refl) as [P|[(s & [->|P])|P]]; auto; [|right; left; eauto]. left. destruct i; subst; trivial; contradiction.
  - intros H b v a E. destruct b as [|j b]; cbn [app] in E; injection E as Y E; subst i; [contradiction|]. destruct (H b v a E) as [P|[(s & P)|P]]; auto.
    + destruct j; subst; auto; [contradiction|]. right. left. eexists. left. reflexivity.
    + right. left. exists s. now right.
Qed.

Lemma accumulate_room cap l ts : Forall item_ok l -> Forall2 item_text l ts -> forall acc k, size acc + k + measured l = cap ->
  (accumulate cap acc (combine (map item_piece (combine l ts)) ts) = acc ++ concat ts <-> room_from k l).
Proof.
  intros F R. induction R as [|i t l ts T R IH]; intros acc k E; cbn [combine map accumulate concat measured] in *.
  { rewrite app_nil_r. split; [|reflexivity]. intros _ b v a X. destruct b; discriminate X. }
  inversion F as [|? ? K F']; subst. destruct (measure_ge i t K T) as (M & _). destruct (pieces_ok _ _ F' R) as (_ & Q).
  destruct (N.leb_spec (size acc + size t + spare (item_piece (i, t))) (size acc + k + (sb_measure_item i + measured l))) as [G|G].
  - rewrite app_assoc. rewrite (IH F' (acc ++ t) (k + sb_measure_item i - size t)).
    + destruct i as [c|s|v|s].
      * symmetry. apply room_cons. lia.
      * symmetry. apply room_cons. lia.
      * replace (k + sb_measure_item (INum v) - size t) with k by lia. cbn [item_piece fst spare] in G. split.
        { intros H b u a X. destruct b as [|j b]; cbn [app] in X; injection X as Y X.
          - subst. destruct (N.eq_dec k 0); [right; right; apply (measured_pos _ _ F' R); lia|left; lia].
          - destruct (H b u a X) as [P|[(s & P)|P]]; auto. right. left. exists s. now right. }
        { intros H b u a ->. destruct (H (INum v :: b) u a eq_refl) as [P|[(s & [X|P])|P]]; auto; [discriminate X|right; left; eauto]. }
      * symmetry. apply room_cons. lia.
    + rewrite size_app. destruct i; lia.
  - split.
    + intros H. exfalso. apply (f_equal size) in H. rewrite !size_app in H.
      pose proof (accumulate_size (size acc + k + (sb_measure_item i + measured l)) (combine (map item_piece (combine l ts)) ts) acc) as S1.
      rewrite map_snd_combine in S1 by (clear - Q; induction Q; cbn; congruence).
      assert (0 < size t); [|lia]. destruct i as [c|s|v|s]; cbn [item_piece fst spare] in G; try lia.
      destruct (C62_measure v t K T). lia.
    + intros H. exfalso. destruct i as [c|s|v|s]; cbn [item_piece fst spare] in G; try lia.
      destruct (H [] v l eq_refl) as [P|[(s & [])|P]]; [lia|]. apply (measured_pos _ _ F' R) in P. lia.
Qed.

Lemma room_0 l : room_from 0 l <-> numbers_have_room l.
Proof. split; intros H b v a E; destruct (H b v a E) as [P|P]; auto; lia. Qed.
