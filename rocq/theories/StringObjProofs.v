From Verif Require Import Base BaseLemmas MemoryModel MemoryProofs StringViewModel StringViewProofs StringObjModel StringObjSpec.

Local Arguments get : simpl never.
Local Arguments upd : simpl never.

Definition obj_ok (w : sworld) (t : tstate) (x : option (origin * list N)) (o : sobj) : Prop :=
  match x with
  | None => o = sobj_new
  | Some (Literal, s) => exists k, nth_error (sw_lits w) k = Some s /\ o = mkSObj (mkSRes (Some (Static k)) (size s) false) (size s)
  | Some (Made n, s) =>
      o = mkSObj (mkSRes (Some (Heap n)) (size s) true) (size s) /\ get (sw_heap w) n = Some s /\ ~ In n (t_dead t)
  end.
Definition window (full s : list N) (v : sview) : Prop :=
  sv_off v + sv_len v <= size full /\ s = ntake (sv_len v) (ndrop (sv_off v) full).
Definition view_ok (w : sworld) (t : tstate) (x : option (origin * list N)) (v : sview) : Prop :=
  match x with
  | None => sv_len v = 0
  | Some (Literal, s) => sv_len v = size s /\ exists k full, sv_place v = Some (Static k) /\ nth_error (sw_lits w) k = Some full /\ window full s v
  | Some (Made n, s) =>
      sv_len v = size s /\ sv_place v = Some (Heap n) /\ (n < length (sw_heap w))%nat /\
      (~ In n (t_dead t) -> exists full, get (sw_heap w) n = Some full /\ window full s v)
  end.
Record rel (lits : list (list N)) (w : sworld) (t : tstate) : Prop := mkRel {
  r_lits : sw_lits w = lits;
  r_next : length (sw_heap w) = t_next t;
  r_objs : forall i, match t_vars t i, sw_objs w i with
                     | None, None => True | Some x, Some o => obj_ok w t x o | _, _ => False end;
  r_views : forall i, view_ok w t (t_views t i) (sw_views w i);
  r_once : forall i j n s s', t_vars t i = Some (Some (Made n, s)) -> t_vars t j = Some (Some (Made n, s')) -> i = j;
  r_dead : forall n, In n (t_dead t) -> (n < length (sw_heap w))%nat /\ get (sw_heap w) n = None;
  r_held : forall n, (n < length (sw_heap w))%nat -> In n (t_dead t) \/ exists i s, t_vars t i = Some (Some (Made n, s)) }.

Lemma vset_same {A} (f : nat -> A) i x : vset f i x i = x.
Proof. unfold vset. now rewrite Nat.eqb_refl. Qed.
Lemma vset_other {A} (f : nat -> A) i j x : j <> i -> vset f i x j = f j.
Proof. unfold vset. intros H. destruct (Nat.eqb_spec j i); [contradiction|reflexivity]. Qed.

Lemma rel_start lits : rel lits (s_start lits) t_start.
Proof. constructor; cbn; auto; try discriminate; try contradiction; try (intros; lia). Qed.

Lemma existsb_in n l : existsb (Nat.eqb n) l = true <-> In n l.
Proof. rewrite existsb_exists. split; [intros (x & I & E); apply Nat.eqb_eq in E; now subst | intros I; exists n; split; [exact I | apply Nat.eqb_refl]]. Qed.
Lemma dead_dec n (l : list nat) : In n l \/ ~ In n l.
Proof. destruct (in_dec Nat.eq_dec n l); auto. Qed.
Lemma window_whole s p : window s s (mkSView p 0 (size s)).
Proof. split; cbn; [lia|]. now rewrite ndrop_0, ntake_all by lia. Qed.

(** Reading a view shows what the specification says. *)
Lemma read_ok lits w t x v : rel lits w t -> view_ok w t x v -> sview_read w v = t_read t x.
Proof.
  intros R V. unfold sview_read, t_read. destruct x as [[[|n] s]|]; cbn in V.
  - destruct V as (L & k & full & P & B & Wd & S0). destruct s as [|c s].
    + rewrite L. reflexivity.
    + rewrite L. rewrite size_cons. destruct (N.eqb_spec (size s + 1) 0); [lia|]. rewrite P. cbn [block_at]. rewrite B, size_cons in *.
      rewrite <- L. destruct (N.leb_spec (sv_off v + sv_len v) (size full)); [|lia]. now rewrite <- S0.
  - destruct V as (L & P & Lt & A). destruct s as [|c s].
    + rewrite L. reflexivity.
    + rewrite L. rewrite size_cons in *. destruct (N.eqb_spec (size s + 1) 0); [lia|]. rewrite P. cbn [block_at].
      destruct (existsb (Nat.eqb n) (t_dead t)) eqn:E.
      * apply existsb_in in E. apply (r_dead _ _ _ R) in E. now rewrite (proj2 E).
      * destruct (dead_dec n (t_dead t)) as [I|I]; [apply existsb_in in I; congruence|].
        destruct (A I) as (full & B & Wd & S0). rewrite B.
        rewrite <- L. destruct (N.leb_spec (sv_off v + sv_len v) (size full)); [|lia]. now rewrite <- S0.
  - rewrite V. reflexivity.
Qed.

Lemma obj_view lits w t x o : rel lits w t -> obj_ok w t x o -> view_ok w t x (sobj_view o).
Proof.
  intros R O. destruct x as [[[|n] s]|]; cbn in O.
  - destruct O as (k & E & ->). unfold sobj_view. cbn. rewrite N.min_id. split; [reflexivity|]. exists k, s. repeat split; auto; apply (window_whole s None).
  - destruct O as (-> & E & D). unfold sobj_view. cbn. rewrite N.min_id. split; [reflexivity|]. split; [reflexivity|].
    split; [now apply get_some in E|]. intros _. exists s. split; [exact E|]. apply window_whole.
  - subst o. reflexivity.
Qed.
Lemma obj_size w t x o : obj_ok w t x o -> so_size o = size (text_of x) /\ sv_len (sobj_view o) = size (text_of x).
Proof. destruct x as [[[|n] s]|]; cbn; [intros (k & E & ->) | intros (-> & E & D) | intros ->]; cbn; now rewrite ?N.min_id. Qed.
(** The text of a variable is always there. *)
Lemma obj_text lits w t i x o : rel lits w t -> t_vars t i = Some x -> obj_ok w t x o -> sview_read w (sobj_view o) = Ret (text_of x).
Proof.
  intros R I O. rewrite (read_ok _ _ _ x _ R (obj_view _ _ _ _ _ R O)). destruct x as [[[|n] [|c s]]|]; cbn; auto.
  destruct O as (_ & _ & D). destruct (existsb (Nat.eqb n) (t_dead t)) eqn:E; [apply existsb_in in E; contradiction|reflexivity].
Qed.

Lemma part_text from to (s : list N) :
  firstn (N.to_nat to - N.to_nat from) (skipn (N.to_nat from) s) =
  ntake (N.min (size s) (N.max to (N.min from (size s))) - N.min from (size s)) (ndrop (N.min from (size s)) s).
Proof.
  rewrite ntake_firstn, ndrop_skipn. unfold size.
  destruct (N.le_gt_cases from (N.of_nat (length s))) as [H|H].
  - rewrite (N.min_l from) by lia. destruct (N.le_gt_cases to (N.of_nat (length s))) as [G|G].
    + f_equal. lia.
    + rewrite (firstn_all2 (skipn (N.to_nat from) s)) by (rewrite skipn_length; lia).
      symmetry. rewrite firstn_all2; [reflexivity|]. rewrite skipn_length. lia.
  - rewrite (N.min_r from) by lia. rewrite Nat2N.id, !skipn_all2, !firstn_nil by lia. reflexivity.
Qed.
Lemma window_sub full s v from to : sv_len v = size s -> window full s v ->
  let u := sview_sub v from to in
  let r := firstn (N.to_nat to - N.to_nat from) (skipn (N.to_nat from) s) in
  sv_len u = size r /\ window full r u.
Proof.
  intros L (W & E). cbn. rewrite part_text. rewrite <- L. set (f := N.min from (sv_len v)). set (g := N.min (sv_len v) (N.max to f)).
  assert (f <= g /\ g <= sv_len v) by lia. assert (Sz : size (ntake (g - f) (ndrop f s)) = g - f).
  { rewrite size_ntake, size_ndrop. lia. }
  split; [symmetry; exact Sz|]. split; cbn; fold f; fold g; [lia|].
  rewrite E, ndrop_ntake, ntake_ntake, ndrop_ndrop. f_equal. lia.
Qed.
Lemma sub_ok w t x v from to : view_ok w t x v -> view_ok w t (part from to x) (sview_sub v from to).
Proof.
  intros V. destruct x as [[[|n] s]|]; cbn in V |- *.
  - destruct V as (L & k & full & P & B & W). destruct (window_sub full s v from to L W) as (L' & W').
    split; [exact L'|]. exists k, full. auto.
  - destruct V as (L & P & Lt & A). split.
    + rewrite part_text, <- L. set (f := N.min from (sv_len v)). set (g := N.min (sv_len v) (N.max to f)).
      rewrite size_ntake, size_ndrop. lia.
    + split; [exact P|]. split; [exact Lt|]. intros I. destruct (A I) as (full & B & W). exists full. split; [exact B|].
      exact (proj2 (window_sub full s v from to L W)).
  - lia.
Qed.

(** Operations that only rearrange variables. *)
Lemma rel_set_views lits w t v x u : rel lits w t -> view_ok w t x u ->
  rel lits (set_views w (vset (sw_views w) v u)) (t_set_views t (vset (t_views t) v x)).
Proof.
  intros R V. destruct R as [Rl Rn Ro Rv R1 Rd Rh]. constructor; cbn; auto.
  intros i. unfold vset. destruct (Nat.eqb i v); [exact V|]. exact (Rv i).
Qed.

Lemma obj_ok_app w t t' x o ob s : t_dead t' = t_dead t -> obj_ok w t x o ->
  obj_ok (mkSW (sw_heap w ++ [s]) (sw_lits w) ob (sw_views w)) t' x o.
Proof.
  intros D O. destruct x as [[[|n] z]|]; cbn in *; auto. rewrite D. destruct O as (E & G & I). split; [exact E|]. split; [|exact I].
  rewrite get_app. destruct (Nat.eqb_spec n (length (sw_heap w))); [|exact G]. apply get_some in G. lia.
Qed.
Lemma view_ok_app w t t' x v ob s : t_dead t' = t_dead t -> view_ok w t x v ->
  view_ok (mkSW (sw_heap w ++ [s]) (sw_lits w) ob (sw_views w)) t' x v.
Proof.
  intros D O. destruct x as [[[|n] z]|]; cbn in *; auto. rewrite D. destruct O as (E & G & I & A).
  split; [exact E|]. split; [exact G|]. split; [rewrite app_length; lia|].
  intros J. destruct (A J) as (full & B & W). exists full. split; [|exact W].
  rewrite get_app. destruct (Nat.eqb_spec n (length (sw_heap w))); [lia|exact B].
Qed.
Lemma rel_make lits w t i s : rel lits w t -> t_vars t i = None -> rel lits (sw_alloc w i s) (t_make t i s).
Proof.
  intros [Rl Rn Ro Rv R1 Rd Rh] F. unfold sw_alloc, t_make. constructor; cbn; auto.
  - rewrite app_length. cbn. lia.
  - intros k. unfold vset. destruct (Nat.eqb_spec k i) as [->|H].
    + cbn. rewrite <- Rn. split; [reflexivity|]. split; [rewrite get_app, Nat.eqb_refl; reflexivity|].
      intros I. apply Rd in I. lia.
    + specialize (Ro k). destruct (t_vars t k), (sw_objs w k); auto. now apply (obj_ok_app w t).
  - intros k. now apply (view_ok_app w t).
  - intros j k n a b. unfold vset. destruct (Nat.eqb_spec j i) as [->|H], (Nat.eqb_spec k i) as [->|G]; intros X Y; auto.
    + injection X as <- _. specialize (Ro k). rewrite Y in Ro. destruct (sw_objs w k); [|contradiction]. destruct Ro as (_ & G' & _).
      apply get_some in G'. lia.
    + injection Y as <- _. specialize (Ro j). rewrite X in Ro. destruct (sw_objs w j); [|contradiction]. destruct Ro as (_ & G' & _).
      apply get_some in G'. lia.
    + exact (R1 _ _ _ _ _ X Y).
  - intros n I. destruct (Rd n I) as [L G]. rewrite app_length. split; [lia|]. rewrite get_app.
    destruct (Nat.eqb_spec n (length (sw_heap w))); [lia|exact G].
  - intros n L. rewrite app_length in L. cbn in L. destruct (Nat.eq_dec n (t_next t)) as [->|Q].
    + right. exists i, s. now rewrite vset_same.
    + destruct (Rh n) as [D|(j & s' & J)]; [lia| now left|]. right. exists j, s'. rewrite vset_other; [exact J|]. intros ->. congruence.
Qed.
(** A permutation of what variables hold, or an empty or literal String for one that did not exist. *)
Lemma rel_set_objs lits w t fv fo : rel lits w t ->
  (forall i, match fv i, fo i with None, None => True | Some x, Some o => obj_ok w t x o | _, _ => False end) ->
  (forall i j n s s', fv i = Some (Some (Made n, s)) -> fv j = Some (Some (Made n, s')) -> i = j) ->
  (forall i n s, t_vars t i = Some (Some (Made n, s)) -> exists j s', fv j = Some (Some (Made n, s'))) ->
  rel lits (set_objs w fo) (t_set_vars t fv).
Proof.
  intros [Rl Rn Ro Rv R1 Rd Rh] A B C. constructor; cbn; auto.
  intros n L. destruct (Rh n L) as [D|(j & s' & J)]; [now left|]. right. exact (C _ _ _ J).
Qed.
Lemma rel_drop_none lits w t i x o : rel lits w t -> t_vars t i = Some x -> sw_objs w i = Some o -> (forall n s, x <> Some (Made n, s)) ->
  rel lits (set_objs w (vset (sw_objs w) i None)) (t_set_vars t (vset (t_vars t) i None)).
Proof.
  intros R I O X. apply rel_set_objs; auto.
  - intros k. unfold vset. destruct (Nat.eqb k i); [exact Logic.I|]. exact (r_objs _ _ _ R k).
  - intros j k n s s'. unfold vset. destruct (Nat.eqb j i), (Nat.eqb k i); try discriminate. apply (r_once _ _ _ R).
  - intros j n s J. exists j, s. rewrite vset_other; [exact J|]. intros ->. rewrite J in I. injection I as <-. now apply (X n s).
Qed.
Lemma rel_drop_made lits w t i n s : rel lits w t -> t_vars t i = Some (Some (Made n, s)) ->
  rel lits (mkSW (upd (sw_heap w) n None) (sw_lits w) (vset (sw_objs w) i None) (sw_views w))
           (mkT (vset (t_vars t) i None) (t_views t) (t_next t) (n :: t_dead t)).
Proof.
  intros [Rl Rn Ro Rv R1 Rd Rh] I. assert (Ln : (n < length (sw_heap w))%nat).
  { specialize (Ro i). rewrite I in Ro. destruct (sw_objs w i); [|contradiction]. destruct Ro as (_ & G & _). now apply get_some in G. }
  constructor; cbn; auto.
  - now rewrite length_upd.
  - intros k. unfold vset. destruct (Nat.eqb_spec k i) as [->|H]; [exact Logic.I|]. specialize (Ro k).
    destruct (t_vars t k) as [x|] eqn:K, (sw_objs w k); auto. destruct x as [[[|m] z]|]; cbn in *; auto.
    assert (m <> n). { intros ->. apply H. exact (R1 _ _ _ _ _ K I). }
    destruct Ro as (E & G & D). split; [exact E|]. rewrite get_upd_other by auto. split; [exact G|]. intros [<-|?]; auto.
  - intros k. specialize (Rv k). destruct (t_views t k) as [[[|m] z]|]; cbn in *; auto. destruct Rv as (E & P & L & A).
    rewrite length_upd. repeat split; auto. intros D. destruct (Nat.eq_dec n m) as [->|Q]; [exfalso; apply D; now left|].
    rewrite get_upd_other by auto. apply A. intros J. apply D. now right.
  - intros j k m a b. unfold vset. destruct (Nat.eqb j i), (Nat.eqb k i); try discriminate. apply R1.
  - intros m [<-|D]; rewrite length_upd.
    + split; [exact Ln|]. rewrite get_upd, Nat.eqb_refl. destruct (Nat.ltb_spec n (length (sw_heap w))); [reflexivity|lia].
    + destruct (Rd m D) as [L G]. split; [exact L|]. rewrite get_upd. destruct andb; [reflexivity|exact G].
  - intros m L. rewrite length_upd in L. destruct (Rh m L) as [D|(j & z & J)]; [left; now right|].
    destruct (Nat.eq_dec j i) as [->|Q].
    + rewrite J in I. injection I as -> _. left. now left.
    + right. exists j, z. rewrite vset_other by auto. exact J.
Qed.

Definition same {A B} (P : A -> B -> Prop) (x : outcome (sans * A)) (y : outcome (sans * B)) : Prop :=
  match x, y with
  | Ret (a, w), Ret (b, t) => a = b /\ P w t
  | UB, UB => True
  | _, _ => False
  end.
Lemma text_eqb_spec a b : text_eqb a b = true <-> a = b.
Proof. unfold text_eqb. destruct list_eq_dec; split; congruence. Qed.
Lemma read_ub t x : t_read t x = UB \/ exists s, t_read t x = Ret s.
Proof. destruct x as [[[|n] [|c s]]|]; cbn; eauto. destruct existsb; eauto. Qed.
Lemma get_none {A} (l : list (option A)) i : (length l <= i)%nat -> get l i = None.
Proof. intros. unfold get. now apply nth_overflow. Qed.

Lemma swap_rel lits w t i j x y a b : rel lits w t -> t_vars t i = Some x -> t_vars t j = Some y -> sw_objs w i = Some a -> sw_objs w j = Some b ->
  rel lits (set_objs w (vset (vset (sw_objs w) i (Some b)) j (Some a))) (t_set_vars t (vset (vset (t_vars t) i (Some y)) j (Some x))).
Proof.
  intros R I J A B. pose proof (r_objs _ _ _ R i) as Oi. pose proof (r_objs _ _ _ R j) as Oj. rewrite I, A in Oi. rewrite J, B in Oj.
  apply rel_set_objs; auto.
  - intros k. unfold vset. destruct (Nat.eqb k j); [exact Oi|]. destruct (Nat.eqb k i); [exact Oj|]. exact (r_objs _ _ _ R k).
  - intros k l n s s'. unfold vset.
    destruct (Nat.eqb_spec k j), (Nat.eqb_spec l j), (Nat.eqb_spec k i), (Nat.eqb_spec l i); intros K L; subst; auto;
      try (injection K as ->); try (injection L as ->);
      repeat match goal with H : t_vars t ?p = Some (Some (Made n, _)), G : t_vars t ?q = Some (Some (Made n, _)) |- _ =>
        assert (p = q) by exact (r_once _ _ _ R _ _ _ _ _ H G); clear H; subst end; congruence.
  - intros k n s K. destruct (Nat.eq_dec k i) as [->|Qi]; [|destruct (Nat.eq_dec k j) as [->|Qj]].
    + exists j, s. rewrite vset_same. congruence.
    + destruct (Nat.eq_dec i j) as [->|Q]; [congruence|]. exists i, s. rewrite vset_other, vset_same by auto. congruence.
    + exists k, s. rewrite !vset_other by auto. exact K.
Qed.
Lemma move_rel lits w t i j x o : rel lits w t -> t_vars t i = None -> t_vars t j = Some x -> sw_objs w j = Some o ->
  rel lits (set_objs w (vset (vset (sw_objs w) j (Some sobj_new)) i (Some o))) (t_set_vars t (vset (vset (t_vars t) j (Some None)) i (Some x))).
Proof.
  intros R I J B. pose proof (r_objs _ _ _ R j) as Oj. rewrite J, B in Oj.
  apply rel_set_objs; auto.
  - intros k. unfold vset. destruct (Nat.eqb k i); [exact Oj|]. destruct (Nat.eqb k j); [reflexivity|]. exact (r_objs _ _ _ R k).
  - intros k l n s s'. unfold vset.
    destruct (Nat.eqb_spec k i), (Nat.eqb_spec l i), (Nat.eqb_spec k j), (Nat.eqb_spec l j); intros K L; subst; auto; try discriminate;
      try (injection K as ->); try (injection L as ->);
      repeat match goal with H : t_vars t ?p = Some (Some (Made n, _)), G : t_vars t ?q = Some (Some (Made n, _)) |- _ =>
        assert (p = q) by exact (r_once _ _ _ R _ _ _ _ _ H G); clear H; subst end; congruence.
  - intros k n s K. destruct (Nat.eq_dec k j) as [->|Qj].
    + exists i, s. rewrite vset_same. congruence.
    + exists k, s. rewrite !vset_other; auto. intros ->. congruence.
Qed.
Lemma new_rel lits w t i x o : rel lits w t -> t_vars t i = None -> obj_ok w t x o -> (forall n s, x <> Some (Made n, s)) ->
  rel lits (set_objs w (vset (sw_objs w) i (Some o))) (t_set_vars t (vset (t_vars t) i (Some x))).
Proof.
  intros R I O X. apply rel_set_objs; auto.
  - intros k. unfold vset. destruct (Nat.eqb k i); [exact O|]. exact (r_objs _ _ _ R k).
  - intros k l n s s'. unfold vset. destruct (Nat.eqb k i), (Nat.eqb l i); intros K L.
    + injection K as ->. now destruct (X n s).
    + injection K as ->. now destruct (X n s).
    + injection L as ->. now destruct (X n s').
    + exact (r_once _ _ _ R _ _ _ _ _ K L).
  - intros k n s K. exists k, s. rewrite vset_other; auto. intros ->. congruence.
Qed.

Lemma char_read w v s k : sview_read w v = Ret s -> sv_len v = size s -> k < sv_len v ->
  exists c, nth_error s (N.to_nat k) = Some c /\ sview_read w (mkSView (sv_place v) (sv_off v + k) 1) = Ret [c].
Proof.
  unfold sview_read. intros H L K. destruct (N.eqb_spec (sv_len v) 0); [lia|].
  cbn. destruct (block_at w (sv_place v)) as [bs|]; [|discriminate].
  destruct (N.leb_spec (sv_off v + sv_len v) (size bs)) as [B|B]; [|discriminate]. assert (Q : s = ntake (sv_len v) (ndrop (sv_off v) bs)) by congruence.
  destruct (N.leb_spec (sv_off v + k + 1) (size bs)); [|lia].
  destruct (nth_error s (N.to_nat k)) as [c|] eqn:E.
  - exists c. split; [reflexivity|]. f_equal. rewrite Q in E. rewrite ntake_firstn in E.
    rewrite <- ndrop_ndrop. clear - E. rewrite ntake_firstn, !ndrop_skipn in *. set (l := skipn (N.to_nat (sv_off v)) bs) in *. clearbody l.
    assert (E2 : nth_error l (N.to_nat k) = Some c).
    { rewrite <- (firstn_skipn (N.to_nat (sv_len v)) l). rewrite nth_error_app1; [exact E|]. apply nth_error_Some. congruence. }
    change (N.to_nat 1) with 1%nat. revert E2. generalize (N.to_nat k). clear. intros m. revert l.
    induction m as [|m IH]; intros [|y l]; cbn; try discriminate; [congruence|]. apply IH.
  - apply nth_error_None in E. unfold size in L. lia.
Qed.

Lemma step_rel lits w t o : rel lits w t -> same (rel lits) (s_step o w) (t_step lits o t).
Proof.
  intros R. pose proof (r_objs _ _ _ R) as Ro.
  destruct o as [i|i s ok|i k|i j ok|i j|i j|i j|i|v i|v i from len|v i from|v u from to|v|i|i|i|i k|i j]; cbn [s_step t_step].
  - generalize (Ro i); intros O. destruct (t_vars t i) as [x|] eqn:I, (sw_objs w i) as [o|] eqn:W; try contradiction; [exact Logic.I|].
    cbn. split; [reflexivity|]. apply new_rel; auto; [reflexivity|discriminate].
  - generalize (Ro i); intros O. destruct (t_vars t i) as [x|] eqn:I, (sw_objs w i) as [o|] eqn:W; try contradiction; [exact Logic.I|].
    destruct ok; cbn; (split; [reflexivity|]); [now apply rel_make | exact R].
  - generalize (Ro i); intros O. rewrite (r_lits _ _ _ R). destruct (t_vars t i) as [x|] eqn:I, (sw_objs w i) as [o|] eqn:W; try contradiction; [exact Logic.I|].
    destruct (nth_error lits k) as [s|] eqn:K; cbn; [|exact Logic.I]. split; [reflexivity|]. apply new_rel; auto; [|discriminate].
    cbn. exists k. rewrite (r_lits _ _ _ R). auto.
  - generalize (Ro i) (Ro j); intros O P. destruct (t_vars t i) as [x|] eqn:I, (sw_objs w i) as [o|] eqn:W; try contradiction; [exact Logic.I|].
    destruct (t_vars t j) as [y|] eqn:J, (sw_objs w j) as [o|] eqn:V; try contradiction; [|exact Logic.I].
    destruct ok; [|cbn; auto]. rewrite (obj_text _ _ _ _ _ _ R J P). cbn. split; [reflexivity|]. now apply rel_make.
  - generalize (Ro i) (Ro j); intros O P. destruct (t_vars t i) as [x|] eqn:I, (sw_objs w i) as [o|] eqn:W; try contradiction; [exact Logic.I|].
    destruct (t_vars t j) as [y|] eqn:J, (sw_objs w j) as [o|] eqn:V; try contradiction; [|exact Logic.I].
    cbn. split; [reflexivity|]. now apply move_rel.
  - generalize (Ro i) (Ro j); intros O P. destruct (t_vars t i) as [x|] eqn:I, (sw_objs w i) as [a|] eqn:W; try contradiction; [|exact Logic.I].
    destruct (t_vars t j) as [y|] eqn:J, (sw_objs w j) as [b|] eqn:V; try contradiction; [|exact Logic.I].
    cbn. split; [reflexivity|]. now apply swap_rel.
  - generalize (Ro i) (Ro j); intros O P. destruct (t_vars t i) as [x|] eqn:I, (sw_objs w i) as [a|] eqn:W; try contradiction; [|exact Logic.I].
    destruct (t_vars t j) as [y|] eqn:J, (sw_objs w j) as [b|] eqn:V; try contradiction; [|exact Logic.I].
    cbn. split; [reflexivity|]. now apply swap_rel.
  - generalize (Ro i); intros O. destruct (t_vars t i) as [x|] eqn:I, (sw_objs w i) as [o|] eqn:W; try contradiction; [|exact Logic.I].
    destruct x as [[[|n] s]|]; cbn in O.
    + destruct O as (k & E & ->). cbn. split; [reflexivity|]. apply (rel_drop_none _ _ _ _ _ _ R I W). discriminate.
    + destruct O as (-> & G & D). unfold sres_drop. cbn [so_buf sr_disp sr_addr]. rewrite G. cbn. split; [reflexivity|].
      exact (rel_drop_made _ _ _ _ _ _ R I).
    + subst o. cbn. split; [reflexivity|]. apply (rel_drop_none _ _ _ _ _ _ R I W). discriminate.
  - generalize (Ro i); intros O. destruct (t_vars t i) as [x|] eqn:I, (sw_objs w i) as [o|] eqn:W; try contradiction; [|exact Logic.I].
    cbn. split; [reflexivity|]. apply rel_set_views; auto. now apply (obj_view lits).
  - generalize (Ro i); intros O. destruct (t_vars t i) as [x|] eqn:I, (sw_objs w i) as [o|] eqn:W; try contradiction; [|exact Logic.I].
    cbn. split; [reflexivity|]. apply rel_set_views; auto. apply sub_ok. now apply (obj_view lits).
  - generalize (Ro i); intros O. destruct (t_vars t i) as [x|] eqn:I, (sw_objs w i) as [o|] eqn:W; try contradiction; [|exact Logic.I].
    unfold same. split; [reflexivity|]. apply rel_set_views; auto. rewrite (proj2 (obj_size _ _ _ _ O)). apply sub_ok. now apply (obj_view lits).
  - cbn. split; [reflexivity|]. apply rel_set_views; auto. apply sub_ok. exact (r_views _ _ _ R u).
  - rewrite (read_ok _ _ _ _ _ R (r_views _ _ _ R v)). destruct (read_ub t (t_views t v)) as [->|(s & ->)]; cbn; auto.
  - generalize (Ro i); intros O. destruct (t_vars t i) as [x|] eqn:I, (sw_objs w i) as [o|] eqn:W; try contradiction; [|exact Logic.I].
    rewrite (obj_text _ _ _ _ _ _ R I O). cbn. auto.
  - generalize (Ro i); intros O. destruct (t_vars t i) as [x|] eqn:I, (sw_objs w i) as [o|] eqn:W; try contradiction; [|exact Logic.I].
    cbn. rewrite (proj1 (obj_size _ _ _ _ O)). auto.
  - generalize (Ro i); intros O. destruct (t_vars t i) as [x|] eqn:I, (sw_objs w i) as [o|] eqn:W; try contradiction; [|exact Logic.I].
    cbn. rewrite (proj1 (obj_size _ _ _ _ O)). split; [|exact R]. f_equal. destruct (text_of x) as [|c s].
    + reflexivity.
    + rewrite size_cons. destruct (N.eqb_spec (size s + 1) 0); [lia|]. unfold text_eqb. destruct list_eq_dec; [discriminate|reflexivity].
  - generalize (Ro i); intros O. destruct (t_vars t i) as [x|] eqn:I, (sw_objs w i) as [o|] eqn:W; try contradiction; [|exact Logic.I].
    pose proof (obj_text _ _ _ _ _ _ R I O) as T. pose proof (proj2 (obj_size _ _ _ _ O)) as L.
    cbv zeta. destruct (N.leb_spec (sv_len (sobj_view o)) k) as [H|H].
    + destruct (nth_error (text_of x) (N.to_nat k)) eqn:E; [|cbn; auto].
      assert (N.to_nat k < length (text_of x))%nat by (apply nth_error_Some; congruence). unfold size in L. lia.
    + destruct (char_read _ _ _ _ T L H) as (c & E & Rd). rewrite E, Rd. cbn. auto.
  - generalize (Ro i) (Ro j); intros O P. destruct (t_vars t i) as [x|] eqn:I, (sw_objs w i) as [a|] eqn:W; try contradiction; [|exact Logic.I].
    destruct (t_vars t j) as [y|] eqn:J, (sw_objs w j) as [b|] eqn:V; try contradiction; [|exact Logic.I].
    rewrite (obj_text _ _ _ _ _ _ R I O), (obj_text _ _ _ _ _ _ R J P). cbn. split; [|exact R]. f_equal.
    destruct (sv_equals (text_of x) (text_of y)) eqn:E; symmetry.
    + apply text_eqb_spec. now apply sv_equals_spec.
    + apply Bool.not_true_is_false. intros H. apply text_eqb_spec in H. apply sv_equals_spec in H. congruence.
Qed.

Definition sames {A B} (P : A -> B -> Prop) (x : outcome (list sans * A)) (y : outcome (list sans * B)) : Prop :=
  match x, y with
  | Ret (a, w), Ret (b, t) => a = b /\ P w t
  | UB, UB => True
  | _, _ => False
  end.
Lemma run_rel lits os : forall w t, rel lits w t -> sames (rel lits) (s_run os w) (t_run lits os t).
Proof.
  induction os as [|o os IH]; intros w t R; cbn [s_run t_run].
  - cbn. auto.
  - pose proof (step_rel lits w t o R) as S1. destruct (s_step o w) as [[a w']| | | |], (t_step lits o t) as [[b t']| | | |]; try contradiction; [|exact Logic.I].
    destruct S1 as [-> R']. cbn. specialize (IH w' t' R').
    destruct (s_run os w') as [[l w'']| | | |], (t_run lits os t') as [[l' t'']| | | |]; try contradiction; [|exact Logic.I].
    destruct IH as [-> R'']. cbn. auto.
Qed.
