(** C89: memory stays locked while its Lock object lives. *)
From Coq Require Import Lia.
From Verif Require Import Base LockModel.

(** * Specification *)
(** The byte at [x] lies in the range. *)
Definition covers (r : mem_range) (x : N) : Prop := fst r <= x < fst r + snd r.
(** Some living Lock object covers a byte of the page. *)
Definition held (psize : N) (w : lworld) (p : N) : Prop :=
  exists i r x, get_obj w i = Some r /\ covers r x /\ x / psize = p.
(** The ranges share no page. *)
Definition apart (psize : N) (r s : mem_range) : Prop :=
  forall x y, covers r x -> covers s y -> x / psize <> y / psize.
(** Every lock that succeeds is of a range that shares no page with the Lock objects that live,
    and Lock objects come from lock() only. *)
Fixpoint apart_run (psize : N) (os : list lop) (w : lworld) : Prop :=
  match os with
  | [] => True
  | o :: t =>
      match o with
      | LkLock _ r true => forall i s, get_obj w i = Some s -> apart psize r s
      | LkWrap _ _ => False
      | _ => True
      end /\
      match lk_step psize o w with Ret p => apart_run psize t (snd p) | _ => True end
  end.
(** At the start nothing is locked and no Lock object lives; [n] variables can hold one. *)
Definition lk_start (n : nat) : lworld := mkLW [] (repeat None n).

(** * Proofs *)
Lemma pages_spec : forall psize r p, 0 < psize ->
  (In p (pages_of psize r) <-> exists x, covers r x /\ x / psize = p).
Proof.
  intros psize [a n] p P. unfold pages_of, covers; cbn [fst snd]. destruct (N.eqb_spec n 0) as [->|Z].
  - split; [intros []|intros (x & C & _); lia].
  - assert (M : a / psize <= (a + n - 1) / psize) by (apply N.div_le_mono; lia).
    rewrite in_map_iff. split.
    + intros (k & <- & K). apply in_seq in K.
      set (q := a / psize + N.of_nat k). assert (Q : a / psize <= q <= (a + n - 1) / psize) by (unfold q; lia).
      clearbody q. clear k K.
      pose proof (N.div_mod a psize ltac:(lia)) as D1. pose proof (N.mod_lt a psize ltac:(lia)) as D2.
      pose proof (N.div_mod (a + n - 1) psize ltac:(lia)) as D3. pose proof (N.mod_lt (a + n - 1) psize ltac:(lia)) as D4.
      exists (N.max a (psize * q)). split.
      * assert (psize * q <= psize * ((a + n - 1) / psize)) by (apply N.mul_le_mono_l; lia). lia.
      * destruct (N.max_spec a (psize * q)) as [[L ->]|[L ->]].
        -- rewrite N.mul_comm. now apply N.div_mul; lia.
        -- apply N.le_antisymm; [lia|]. apply N.div_le_lower_bound; lia.
    + intros (x & C & <-). assert (L1 : a / psize <= x / psize) by (apply N.div_le_mono; lia).
      assert (L2 : x / psize <= (a + n - 1) / psize) by (apply N.div_le_mono; lia).
      exists (N.to_nat (x / psize - a / psize)). split; [lia|]. apply in_seq. lia.
Qed.
Lemma munlock_spec : forall psize r l p, 0 < psize ->
  (In p (os_munlock psize r l) <-> In p l /\ ~ exists x, covers r x /\ x / psize = p).
Proof.
  intros psize r l p P. unfold os_munlock. rewrite filter_In, <- (pages_spec psize r p P), Bool.negb_true_iff.
  split; intros [A B]; (split; [exact A|]).
  - intros I. assert (existsb (N.eqb p) (pages_of psize r) = true) by (apply existsb_exists; exists p; split; [exact I|apply N.eqb_refl]). congruence.
  - apply Bool.not_true_is_false. intros E. apply existsb_exists in E as (q & I & E). apply N.eqb_eq in E. subst. contradiction.
Qed.
Lemma nth_set : forall l i j x, nth j (set_obj l i x) None = if Nat.eqb i j && Nat.ltb i (length l) then x else nth j l None.
Proof.
  induction l as [|y l IH]; intros i j x; [destruct i, j; cbn; try reflexivity; rewrite Bool.andb_false_r; reflexivity|].
  destruct i, j; cbn [set_obj nth length Nat.eqb Nat.ltb Nat.leb]; try reflexivity. rewrite IH. reflexivity.
Qed.
Lemma set_obj_length : forall l i x, length (set_obj l i x) = length l.
Proof. induction l; intros [|i] x; cbn; congruence. Qed.
Lemma some_in : forall w i r, get_obj w i = Some r -> (i < length (lw_objs w))%nat.
Proof. intros w i r H. destruct (Nat.lt_ge_cases i (length (lw_objs w))); [assumption|]. unfold get_obj in H. rewrite nth_overflow in H by assumption. discriminate. Qed.

(** Two objects never share a page, and exactly the pages they cover are locked. *)
Definition lk_inv (psize : N) (w : lworld) : Prop :=
  (forall p, In p (lw_locked w) <-> held psize w p) /\
  (forall i j r s, i <> j -> get_obj w i = Some r -> get_obj w j = Some s -> apart psize r s).

Lemma free_spec : forall w i, is_free w i = true -> get_obj w i = None /\ (i < length (lw_objs w))%nat.
Proof.
  intros w i H. unfold is_free in H. destruct (nth_error (lw_objs w) i) as [[|]|] eqn:E; try discriminate. split; [|apply nth_error_Some; congruence].
  unfold get_obj. now apply nth_error_nth.
Qed.
Lemma covers_none : forall x, ~ covers (0, 0) x.
Proof. intros x [A B]. cbn in *. lia. Qed.
Lemma lk_step_inv : forall psize o w p, 0 < psize -> lk_inv psize w -> apart_run psize [o] w -> lk_step psize o w = Ret p ->
  lk_inv psize (snd p).
Proof.
  intros psize o w p P (I1 & I2) (A & _) E. destruct o as [i r ok|i r|i j|i j|i]; cbn [lk_step] in E.
  - destruct (is_free w i) eqn:G; cbn [negb] in E; [|discriminate]. apply free_spec in G as (G & V). destruct ok; [|injection E as <-; split; assumption].
    assert (Q : p = (Ok tt, mkLW (os_mlock psize r (lw_locked w)) (set_obj (lw_objs w) i (Some r)))) by congruence. subst p. clear E. cbn [snd].
    assert (S : forall k, get_obj (mkLW (os_mlock psize r (lw_locked w)) (set_obj (lw_objs w) i (Some r))) k = if Nat.eqb i k then Some r else get_obj w k).
    { intros k. unfold get_obj. cbn [lw_objs]. rewrite nth_set. apply Nat.ltb_lt in V. rewrite V, Bool.andb_true_r. reflexivity. }
    split.
    + intros q. cbn [lw_locked]. unfold os_mlock. rewrite in_app_iff, pages_spec, I1 by assumption. unfold held. split.
      * intros [(x & C & X)|(k & s & x & K & C & X)].
        -- exists i, r, x. rewrite S, Nat.eqb_refl. auto.
        -- exists k, s, x. rewrite S. destruct (Nat.eqb_spec i k) as [<-|_]; [congruence|auto].
      * intros (k & s & x & K & C & X). rewrite S in K. destruct (Nat.eqb_spec i k) as [<-|_].
        -- left. assert (s = r) by congruence. subst. eauto.
        -- right. eauto 6.
    + intros k l s t D K L. rewrite S in K, L. destruct (Nat.eqb_spec i k) as [<-|_], (Nat.eqb_spec i l) as [<-|_]; [congruence| | |exact (I2 k l s t D K L)].
      * assert (s = r) by congruence. subst. exact (A l t L).
      * assert (t = r) by congruence. subst. intros x y X Y F. exact (A k s K y x Y X (eq_sym F)).
  - destruct A.
  - destruct (get_obj w i) as [r|] eqn:G; [|discriminate]. destruct (is_free w j) eqn:H; cbn [negb] in E; [|discriminate]. apply free_spec in H as (H & V).
    assert (Q : p = (Ok tt, mkLW (lw_locked w) (set_obj (set_obj (lw_objs w) i (Some (0, 0))) j (Some r)))) by congruence. subst p. clear E. cbn [snd].
    assert (Ij : i <> j) by congruence. pose proof (some_in _ _ _ G) as Li.
    assert (S : forall k, get_obj (mkLW (lw_locked w) (set_obj (set_obj (lw_objs w) i (Some (0, 0))) j (Some r))) k =
                if Nat.eqb j k then Some r else if Nat.eqb i k then Some (0, 0) else get_obj w k).
    { intros k. unfold get_obj. cbn [lw_objs]. rewrite !nth_set, set_obj_length. apply Nat.ltb_lt in V, Li. rewrite V, Li, !Bool.andb_true_r. reflexivity. }
    split.
    + intros q. cbn [lw_locked]. rewrite I1. unfold held. split; intros (k & s & x & K & C & X).
      * destruct (Nat.eq_dec k i) as [->|D].
        -- exists j, s, x. rewrite S, Nat.eqb_refl. split; [congruence|auto].
        -- exists k, s, x. rewrite S. destruct (Nat.eqb_spec j k) as [<-|_]; [congruence|]. destruct (Nat.eqb_spec i k); [congruence|auto].
      * rewrite S in K. destruct (Nat.eqb_spec j k) as [<-|_]; [exists i, s, x; split; [congruence|auto]|].
        destruct (Nat.eqb_spec i k) as [<-|_]; [|eauto 6]. assert (s = (0, 0)) by congruence. subst. now apply covers_none in C.
    + intros k l s t D K L x y Cx Cy. rewrite S in K, L.
      destruct (Nat.eqb_spec j k) as [<-|_], (Nat.eqb_spec j l) as [<-|_]; [congruence| | |].
      * destruct (Nat.eqb_spec i l) as [<-|N2]; [assert (t = (0, 0)) by congruence; subst; now apply covers_none in Cy|].
        apply (I2 i l s t); auto. congruence.
      * destruct (Nat.eqb_spec i k) as [<-|N2]; [assert (s = (0, 0)) by congruence; subst; now apply covers_none in Cx|].
        apply (I2 k i s t); auto. congruence.
      * destruct (Nat.eqb_spec i k) as [<-|N2]; [assert (s = (0, 0)) by congruence; subst; now apply covers_none in Cx|].
        destruct (Nat.eqb_spec i l) as [<-|N3]; [assert (t = (0, 0)) by congruence; subst; now apply covers_none in Cy|]. exact (I2 k l s t D K L x y Cx Cy).
  - destruct (get_obj w i) as [r|] eqn:G; [|discriminate]. destruct (get_obj w j) as [s|] eqn:H; [|discriminate].
    assert (Q : p = (Ok tt, mkLW (lw_locked w) (set_obj (set_obj (lw_objs w) i (Some s)) j (Some r)))) by congruence. subst p. clear E. cbn [snd].
    pose proof (some_in _ _ _ G) as Li. pose proof (some_in _ _ _ H) as Lj.
    assert (S : forall k, get_obj (mkLW (lw_locked w) (set_obj (set_obj (lw_objs w) i (Some s)) j (Some r))) k =
                if Nat.eqb j k then Some r else if Nat.eqb i k then Some s else get_obj w k).
    { intros k. unfold get_obj. cbn [lw_objs]. rewrite !nth_set, set_obj_length. apply Nat.ltb_lt in Li, Lj. rewrite Li, Lj, !Bool.andb_true_r. reflexivity. }
    set (sw := fun k => if Nat.eqb j k then i else if Nat.eqb i k then j else k).
    assert (T : forall k, get_obj (mkLW (lw_locked w) (set_obj (set_obj (lw_objs w) i (Some s)) j (Some r))) k = get_obj w (sw k)).
    { intros k. rewrite S. unfold sw. destruct (Nat.eqb j k); [congruence|]. destruct (Nat.eqb i k); congruence. }
    assert (SS : forall k, sw (sw k) = k).
    { intros k. unfold sw. destruct (Nat.eqb_spec j k) as [<-|]; [destruct (Nat.eqb_spec j i); [auto|now rewrite Nat.eqb_refl]|].
      destruct (Nat.eqb_spec i k) as [<-|]; [now rewrite Nat.eqb_refl|].
      destruct (Nat.eqb_spec j k), (Nat.eqb_spec i k); congruence. }
    split.
    + intros q. cbn [lw_locked]. rewrite I1. unfold held. split; intros (k & u & x & K & C & X).
      * exists (sw k), u, x. rewrite T, SS. auto.
      * exists (sw k), u, x. rewrite T in K. auto.
    + intros k l u t D K L. rewrite T in K, L. apply (I2 (sw k) (sw l)); auto. intros F. apply D. rewrite <- (SS k), F. apply SS.
  - destruct (get_obj w i) as [r|] eqn:G; [|discriminate].
    assert (Q : p = (Ok tt, mkLW (os_munlock psize r (lw_locked w)) (set_obj (lw_objs w) i None))) by congruence. subst p. clear E. cbn [snd].
    pose proof (some_in _ _ _ G) as Li.
    assert (S : forall k, get_obj (mkLW (os_munlock psize r (lw_locked w)) (set_obj (lw_objs w) i None)) k = if Nat.eqb i k then None else get_obj w k).
    { intros k. unfold get_obj. cbn [lw_objs]. rewrite nth_set. apply Nat.ltb_lt in Li. rewrite Li, Bool.andb_true_r. reflexivity. }
    split.
    + intros q. cbn [lw_locked]. rewrite munlock_spec, I1 by assumption. unfold held. split.
      * intros ((k & s & x & K & C & X) & F). exists k, s, x. rewrite S. destruct (Nat.eqb_spec i k) as [<-|_]; [|auto].
        exfalso. apply F. exists x. assert (s = r) by congruence. subst. auto.
      * intros (k & s & x & K & C & X). rewrite S in K. destruct (Nat.eqb_spec i k) as [<-|D]; [discriminate|]. split; [eauto 6|].
        intros (y & Cy & Y). apply (I2 i k r s D G K y x Cy C). congruence.
    + intros k l s t D K L. rewrite S in K, L. destruct (Nat.eqb i k), (Nat.eqb i l); try discriminate. exact (I2 k l s t D K L).
Qed.

Lemma lk_run_inv : forall psize os w rs w', 0 < psize -> lk_inv psize w -> apart_run psize os w -> lk_run psize os w = Ret (rs, w') -> lk_inv psize w'.
Proof.
  intros psize os. induction os as [|o os IH]; intros w rs w' P I A E; cbn [lk_run] in E; [assert (w' = w) by congruence; now subst|].
  destruct A as (A & B). destruct (lk_step psize o w) as [p| | | |] eqn:F; try discriminate. cbn [bind] in E.
  destruct (lk_run psize os (snd p)) as [[qs w2]| | | |] eqn:R; try discriminate. cbn [bind fst snd] in E. assert (w' = w2) by congruence. subst w2.
  apply (IH (snd p) qs w' P); [|exact B|exact R]. apply (lk_step_inv psize o w p P I); [|exact F]. cbn [apart_run]. split; [exact A|]. rewrite F. exact Logic.I.
Qed.
Lemma start_none : forall n i, get_obj (lk_start n) i = None.
Proof. intros n i. unfold get_obj, lk_start. cbn [lw_objs]. revert i. induction n; intros [|i]; cbn; auto. Qed.

(** * Theorems *)
(** Whatever locks, moves, assignments and destructions happen in whatever order, as long as no
    range shares a page with a Lock object that lives when it is locked: the locked pages are
    exactly those that some living Lock object covers. *)
Theorem C89_locked_partial : forall psize n os rs w, 0 < psize -> apart_run psize os (lk_start n) ->
  lk_run psize os (lk_start n) = Ret (rs, w) -> forall p, In p (lw_locked w) <-> held psize w p.
Proof.
  intros psize n os rs w P A E. apply (lk_run_inv psize os (lk_start n) rs w P); auto. split.
  - intros p. split; [intros []|]. intros (i & r & x & G & _). rewrite start_none in G. discriminate.
  - intros i j r s _ G. rewrite start_none in G. discriminate.
Qed.
Print Assumptions C89_locked_partial.
(** So nothing stays locked once the objects are gone. *)
Theorem C89_released_partial : forall psize n os rs w, 0 < psize -> apart_run psize os (lk_start n) ->
  lk_run psize os (lk_start n) = Ret (rs, w) -> (forall i, get_obj w i = None) -> lw_locked w = [].
Proof.
  intros psize n os rs w P A E D. destruct (lw_locked w) as [|p l] eqn:L; [reflexivity|].
  assert (I : In p (lw_locked w)) by (rewrite L; now left). apply (C89_locked_partial psize n os rs w P A E) in I as (i & r & x & G & _).
  rewrite D in G. discriminate.
Qed.
Print Assumptions C89_released_partial.
(** A lock that fails is reported, makes no object and locks nothing. *)
Theorem C89_failure : forall psize i r w, is_free w i = true -> lk_step psize (LkLock i r false) w = Ret (Err E_NOMEM, w).
Proof. intros psize i r w F. cbn [lk_step]. now rewrite F. Qed.
Print Assumptions C89_failure.
(** Whenever two ranges share a page, destroying one Lock unlocks memory the other one holds. *)
Theorem C89_shared_refuted : forall psize r s x y, 0 < psize -> covers r x -> covers s y -> x / psize = y / psize ->
  exists w, lk_run psize [LkLock 0 r true; LkLock 1 s true; LkDrop 1] (lk_start 2) = Ret ([Ok tt; Ok tt; Ok tt], w) /\
            get_obj w 0 = Some r /\ ~ In (x / psize) (lw_locked w).
Proof.
  intros psize r s x y P Cx Cy E. cbn [lk_run lk_step is_free lk_start lw_objs lw_locked nth_error repeat negb set_obj bind fst snd get_obj nth].
  eexists. split; [reflexivity|]. split; [reflexivity|]. cbn [lw_locked]. rewrite munlock_spec by assumption. intros (_ & F). apply F. exists y. auto.
Qed.
Print Assumptions C89_shared_refuted.
(** A Lock made from a view directly locks nothing. *)
Theorem C89_wrap_refuted : forall psize r x, covers r x ->
  exists w, lk_run psize [LkWrap 0 r] (lk_start 1) = Ret ([Ok tt], w) /\ get_obj w 0 = Some r /\ ~ In (x / psize) (lw_locked w).
Proof.
  intros psize r x C. eexists. split; [reflexivity|]. split; [reflexivity|]. intros [].
Qed.
Print Assumptions C89_wrap_refuted.

(** Three buffers, a failed lock, a move, an assignment, two destructions; one lock lives on. *)
Example C89_case : apart_run 4096 [LkLock 0 (8192, 5000) true; LkLock 1 (4096, 1) true; LkLock 2 (9000, 1) false; LkMove 0 2; LkAssign 1 2; LkDrop 2; LkDrop 0] (lk_start 3) /\
  lk_run 4096 [LkLock 0 (8192, 5000) true; LkLock 1 (4096, 1) true; LkLock 2 (9000, 1) false; LkMove 0 2; LkAssign 1 2; LkDrop 2; LkDrop 0] (lk_start 3) =
    Ret ([Ok tt; Ok tt; Err E_NOMEM; Ok tt; Ok tt; Ok tt; Ok tt], mkLW [2; 3] [None; Some (8192, 5000); None]).
Proof.
  split; [|reflexivity]. cbn [apart_run]. split; [intros i s H; rewrite start_none in H; discriminate|].
  cbn [lk_step is_free lk_start lw_objs lw_locked nth_error repeat negb set_obj snd]. split; [|repeat split].
  intros i s H x y Cx Cy F. destruct i as [|[|[|[|i]]]]; cbn in H; try discriminate. assert (s = (8192, 5000)) by congruence. subst.
  unfold covers in *. cbn [fst snd] in *. assert (x = 4096) by lia. subst x.
  assert (8192 / 4096 <= y / 4096) by (apply N.div_le_mono; lia). change (4096 / 4096) with 1 in F. change (8192 / 4096) with 2 in H0. lia.
Qed.
