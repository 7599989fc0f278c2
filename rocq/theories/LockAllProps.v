(** C147: which pages are locked after any history of locks, shared pages included. *)
From Verif Require Import Base LockModel LockProps.
Notation length := List.length.

(** ** Specification *)
(** What the program did: it locked a range, or destroyed the Lock that held one. *)
Inductive event := Taken (r : mem_range) | Given (r : mem_range).
(** The Lock objects: who holds what. *)
Definition owners := nat -> option mem_range.
Definition upd (h : owners) (i : nat) (x : option mem_range) : owners := fun k => if Nat.eqb k i then x else h k.
Definition vacant (n : nat) (h : owners) (i : nat) : bool := Nat.ltb i n && match h i with None => true | Some _ => false end.
(** One statement on [n] variables: nothing for a misused variable.  Moving takes the range
    along, assignment exchanges ranges, a failed lock and a constructed Lock lock nothing. *)
Definition own_step (n : nat) (o : lop) (h : owners) : option (owners * list event) :=
  match o with
  | LkLock i r ok => if vacant n h i then Some (if ok then (upd h i (Some r), [Taken r]) else (h, [])) else None
  | LkWrap i r => if vacant n h i then Some (upd h i (Some r), []) else None
  | LkMove i j => match h i with Some r => if vacant n h j then Some (upd (upd h i (Some (0, 0))) j (Some r), []) else None | None => None end
  | LkAssign i j => match h i, h j with Some r, Some s => Some (upd (upd h i (Some s)) j (Some r), []) | _, _ => None end
  | LkDrop i => match h i with Some r => Some (upd h i None, [Given r]) | None => None end
  end.
Fixpoint own_run (n : nat) (os : list lop) (h : owners) : option (owners * list event) :=
  match os with
  | [] => Some (h, [])
  | o :: t =>
      match own_step n o h with
      | Some (h', es) => match own_run n t h' with Some (h'', es') => Some (h'', es ++ es') | None => None end
      | None => None
      end
  end.
Definition answer (o : lop) : result unit := match o with LkLock _ _ false => Err E_NOMEM | _ => Ok tt end.
(** The range has a byte of the page. *)
Definition touches (psize : N) (r : mem_range) (p : N) : Prop := exists x, covers r x /\ x / psize = p.
(** The page was taken, and not given back since. *)
Definition kept (psize : N) (es : list event) (p : N) : Prop :=
  exists before r after, es = before ++ Taken r :: after /\ touches psize r p /\ forall s, In (Given s) after -> ~ touches psize s p.

(** ** Proofs *)
Lemma kept_app psize es p e : kept psize (es ++ [e]) p <->
  match e with Taken r => touches psize r p \/ kept psize es p | Given s => kept psize es p /\ ~ touches psize s p end.
Proof.
  unfold kept. split.
  - intros (b & r & a & E & T & G). destruct (@exists_last _ (Taken r :: a) ltac:(discriminate)) as (m & z & Z).
    rewrite Z, app_assoc in E. apply app_inj_tail in E as (E & <-).
    destruct m as [|y m]; cbn in Z.
    + assert (e = Taken r) as -> by congruence. left. exact T.
    + assert (y = Taken r /\ a = m ++ [e]) as [-> ->] by (split; congruence). 
      assert (K : kept psize es p). { exists b, r, m. split; [exact E|]. split; [exact T|]. intros s I. apply G, in_or_app. now left. }
      destruct e as [r'|s]; [right; exact K|]. split; [exact K|]. apply G, in_or_app. right. now left.
  - destruct e as [r|s].
    + intros [T|(b & r' & a & -> & T & G)].
      * exists es, r, []. split; [reflexivity|]. split; [exact T|intros s []].
      * exists b, r', (a ++ [Taken r]). rewrite <- app_assoc. split; [reflexivity|]. split; [exact T|]. intros s I. apply in_app_or in I as [I|[I|[]]]; [now apply G|discriminate].
    + intros ((b & r' & a & -> & T & G) & N0). exists b, r', (a ++ [Given s]). rewrite <- app_assoc. split; [reflexivity|]. split; [exact T|].
      intros s' I. apply in_app_or in I as [I|[I|[]]]; [now apply G|]. assert (s' = s) by congruence. now subst.
Qed.

(** The model and the specification agree so far. *)
Definition agree (psize : N) (n : nat) (w : lworld) (h : owners) (es : list event) : Prop :=
  length (lw_objs w) = n /\ (forall i, get_obj w i = h i) /\ forall p, In p (lw_locked w) <-> kept psize es p.
Lemma free_vacant w n h i : length (lw_objs w) = n -> (forall k, get_obj w k = h k) -> is_free w i = vacant n h i.
Proof.
  intros L G. unfold is_free, vacant. rewrite <- G. unfold get_obj. destruct (Nat.ltb_spec i n) as [H|H].
  - destruct (nth_error (lw_objs w) i) as [x|] eqn:E; [|apply nth_error_None in E; lia]. rewrite (nth_error_nth _ _ None E). now destruct x.
  - assert (nth_error (lw_objs w) i = None) as -> by (apply nth_error_None; lia). reflexivity.
Qed.
Lemma vacant_lt n h i : vacant n h i = true -> (i < n)%nat.
Proof. unfold vacant. destruct (Nat.ltb_spec i n); [auto|discriminate]. Qed.
Lemma get_set objs l n i x h : length objs = n -> (i < n)%nat -> (forall k, nth k objs None = h k) ->
  forall k, get_obj (mkLW l (set_obj objs i x)) k = upd h i x k.
Proof.
  intros L H G k. unfold get_obj, upd. cbn [lw_objs]. rewrite nth_set, <- G. subst n. apply Nat.ltb_lt in H. rewrite H, Bool.andb_true_r, Nat.eqb_sym. reflexivity.
Qed.
Lemma agree_step psize n o w h es : 0 < psize -> agree psize n w h es ->
  match own_step n o h with
  | None => lk_step psize o w = UB
  | Some (h', es') => exists w', lk_step psize o w = Ret (answer o, w') /\ agree psize n w' h' (es ++ es')
  end.
Proof.
  intros P (L & G & K). assert (FV : forall i, is_free w i = vacant n h i) by (intros; now apply free_vacant).
  assert (IN : forall i r, h i = Some r -> (i < n)%nat) by (intros i r H; rewrite <- G in H; apply some_in in H; lia).
  destruct o as [i r ok|i r|i j|i j|i]; cbn [own_step lk_step answer].
  - rewrite FV. destruct (vacant n h i) eqn:V; cbn [negb]; [|reflexivity]. apply vacant_lt in V. destruct ok.
    + eexists. split; [reflexivity|]. split; [cbn [lw_objs]; now rewrite set_obj_length|]. split; [now apply get_set with (n := n)|].
      intros p. cbn [lw_locked]. unfold os_mlock. rewrite in_app_iff, pages_spec, K, kept_app by exact P. reflexivity.
    + exists w. split; [reflexivity|]. rewrite app_nil_r. split; [exact L|]. split; assumption.
  - rewrite FV. destruct (vacant n h i) eqn:V; cbn [negb]; [|reflexivity]. apply vacant_lt in V.
    eexists. split; [reflexivity|]. rewrite app_nil_r. split; [cbn [lw_objs]; now rewrite set_obj_length|]. split; [now apply get_set with (n := n)|exact K].
  - rewrite G. destruct (h i) as [r|] eqn:Hi; [|reflexivity]. rewrite FV. destruct (vacant n h j) eqn:V; cbn [negb]; [|reflexivity]. apply vacant_lt in V.
    eexists. split; [reflexivity|]. rewrite app_nil_r. split; [cbn [lw_objs]; now rewrite !set_obj_length|]. split; [|exact K].
    apply get_set with (n := n); [now rewrite set_obj_length|exact V|]. intros k. apply (get_set (lw_objs w) (lw_locked w) n); eauto.
  - rewrite !G. destruct (h i) as [r|] eqn:Hi; [|reflexivity]. destruct (h j) as [s|] eqn:Hj; [|reflexivity].
    eexists. split; [reflexivity|]. rewrite app_nil_r. split; [cbn [lw_objs]; now rewrite !set_obj_length|]. split; [|exact K].
    apply get_set with (n := n); [now rewrite set_obj_length|eauto|]. intros k. apply (get_set (lw_objs w) (lw_locked w) n); eauto.
  - rewrite G. destruct (h i) as [r|] eqn:Hi; [|reflexivity]. eexists. split; [reflexivity|]. split; [cbn [lw_objs]; now rewrite set_obj_length|].
    split; [apply get_set with (n := n); eauto|]. intros p. cbn [lw_locked]. rewrite munlock_spec, K, kept_app by exact P. reflexivity.
Qed.
Lemma agree_run psize n : 0 < psize -> forall os w h es, agree psize n w h es ->
  match own_run n os h with
  | None => lk_run psize os w = UB
  | Some (h', es') => exists w', lk_run psize os w = Ret (map answer os, w') /\ agree psize n w' h' (es ++ es')
  end.
Proof.
  intros P. induction os as [|o os IH]; intros w h es A; cbn [own_run lk_run map].
  - exists w. rewrite app_nil_r. auto.
  - pose proof (agree_step psize n o w h es P A) as S0. destruct (own_step n o h) as [[h1 es1]|]; [|now rewrite S0].
    destruct S0 as (w1 & E1 & A1). rewrite E1. cbn [bind snd fst]. pose proof (IH w1 h1 (es ++ es1) A1) as S1.
    destruct (own_run n os h1) as [[h2 es2]|]; [|now rewrite S1]. destruct S1 as (w2 & E2 & A2). rewrite E2. cbn [bind snd fst]. exists w2. split; [reflexivity|]. now rewrite app_assoc.
Qed.

(** ** Theorems *)
(** Any history is undefined exactly if it misuses a variable; otherwise the objects hold the
    ranges the specification says, and a page is locked exactly if it was taken by some
    lock() and no Lock touching it was destroyed since. *)
Theorem C147_history : forall psize n os, 0 < psize ->
  match own_run n os (fun _ => None) with
  | None => lk_run psize os (lk_start n) = UB
  | Some (h, es) => exists w, lk_run psize os (lk_start n) = Ret (map answer os, w) /\
      (forall i, get_obj w i = h i) /\ (forall p, In p (lw_locked w) <-> kept psize es p)
  end.
Proof.
  intros psize n os P. assert (A : agree psize n (lk_start n) (fun _ => None) []).
  { split; [apply repeat_length|]. split; [apply start_none|]. intros p. split; [intros []|]. intros (b & r & a & E & _). destruct b; discriminate. }
  pose proof (agree_run psize n P os _ _ _ A) as S0. destruct (own_run n os (fun _ => None)) as [[h es]|]; [|exact S0].
  destruct S0 as (w & E & _ & G & K). exists w. auto.
Qed.
Print Assumptions C147_history.

(** A range that was taken was given back since, or some object holds it. *)
Definition accounted (h : owners) (es : list event) : Prop :=
  forall before r after, es = before ++ Taken r :: after -> In (Given r) after \/ exists i, h i = Some r.
Lemma accounted_step n o h es h' es' : accounted h es -> own_step n o h = Some (h', es') -> accounted h' (es ++ es').
Proof.
  intros A E.
  assert (Q : forall k r, h k = Some r -> match o with LkDrop i => k = i | _ => False end \/ exists i, h' i = Some r).
  { assert (V : forall i k r, vacant n h i = true -> h k = Some r -> k <> i).
    { intros i k r V H ->. unfold vacant in V. rewrite H in V. rewrite Bool.andb_false_r in V. discriminate. }
    intros k r H. destruct o as [i r' ok|i r'|i j|i j|i]; cbn [own_step] in E.
    - destruct (vacant n h i) eqn:W; [|discriminate]. pose proof (V i k r W H) as D. right. exists k. destruct ok.
      + assert (h' = upd h i (Some r')) as -> by congruence. unfold upd. apply Nat.eqb_neq in D. now rewrite D.
      + assert (h' = h) as -> by congruence. exact H.
    - destruct (vacant n h i) eqn:W; [|discriminate]. pose proof (V i k r W H) as D. right. exists k.
      assert (h' = upd h i (Some r')) as -> by congruence. unfold upd. apply Nat.eqb_neq in D. now rewrite D.
    - destruct (h i) as [r'|] eqn:Hi; [|discriminate]. destruct (vacant n h j) eqn:W; [|discriminate]. pose proof (V j k r W H) as D. right.
      assert (h' = upd (upd h i (Some (0, 0))) j (Some r')) as -> by congruence. unfold upd.
      destruct (Nat.eq_dec k i) as [->|D2]; [exists j; rewrite Nat.eqb_refl; congruence|]. exists k. apply Nat.eqb_neq in D, D2. now rewrite D, D2.
    - destruct (h i) as [r'|] eqn:Hi; [|discriminate]. destruct (h j) as [s|] eqn:Hj; [|discriminate]. right.
      assert (h' = upd (upd h i (Some s)) j (Some r')) as -> by congruence. unfold upd.
      destruct (Nat.eq_dec k i) as [->|D2]; [exists j; rewrite Nat.eqb_refl; congruence|].
      destruct (Nat.eq_dec k j) as [->|D].
      + exists i. destruct (Nat.eqb_spec i j) as [->|_]; [congruence|]. rewrite Nat.eqb_refl. congruence.
      + exists k. apply Nat.eqb_neq in D, D2. now rewrite D, D2.
    - destruct (h i) as [r'|] eqn:Hi; [|discriminate]. destruct (Nat.eq_dec k i) as [->|D]; [now left|]. right. exists k.
      assert (h' = upd h i None) as -> by congruence. unfold upd. apply Nat.eqb_neq in D. now rewrite D. }
  assert (ES : es' = [] \/ (exists r, es' = [Taken r] /\ exists i, h' i = Some r) \/ (exists i r, o = LkDrop i /\ h i = Some r /\ es' = [Given r])).
  { destruct o as [i r' ok|i r'|i j|i j|i]; cbn [own_step] in E.
    - destruct (vacant n h i) eqn:W; [|discriminate]. destruct ok; [|left; congruence]. right. left. exists r'. split; [congruence|]. exists i.
      assert (h' = upd h i (Some r')) as -> by congruence. unfold upd. now rewrite Nat.eqb_refl.
    - destruct (vacant n h i); [left; congruence|discriminate].
    - destruct (h i); [|discriminate]. destruct (vacant n h j); [left; congruence|discriminate].
    - destruct (h i); [|discriminate]. destruct (h j); [left; congruence|discriminate].
    - destruct (h i) as [r'|] eqn:Hi; [|discriminate]. right. right. exists i, r'. split; [reflexivity|]. split; [exact Hi|congruence]. }
  intros b r a Z. destruct ES as [->|[(r' & -> & T)|(i & r' & -> & Hi & ->)]].
  - rewrite app_nil_r in Z. destruct (A b r a Z) as [I|(k & H)]; [now left|]. destruct (Q k r H) as [D|D]; [|now right].
    destruct o; try contradiction. subst. cbn [own_step] in E. rewrite H in E. discriminate.
  - destruct (@exists_last _ (Taken r :: a) ltac:(discriminate)) as (m & z & Y). rewrite Y, app_assoc in Z. apply app_inj_tail in Z as (Z & <-).
    destruct m as [|y m]; cbn in Y; [right; assert (r' = r) by congruence; now subst|]. assert (y = Taken r /\ a = m ++ [Taken r']) as [-> ->] by (split; congruence).
    destruct (A b r m Z) as [I|(k & H)]; [left; apply in_or_app; now left|]. destruct (Q k r H) as [D|D]; [|now right].
    destruct o; try contradiction. subst. cbn [own_step] in E. rewrite H in E. discriminate.
  - destruct (@exists_last _ (Taken r :: a) ltac:(discriminate)) as (m & z & Y). rewrite Y, app_assoc in Z. apply app_inj_tail in Z as (Z & <-).
    destruct m as [|y m]; cbn in Y; [congruence|]. assert (y = Taken r /\ a = m ++ [Given r']) as [-> ->] by (split; congruence).
    destruct (A b r m Z) as [I|(k & H)]; [left; apply in_or_app; now left|]. destruct (Q k r H) as [D|D]; [|now right]. subst k.
    left. apply in_or_app. right. left. congruence.
Qed.
Lemma accounted_run n : forall os h es h' es', accounted h es -> own_run n os h = Some (h', es') -> accounted h' (es ++ es').
Proof.
  induction os as [|o os IH]; intros h es h' es' A E; cbn [own_run] in E.
  - assert (h' = h /\ es' = []) as [-> ->] by (split; congruence). now rewrite app_nil_r.
  - destruct (own_step n o h) as [[h1 es1]|] eqn:E1; [|discriminate]. destruct (own_run n os h1) as [[h2 es2]|] eqn:E2; [|discriminate].
    assert (h' = h2 /\ es' = es1 ++ es2) as [-> ->] by (split; congruence). rewrite app_assoc. eapply IH; [|exact E2]. eapply accounted_step; eauto.
Qed.
(** A page that is locked is touched by the range of a Lock object that lives; when none
    lives, nothing is locked: shared pages are never locked for too long. *)
Theorem C147_no_leak : forall psize n os rs w, 0 < psize -> lk_run psize os (lk_start n) = Ret (rs, w) ->
  forall p, In p (lw_locked w) -> exists i r, get_obj w i = Some r /\ touches psize r p.
Proof.
  intros psize n os rs w P E p I. pose proof (C147_history psize n os P) as S0. destruct (own_run n os (fun _ => None)) as [[h es]|] eqn:R; [|congruence].
  destruct S0 as (w' & E' & G & K). assert (w' = w) as -> by congruence. apply K in I as (b & r & a & Z & T & N0).
  assert (A : accounted h ([] ++ es)). { apply (accounted_run n os (fun _ => None) [] h es); [|exact R]. intros b' r' a' Y. destruct b'; discriminate. }
  destruct (A b r a Z) as [I|(i & H)]; [exfalso; exact (N0 r I T)|]. exists i, r. split; [now rewrite G|exact T].
Qed.
Print Assumptions C147_no_leak.
(** Two locks on one page: the first to be destroyed unlocks it; locking it again locks it. *)
Example C147_case : let os := [LkLock 0 (0, 100) true; LkLock 1 (200, 5000) true; LkDrop 0; LkMove 1 0; LkLock 2 (300, 1) false; LkDrop 1] in
  exists h, own_run 3 os (fun _ => None) = Some (h, [Taken (0, 100); Taken (200, 5000); Given (0, 100); Given (0, 0)]) /\ h 0%nat = Some (200, 5000) /\
  ~ kept 4096 [Taken (0, 100); Taken (200, 5000); Given (0, 100); Given (0, 0)] 0 /\ kept 4096 [Taken (0, 100); Taken (200, 5000); Given (0, 100); Given (0, 0)] 1.
Proof.
  cbv zeta. eexists. split; [reflexivity|]. split; [reflexivity|].
  assert (T0 : touches 4096 (0, 100) 0) by (exists 0; split; [unfold covers; cbn; lia|reflexivity]).
  split.
  - change [Taken (0, 100); Taken (200, 5000); Given (0, 100); Given (0, 0)] with (([Taken (0, 100); Taken (200, 5000)] ++ [Given (0, 100)]) ++ [Given (0, 0)]).
    rewrite !kept_app. tauto.
  - exists [Taken (0, 100)], (200, 5000), [Given (0, 100); Given (0, 0)]. split; [reflexivity|]. split.
    + exists 4100. split; [unfold covers; cbn; lia|reflexivity].
    + intros s [Z|[Z|[]]] (x & C & D); [assert (s = (0, 100)) as -> by congruence|assert (s = (0, 0)) as -> by congruence]; unfold covers in C; cbn [fst snd] in C; [|lia].
      rewrite N.div_small in D by lia. discriminate.
Qed.
