(** C163: iterators of paths keep their place when the paths are moved, swapped and assigned. *)
From Verif Require Import Base BaseLemmas PathIterModel PathIterSpec PathIterProofs.

Lemma related_0 : related pw0 sw0.
Proof. exists []. cbn. repeat split; try constructor; intros; try (destruct k; discriminate). intros a a' k E. destruct a; discriminate. Qed.

(** Whatever the allocator does, a program that looks at no component of a destroyed sequence gets the
    answers of the sequences and positions. *)
Theorem C163_program : forall alloc, alloc_ok alloc -> forall ops answers,
  srun sw0 ops = Some answers -> prun alloc pw0 ops = Ret answers.
Proof.
  intros alloc Al ops answers H. now apply (run_ok alloc Al ops pw0 sw0 answers related_0).
Qed.
Print Assumptions C163_program.

Definition drops (o : pop) : bool := match o with PDrop _ => true | _ => false end.
Definition derefs (o : pop) : bool := match o with IDeref _ => true | _ => false end.

Definition all_alive (s : sworld) : Prop := Forall (fun q => s_alive q = true) (sw_seqs s).
Lemma Forall_change {A} (P : A -> Prop) l : forall k x, Forall P l -> P x -> Forall P (change_at l k x).
Proof. induction l as [|y l IH]; intros [|k] x F H; cbn; auto; inversion F; subst; constructor; auto. Qed.

Lemma look_alive seqs b i : alive_of seqs b = true -> exists x, look seqs b i = Some x.
Proof. intros A. unfold look. rewrite A. destruct (nth_error (comps_of seqs b) (N.to_nat i)); eauto. Qed.
Lemma related_path w s a b : related w s -> nth_error (sw_paths s) a = Some (Some b) -> alive_of (sw_seqs s) b = true.
Proof.
  intros (bs & _ & P & _) E. pose proof (F2_nth _ _ _ P a) as R. rewrite E in R. destruct (nth_error (pw_paths w) a) as [[x|]|]; try contradiction. apply R.
Qed.
Lemma related_iter w s i k b : related w s -> all_alive s -> nth_error (sw_iters s) i = Some (k, b) -> alive_of (sw_seqs s) b = true.
Proof.
  intros (bs & M & _ & _ & I) A E. pose proof (F2_nth _ _ _ I i) as R. rewrite E in R. destruct (nth_error (pw_iters w) i) as [x|]; [|contradiction].
  destruct R as (_ & R & _). cbn [snd] in R. destruct b as [j|]; [|reflexivity]. destruct (at_of_seq _ _ _ _ _ M R) as (y & q & _ & _ & Eq).
  cbn [alive_of]. rewrite Eq. unfold all_alive in A. rewrite Forall_forall in A. apply A. eapply nth_error_In; eassumption.
Qed.
Lemma step_defined w s o : related w s -> (derefs o = true -> all_alive s) -> exists s' x, sstep s o = Some (s', x) /\ (all_alive s -> drops o = false -> all_alive s').
Proof.
  intros R A. pose proof (related_path w s) as RP. pose proof (related_iter w s) as RI. destruct s as [seqs sps sits].
  destruct o; cbn [sstep]; unfold spath, siter; cbn [sw_paths sw_iters sw_seqs] in *;
    repeat match goal with
    | |- context [nth_error sps ?a] => destruct (nth_error sps a) as [[?b|]|] eqn:?
    | |- context [nth_error sits ?a] => destruct (nth_error sits a) as [[? ?b]|] eqn:?
    end; try (eexists _, _; split; [reflexivity|]; auto; fail).
  - eexists _, _. split; [reflexivity|]. intros F _. apply Forall_app. split; [exact F|]. now constructor.
  - eexists _, _. split; [reflexivity|]. discriminate.
  - eexists _, _. split; [reflexivity|]. intros F _. unfold all_alive, set_seq. cbn [sw_seqs]. destruct b; [|exact F]. now apply Forall_change.
  - destruct (look_alive seqs b i) as (x & ->); [eapply RP; eassumption|]. eexists _, _. split; [reflexivity|auto].
  - destruct (look_alive seqs b n) as (x & ->); [eapply RI; eauto|]. eexists _, _. split; [reflexivity|auto].
Qed.

Lemma run_defined alloc : alloc_ok alloc -> forall ops w s, related w s ->
  (Forall (fun o => derefs o = false) ops \/ all_alive s /\ Forall (fun o => drops o = false) ops) -> exists answers, srun s ops = Some answers.
Proof.
  intros Al. induction ops as [|o ops IH]; intros w s R H; cbn [srun]; [eauto|].
  destruct (step_defined w s o R) as (s' & x & E & K).
  { intros D. destruct H as [H|(H & _)]; [|exact H]. inversion H; congruence. }
  pose proof (step_ok alloc w s o Al R) as G. rewrite E in *. destruct G as (w' & _ & R'). destruct (IH w' s' R') as (l & ->); [|cbn; eauto].
  destruct H as [H|(A & H)]; inversion H; subst; [now left|]. right. auto.
Qed.
(** A program that destroys no path may move, swap and assign them as it likes: all its iterators stay
    good.  A program that looks at components through the paths only is always right. *)
Theorem C163_always : forall alloc ops, alloc_ok alloc ->
  Forall (fun o => drops o = false) ops \/ Forall (fun o => derefs o = false) ops ->
  exists answers, srun sw0 ops = Some answers /\ prun alloc pw0 ops = Ret answers.
Proof.
  intros alloc ops Al H. destruct (run_defined alloc Al ops pw0 sw0 related_0) as (l & E).
  { destruct H as [H|H]; [right; split; [constructor|exact H]|now left]. }
  exists l. split; [exact E|]. now apply C163_program.
Qed.
Print Assumptions C163_always.

(** Places are used again: the lowest one free. *)
Definition lowest (mem : strings) (n : N) : N := fold_right (fun e m => N.max (fst e + 1) m) 0 mem.
Lemma lowest_ok : alloc_ok lowest.
Proof.
  intros mem n i _. unfold lowest. assert (H : forall p, fold_right (fun e m => N.max (fst e + 1) m) 0 mem <= p -> slot mem p = None).
  { clear. induction mem as [|[q t] mem IH]; intros p H; cbn [slot fold_right fst] in *; [reflexivity|].
    rewrite (proj2 (N.eqb_neq _ _)) by lia. apply IH. lia. }
  apply H. lia.
Qed.

(** An iterator does not keep its sequence alive: whatever the allocator, looking through it after the
    path is gone is undefined, and with an allocator that uses places again it shows another path. *)
Theorem C163_dangling :
  (forall alloc t, prun alloc pw0 [PMake [t]; IBegin 0; PDrop 0; IDeref 0] = UB) /\
  (forall t u, prun lowest pw0 [PMake [t]; IBegin 0; PDrop 0; PMake [u]; IDeref 0] = Ret [QDone; QDone; QDone; QDone; QText u]).
Proof.
  split; [|reflexivity]. intros alloc t. cbn -[N.eqb N.add]. change (Pos.to_nat 1) with 1%nat. cbn -[N.eqb N.add].
  rewrite N.eqb_refl. reflexivity.
Qed.
Print Assumptions C163_dangling.

(** Two paths change places under two iterators, one is moved and one assigned over, and the iterators go
    on; comparing iterators of different paths compares positions only; taking the components leaves
    empty texts under the iterator. *)
Definition sample : list pop :=
  [PMake [[97]; [98]]; PMake [[120]; [121]; [122]]; IBegin 0; IBegin 1; PSwap 0 1; IDeref 0; IDeref 1; INext 0; PMove 1; IDeref 0; PCount 1;
   PMoveAssign 1 0; INext 1; INext 1; IDeref 1; INext 1; IDeref 1; IEq 0 1; INext 0; INext 0; IEq 0 1; PDrop 0; PTake 1; ICopy 1; IMoveAssign 1 0;
   IBegin 1; IDeref 3; IDeref 1; PDrop 1; IIndex 0; PWalk 2].
Example C163_case : srun sw0 sample = Some
  [QDone; QDone; QDone; QDone; QDone; QText [97]; QText [120]; QDone; QDone; QText [98]; QNum 0; QDone; QDone; QDone; QText [122]; QDone;
   QThrew IndexOutOfRange; QBool false; QDone; QDone; QBool true; QDone; QTexts [[120]; [121]; [122]]; QDone; QDone;
   QDone; QText []; QThrew IndexOutOfRange; QDone; QNum 3; QTexts [[97]; [98]]].
Proof. reflexivity. Qed.
Example C163_ok : alloc_ok lowest /\ prun lowest pw0 sample = match srun sw0 sample with Some l => Ret l | None => UB end.
Proof. split; [exact lowest_ok|reflexivity]. Qed.
