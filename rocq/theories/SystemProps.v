(** C114 to C117: whole programs over objects whose memory comes from the heap manager. *)
From Coq Require Import Lia Permutation.
From Verif Require Import ContainerProofs OptResProofs Base BaseLemmas MemViewProofs ByteIOModel ByteIOProofs MemoryModel MemoryProofs StringSpec StringModel StringViewModel
  StringViewProofs StringProofs FmtModel FmtSpec FmtProofs BuilderModel BuilderSpec BuilderProofs ByteIOSpec Base16Model Base16Spec Base16Proofs HashModel HashProps
  UUIDModel UUIDSpec UUIDProofs UUIDProps VersionModel VersionSpec VersionProofs PathModel PathSpec PathProofs SystemModel SystemSpec SystemProofs SystemStepProofs SystemOpProofs SystemOp2Proofs SystemOp3Proofs SystemPathProofs.
Local Open Scope N_scope.

(** ** C114: memory is accounted for, held by one object, and given back *)

(** A program of any operations, with any malloc, runs to its end. *)
Theorem C114_programs_run : forall ma host_be cap n os, cap < 2 ^ 64 -> Forall typed os ->
  exists ans w, y_run ma host_be os (y_start cap n) = Ret (ans, w).
Proof.
  intros ma host_be cap n os C F. destruct (run_ok ma host_be os _ (wf_start cap n C) F) as (ans & w & E & _). eauto.
Qed.
Print Assumptions C114_programs_run.

(** The manager counts the bytes in use, and they never exceed its capacity. *)
Theorem C114_size : forall ma host_be cap n w, cap < 2 ^ 64 -> reachable ma host_be cap n w ->
  y_step ma host_be YSize w = Ret (YNum (live_bytes (y_heap w)), w) /\
  y_step ma host_be YLimit w = Ret (YNum (cap - live_bytes (y_heap w)), w) /\
  live_bytes (y_heap w) <= cap.
Proof.
  intros ma host_be cap n w C R. destruct (reachable_wf _ _ _ _ _ C R) as (W & K). pose proof (wf_owns w W) as O.
  pose proof (ow_size _ _ O) as A. pose proof (ow_cap _ _ O) as B. cbn [y_step]. rewrite A in *. rewrite K in *. split; [reflexivity|]. split; [|lia].
  unfold sub64, sub_wrap. do 3 f_equal. destruct (N.ltb_spec cap (live_bytes (y_heap w))); lia.
Qed.
Print Assumptions C114_size.

(** Every block that is in use is held by exactly one object, and no object holds a block that was given back. *)
Theorem C114_one_owner : forall ma host_be cap n w, cap < 2 ^ 64 -> reachable ma host_be cap n w ->
  NoDup (held w) /\ forall a, In a (held w) <-> get (y_heap w) a <> None.
Proof.
  intros ma host_be cap n w C R. destruct (reachable_wf _ _ _ _ _ C R) as (W & K). pose proof (wf_owns w W) as O.
  split; [exact (ow_nodup _ _ O)|]. intros a. split; [|exact (ow_all _ _ O a)]. intros H.
  unfold held in H. apply in_flat_map in H. destruct H as (b & Hb & Ha). pose proof (proj1 (Forall_forall _ _) (ow_good _ _ O) b Hb) as G.
  unfold buf_blocks in Ha. destruct G as (_ & G). destruct (b_at b) eqn:E; try easy. destruct Ha as [->|[]].
  destruct G as (_ & bs & G & _). congruence.
Qed.
Print Assumptions C114_one_owner.

(** When every variable is destroyed, all memory has been given back. *)
Lemma dropped ma host_be os : forall k w, wf w -> os = map Drop (seq k (length (y_vars w) - k)) -> (k <= length (y_vars w))%nat ->
  (forall i, (i < k)%nat -> nth_error (y_vars w) i = Some None) ->
  exists ans w', y_run ma host_be os w = Ret (ans, w') /\ wf w' /\ forall i o, get (y_vars w') i <> Some o.
Proof.
  induction os as [|o os IH]; intros k w W EQ LE ND.
  - exists [], w. split; [reflexivity|]. split; [exact W|]. intros i o G. apply nth_get in G. apply (f_equal (@length yop)) in EQ. rewrite map_length, seq_length in EQ. cbn in EQ.
    assert (i < length (y_vars w))%nat by (apply nth_error_Some; congruence). rewrite ND in G by lia. discriminate.
  - destruct (length (y_vars w) - k)%nat as [|d] eqn:LK; [discriminate|]. cbn [seq map] in EQ. injection EQ as -> ->.
    destruct (step_ok ma host_be (Drop k) w W I) as ((a & w1) & E & W1 & C1 & L1 & _ & _ & _ & F). specialize (F I).
    assert (V1 : shown w1 = upd (shown w) k None \/ (w1 = w /\ nth_error (y_vars w) k = Some None)).
    { destruct F as [(m & D & _)|[(m & _ & X & _)|(-> & -> & NP)]].
      - left. inversion D; subst. reflexivity.
      - exfalso. destruct X as ([X|X] & _); revert E; cbn [y_step]; subst a; destruct (obj_at w k); try discriminate; destruct (release_all _ _); discriminate.
      - right. split; [reflexivity|]. destruct (nth_error (y_vars w) k) as [[o|]|] eqn:EK; [|reflexivity|apply nth_error_None in EK; lia].
        exfalso. apply NP. exists [], YDone, (upd (shown w) k None). apply (do_drop _ k (value_of (y_heap w) o)). unfold has, shown.
        now rewrite nth_error_map, EK. }
    destruct (IH (S k) w1) as (ans & w2 & E2 & W2 & N2).
    + exact W1. + rewrite L1. replace (length (y_vars w) - S k)%nat with d by lia. reflexivity. + lia.
    + intros i Hi. destruct V1 as [V|(-> & V)]; [|destruct (Nat.eq_dec i k) as [->|]; [exact V|apply ND; lia]].
      assert (X : nth_error (shown w1) i = Some None).
      { rewrite V. destruct (Nat.eq_dec i k) as [->|NK].
        - destruct (nth_error (shown w) k) as [y|] eqn:EY; [exact (nth_upd_same _ _ _ _ EY)|]. apply nth_error_None in EY. unfold shown in EY. rewrite map_length in EY. lia.
        - rewrite nth_upd_other by auto. unfold shown. rewrite nth_error_map, ND by lia. reflexivity. }
      unfold shown in X. rewrite nth_error_map in X. destruct (nth_error (y_vars w1) i) as [[o|]|]; try discriminate. reflexivity.
    + exists (a :: ans), w2. cbn [y_run]. rewrite E. cbn [bind fst snd]. rewrite E2. auto.
Qed.
Theorem C114_all_given_back : forall ma host_be cap n w, cap < 2 ^ 64 -> reachable ma host_be cap n w ->
  exists ans w', y_run ma host_be (map Drop (seq 0 n)) w = Ret (ans, w') /\ y_size w' = 0 /\ forall a, get (y_heap w') a = None.
Proof.
  intros ma host_be cap n w C R. destruct (reachable_wf _ _ _ _ _ C R) as (W & K).
  assert (L : length (y_vars w) = n).
  { destruct R as (os & ans & F & E). destruct (run_ok ma host_be os _ (wf_start cap n C) F) as (ans' & w' & E' & _ & _ & L). rewrite E' in E. injection E as _ <-.
    rewrite L. cbn. apply repeat_length. }
  destruct (dropped ma host_be (map Drop (seq 0 n)) 0 w W) as (ans & w' & E & W' & NV); [rewrite Nat.sub_0_r, L; reflexivity|lia|lia|].
  exists ans, w'. split; [exact E|]. pose proof (wf_owns w' W') as O.
  assert (A : all_bufs (y_vars w') = []).
  { unfold all_bufs. assert (H : forall v, In v (y_vars w') -> v = None).
    { intros v Hv. destruct v as [o|]; [|reflexivity]. apply In_nth_error in Hv. destruct Hv as (i & Hi). exfalso. apply (NV i o). now apply nth_get. }
    clear -H. induction (y_vars w') as [|v vs IH]; [reflexivity|]. cbn [flat_map]. rewrite (H v) by now left. apply IH. intros x Hx. apply H. now right. }
  rewrite A in O. assert (H : forall a, get (y_heap w') a = None).
  { intros a. destruct (get (y_heap w') a) eqn:G; [|reflexivity]. exfalso. apply (ow_all _ _ O a). congruence. }
  split; [|exact H]. rewrite (owns_total [] w' O). reflexivity.
Qed.
Print Assumptions C114_all_given_back.

(** A program of ten operations in which five objects hold memory. *)
Definition machine0 : machine := mkMachine (fun _ => true) (fun _ _ => 170).
Definition program0 : list yop :=
  [MkText 0 [47; 97; 47; 98]; ParsePath 1 0; MkVector 2 3; Push 2 7; MkBuilder 3 10; Append 3 [104; 105]; AppendNum 3 42; CopyText 4 3; Move 5 0; Drop 5].
Example C114_ok : Forall typed program0 /\
  exists ans w, y_run machine0 false program0 (y_start 1000 8) = Ret (ans, w) /\ y_size w = 115 /\ length (held w) = 7%nat /\
    nth_error (shown w) 4 = Some (Some (text_val [104; 105; 52; 50])).
Proof.
  split; [repeat constructor; vm_compute; reflexivity|].
  destruct (y_run machine0 false program0 (y_start 1000 8)) as [(ans, w)| | | |] eqn:E; vm_compute in E; try discriminate.
  injection E as <- <-. eexists _, _. split; [reflexivity|]. vm_compute. auto.
Qed.

(** ** C115: while the manager is locked no memory is taken *)
Lemma does_takes o s m a s' : does o s m a s' -> if takes o then m <> [] else m = [].
Proof. destruct 1; cbn [takes]; discriminate || reflexivity. Qed.

Lemma yop_lock o : o = YLock \/ o <> YLock. Proof. destruct o; (now left) || (right; discriminate). Qed.

(** A program that does not unlock the manager takes no memory; destroying objects gives memory back as usual. *)
Theorem C115_locked : forall ma host_be cap n w os, cap < 2 ^ 64 -> reachable ma host_be cap n w -> y_locked w = true ->
  Forall typed os -> ~ In YUnlock os ->
  exists ans w', y_run ma host_be os w = Ret (ans, w') /\ y_locked w' = true /\ y_calls w' = y_calls w /\ y_size w' <= y_size w.
Proof.
  intros ma host_be cap n w os C R LK F NU. destruct (reachable_wf _ _ _ _ _ C R) as (W & _). clear R. revert w W LK.
  induction os as [|o os IH]; intros w W LK; [exists [], w; split; [reflexivity|]; split; [exact LK|]; split; [reflexivity|lia]|].
  inversion F as [|? ? T F']; subst. destruct (step_ok ma host_be o w W T) as ((a & w1) & E & W1 & C1 & L1 & M1 & K1 & U1 & _).
  destruct (K1 (or_introl LK)) as (K2 & K3).
  assert (LK1 : y_locked w1 = true).
  { destruct (yop_lock o) as [-> |NL]; [revert E; cbn [y_step]; intros E; injection E as _ <-; reflexivity|].
    rewrite U1; [exact LK|exact NL|]. intros ->. apply NU. now left. }
  destruct (IH F' (fun H => NU (or_intror H)) w1 W1 LK1) as (ans & w2 & E2 & A & B & D).
  exists (a :: ans), w2. cbn [y_run]. rewrite E. cbn [bind fst snd]. rewrite E2. split; [reflexivity|]. split; [exact A|]. split; [congruence|lia].
Qed.
Print Assumptions C115_locked.

(** Every operation that needs memory fails and changes nothing. *)
Theorem C115_refused : forall ma host_be cap n w o, cap < 2 ^ 64 -> reachable ma host_be cap n w -> y_locked w = true ->
  typed o -> takes o = true -> possible o (shown w) -> fair o (shown w) ->
  exists a w', y_step ma host_be o w = Ret (a, w') /\ fails o (shown w) a (shown w') /\ y_size w' = y_size w.
Proof.
  intros ma host_be cap n w o C R LK T TK P FR. destruct (reachable_wf _ _ _ _ _ C R) as (W & _).
  destruct (step_ok ma host_be o w W T) as ((a & w1) & E & W1 & C1 & L1 & M1 & K1 & U1 & H).
  exists a, w1. split; [exact E|]. destruct (H FR) as [(m & D & G & _)|[(m & _ & X & _ & Z)|(_ & _ & NP)]]; [|auto|contradiction].
  apply does_takes in D. rewrite TK in D. rewrite (G D) in LK. discriminate.
Qed.
Print Assumptions C115_refused.

(** Unlocked again, the manager gives memory as before it was locked. *)
Theorem C115_unlock : forall ma host_be cap n w, reachable ma host_be cap n w -> y_locked w = false ->
  y_run ma host_be [YLock; YUnlock] w = Ret ([YDone; YDone], w).
Proof. intros ma host_be cap n w _ LK. destruct w as [a b c d e f]. cbn in LK. subst c. reflexivity. Qed.
Print Assumptions C115_unlock.

(** It is locked exactly if the program has locked it and not unlocked it since. *)
Definition lock_step (b : bool) (o : yop) : bool := match o with YLock => true | YUnlock => false | _ => b end.
Definition locked_after (os : list yop) : bool := fold_left lock_step os false.
Theorem C115_when : forall ma host_be cap n os, cap < 2 ^ 64 -> Forall typed os ->
  exists ans w, y_run ma host_be os (y_start cap n) = Ret (ans, w) /\ y_locked w = locked_after os.
Proof.
  intros ma host_be cap n os C F. pose proof (wf_start cap n C) as W. unfold locked_after. change false with (y_locked (y_start cap n)).
  revert W. generalize (y_start cap n). induction F as [|o os T F IH]; intros w W; [now exists [], w|].
  destruct (step_ok ma host_be o w W T) as ((a & w1) & E & W1 & _ & _ & _ & _ & U1 & _).
  destruct (IH w1 W1) as (ans & w2 & E2 & L). exists (a :: ans), w2. cbn [y_run]. rewrite E. cbn [bind fst snd]. rewrite E2. split; [reflexivity|].
  rewrite L. cbn [fold_left]. f_equal.
  destruct (yop_lock o) as [-> |NL]; [revert E; cbn [y_step]; intros E; injection E as _ <-; reflexivity|].
  assert (o = YUnlock \/ o <> YUnlock) as [-> |NU] by (destruct o; (now left) || (right; discriminate)).
  - revert E. cbn [y_step]. intros E. injection E as _ <-. reflexivity.
  - rewrite U1 by assumption. destruct o; try reflexivity; congruence.
Qed.
Print Assumptions C115_when.

Example C115_ok : exists ans w, y_run machine0 false (program0 ++ [YLock]) (y_start 1000 8) = Ret (ans, w) /\ y_locked w = true /\
  possible (CopyText 6 4) (shown w) /\ fair (CopyText 6 4) (shown w) /\
  exists w', y_run machine0 false [CopyText 6 4; Drop 4; CopyBytes 7 2] w = Ret ([YRefused E_PERM; YDone; YRefused E_PERM], w') /\
    y_size w' = y_size w - 4.
Proof.
  destruct (y_run machine0 false (program0 ++ [YLock]) (y_start 1000 8)) as [(ans, w)| | | |] eqn:E; vm_compute in E; try discriminate.
  injection E as <- <-. eexists _, _. split; [reflexivity|]. split; [reflexivity|].
  split; [eexists _, _, _; eapply do_copy; reflexivity|]. split; [intros t room H; vm_compute in H; discriminate|].
  eexists. split; vm_compute; reflexivity.
Qed.

(** ** C116: every operation has its effect, or memory was short and nothing has changed *)

(** An operation has at most one intended effect and asks for one amount of memory. *)
Lemma copied_det ps qs qs' : copied ps qs -> copied ps qs' -> qs = qs'.
Proof.
  intros [-> |(A & ->)] [B|(B & ->)]; [now apply app_inv_tail in B| | |reflexivity].
  - rewrite last_last in B. congruence.
  - subst. rewrite last_last in A. congruence.
Qed.
Lemma version_text_det v t t' : version_text v t -> version_text v t' -> t = t'.
Proof.
  intros (a & b & c & A & B & C & ->) (a' & b' & c' & A' & B' & C' & ->).
  now rewrite (decimal_unique _ _ _ A A'), (decimal_unique _ _ _ B B'), (decimal_unique _ _ _ C C').
Qed.
Theorem C116_one_effect : forall o s m a s' m' a' s'', o <> YSize -> o <> YLimit ->
  does o s m a s' -> does o s m' a' s'' -> m = m' /\ a = a' /\ s' = s''.
Proof.
  intros o s m a s' m' a' s'' N1 N2 D1 D2.
  destruct D1; inversion D2; subst; try congruence;
    repeat match goal with
    | H : has ?s ?i _, K : has ?s ?i _ |- _ => let E := fresh in pose proof (has_det _ _ _ _ H K) as E; clear K; try discriminate E; try (injection E; clear E; intros; subst)
    | H : decimal ?v _, K : decimal ?v _ |- _ => pose proof (decimal_unique _ _ _ H K); clear K; subst
    | H : version_text ?v _, K : version_text ?v _ |- _ => pose proof (version_text_det _ _ _ H K); clear K; subst
    | H : splits _ ?t _, K : splits _ ?t _ |- _ => pose proof (splits_det [47] _ _ _ ltac:(discriminate) H K); clear K; subst
    | H : copied ?t _, K : copied ?t _ |- _ => pose proof (copied_det _ _ _ H K); clear K; subst
    | H : components ?t _, K : components ?t _ |- _ => pose proof (components_det _ _ _ H K); clear K; subst
    end; try lia; auto; try (subst; auto);
    match goal with
    | H : ?x ++ [_] = ?y ++ [_] |- _ => apply app_inj_tail in H; destruct H; subst; auto
    | H : [] = _ ++ [_] |- _ => now destruct (app_cons_not_nil _ _ _ H)
    | H : _ ++ [_] = [] |- _ => now destruct (app_cons_not_nil _ _ _ (eq_sym H))
    end.
Qed.
Print Assumptions C116_one_effect.

(** Each operation of a program, whatever malloc does: it has its effect and took exactly the memory it asks for; or some of
    that memory could not be had, and nothing has changed; or the program cannot contain it. *)
Theorem C116_effect_or_failure_partial : forall ma host_be cap n w o, cap < 2 ^ 64 -> reachable ma host_be cap n w ->
  typed o -> fair o (shown w) ->
  exists a w', y_step ma host_be o w = Ret (a, w') /\
   ((exists m, does o (shown w) m a (shown w') /\ granted w w' m) \/
    (exists m, (exists a' s', does o (shown w) m a' s') /\ fails o (shown w) a (shown w') /\ short ma w w' m /\ y_size w' = y_size w) \/
    (a = YNone /\ w' = w /\ ~ possible o (shown w))).
Proof.
  intros ma host_be cap n w o C R T FR. destruct (reachable_wf _ _ _ _ _ C R) as (W & _).
  destruct (step_ok ma host_be o w W T) as ((a & w1) & E & W1 & C1 & L1 & M1 & K1 & U1 & H). exists a, w1. auto.
Qed.
Print Assumptions C116_effect_or_failure_partial.

(** With enough memory (unlocked, enough left, malloc working) the operation has its effect. *)
Theorem C116_enough_memory_partial : forall ma host_be cap n w o m a s', cap < 2 ^ 64 -> reachable ma host_be cap n w ->
  typed o -> fair o (shown w) -> o <> YSize -> o <> YLimit ->
  does o (shown w) m a s' -> y_locked w = false -> sum m <= left_over w -> (forall k, ma_ok ma k = true) ->
  exists w', y_step ma host_be o w = Ret (a, w') /\ shown w' = s' /\ granted w w' m.
Proof.
  intros ma host_be cap n w o m a s' C R T FR N1 N2 D LK LE OK.
  destruct (C116_effect_or_failure_partial ma host_be cap n w o C R T FR) as (a1 & w1 & E & [(m1 & D1 & G)|[(m1 & (a2 & s2 & D2) & _ & (_ & SH) & _)|(_ & _ & NP)]]).
  - destruct (C116_one_effect o _ _ _ _ _ _ _ N1 N2 D D1) as (-> & -> & ->). eauto.
  - exfalso. destruct (C116_one_effect o _ _ _ _ _ _ _ N1 N2 D D2) as (<- & _). destruct SH as [X|[X|(k & _ & X)]]; [congruence|lia|]. rewrite OK in X. discriminate.
  - exfalso. apply NP. unfold possible. eauto.
Qed.
Print Assumptions C116_enough_memory_partial.

(** Failures are told to the program by every operation but the four toString functions. *)
Theorem C116_failure_told_partial : forall o s a s', fails o s a s' ->
  match o with DigestText _ _ | VersionText _ _ | UUIDText _ _ | PathText _ _ => False | _ => True end ->
  s' = s /\ a <> YDone.
Proof.
  intros o s a s' F H. destruct o; cbn [fails] in F; try contradiction; destruct F as (A & ->); split; try reflexivity; try (destruct A as [-> | ->]; discriminate); rewrite A; discriminate.
Qed.
Print Assumptions C116_failure_told_partial.

(** The other four answer an empty text: nothing tells the program that the text of its object is missing. *)
Theorem C116_failure_told_refuted : forall ma host_be cap n w o i, cap < 2 ^ 64 -> reachable ma host_be cap n w -> y_locked w = true ->
  (exists j, o = DigestText i j \/ o = VersionText i j \/ o = UUIDText i j \/ o = PathText i j) ->
  possible o (shown w) -> fair o (shown w) ->
  exists w', y_step ma host_be o w = Ret (YDone, w') /\ shown w' = set (shown w) i (text_val []).
Proof.
  intros ma host_be cap n w o i C R LK (j & O) P FR.
  assert (T : typed o /\ takes o = true) by (destruct O as [-> |[-> |[-> | ->]]]; cbn; auto). destruct T as (T & TK).
  destruct (C115_refused ma host_be cap n w o C R LK T TK P FR) as (a & w' & E & F & _). exists w'.
  destruct O as [-> |[-> |[-> | ->]]]; cbn [fails] in F; destruct F as (-> & ->); auto.
Qed.
Print Assumptions C116_failure_told_refuted.

(** A UUID printed while the manager is locked; a path of three components whose last one finds no memory; a version assigned by
    a move. *)
Example C116_ok :
  (exists w, y_run machine0 false [MkUUID 0 (repeat 17 16); YLock; UUIDText 1 0; Look 1; YUnlock; UUIDText 2 0] (y_start 1000 3)
     = Ret ([YDone; YDone; YDone; YSaw KString [] [[]]; YDone; YDone], w) /\ has (shown w) 2 (text_val (uuid_text (repeat 17 16)))) /\
  (exists w, y_run (mkMachine (fun k => negb (k =? 4)%nat) (fun _ _ => 0)) false [MkText 0 [97; 47; 98; 47; 99]; ParsePath 1 0; YSize; ParsePath 1 0] (y_start 1000 3)
     = Ret ([YDone; YRefused E_NOMEM; YNum 5; YDone], w) /\ has (shown w) 1 (path_val [[97]; [98]; [99]])) /\
  (exists w, y_run machine0 false [MkLiteral 0 [97]; MkLiteral 1 [98]; MkVersion 2 1 2 3 0 1; MkVersion 3 4 5 6 0 1; Assign 2 3] (y_start 1000 4)
     = Ret ([YDone; YDone; YDone; YDone; YDone], w) /\ has (shown w) 2 (version_val 4 5 6 [] []) /\ has (shown w) 3 (version_val 4 5 6 [97] [98])).
Proof.
  split; [|split].
  - match goal with |- context [y_run ?m ?b ?os ?s] => destruct (y_run m b os s) as [(ans, w)| | | |] eqn:E; vm_compute in E; try discriminate end.
    injection E as <- <-. eexists. split; [reflexivity|]. vm_compute. reflexivity.
  - match goal with |- context [y_run ?m ?b ?os ?s] => destruct (y_run m b os s) as [(ans, w)| | | |] eqn:E; vm_compute in E; try discriminate end.
    injection E as <- <-. eexists. split; [reflexivity|]. vm_compute. reflexivity.
  - match goal with |- context [y_run ?m ?b ?os ?s] => destruct (y_run m b os s) as [(ans, w)| | | |] eqn:E; vm_compute in E; try discriminate end.
    injection E as <- <-. eexists. split; [reflexivity|]. split; vm_compute; reflexivity.
Qed.

(** ** C117: operations that need no memory always work *)
Theorem C117_no_memory_needed : forall ma host_be cap n w o, cap < 2 ^ 64 -> reachable ma host_be cap n w -> typed o -> takes o = false ->
  exists a w', y_step ma host_be o w = Ret (a, w') /\ y_calls w' = y_calls w /\ y_size w' <= y_size w.
Proof.
  intros ma host_be cap n w o C R T TK. destruct (reachable_wf _ _ _ _ _ C R) as (W & _).
  destruct (step_ok ma host_be o w W T) as ((a & w1) & E & W1 & C1 & L1 & M1 & K1 & U1 & H). exists a, w1. split; [exact E|]. apply K1. now right.
Qed.
Print Assumptions C117_no_memory_needed.
Theorem C117_always_work : forall ma host_be cap n w o, cap < 2 ^ 64 -> reachable ma host_be cap n w -> typed o -> takes o = false ->
  possible o (shown w) -> fair o (shown w) ->
  exists a w', y_step ma host_be o w = Ret (a, w') /\ does o (shown w) [] a (shown w').
Proof.
  intros ma host_be cap n w o C R T TK P FR.
  destruct (C116_effect_or_failure_partial ma host_be cap n w o C R T FR) as (a1 & w1 & E & [(m1 & D1 & G)|[(m1 & (a2 & s2 & D2) & _ & (X & _) & _)|(_ & _ & NP)]]);
    [|apply does_takes in D2; rewrite TK in D2; contradiction|contradiction].
  exists a1, w1. split; [exact E|]. pose proof (does_takes _ _ _ _ _ D1) as X. rewrite TK in X. now subst m1.
Qed.
Print Assumptions C117_always_work.
(** In particular the end of an object: it gives its memory back, and no other variable changes. *)
Theorem C117_destruction : forall ma host_be cap n w i v, cap < 2 ^ 64 -> reachable ma host_be cap n w -> has (shown w) i v ->
  exists w', y_step ma host_be (Drop i) w = Ret (YDone, w') /\ shown w' = upd (shown w) i None /\ y_size w' <= y_size w.
Proof.
  intros ma host_be cap n w i v C R H.
  destruct (C117_always_work ma host_be cap n w (Drop i) C R I eq_refl) as (a & w' & E & D); [exists [], YDone, (upd (shown w) i None); econstructor; exact H|exact I|].
  destruct (C117_no_memory_needed ma host_be cap n w (Drop i) C R I eq_refl) as (a2 & w2 & E2 & _ & L). rewrite E in E2. injection E2 as <- <-.
  inversion D; subst. exists w'. auto.
Qed.
Print Assumptions C117_destruction.

Example C117_ok : exists ans w, y_run machine0 false (program0 ++ [YLock]) (y_start 1000 8) = Ret (ans, w) /\
  possible (Push 2 1) (shown w) /\ fair (Build 6 3) (shown w) /\ possible (Build 6 3) (shown w) /\
  exists w', y_run machine0 false [Push 2 1; Push 2 2; Push 2 3; ToArray 7 2; Build 6 3; Swap 4 6] w
    = Ret ([YDone; YDone; YRefused BasicOverflow; YDone; YDone; YDone], w') /\ has (shown w') 7 (array_val [7; 1; 2]) /\ y_size w' = y_size w.
Proof.
  destruct (y_run machine0 false (program0 ++ [YLock]) (y_start 1000 8)) as [(ans, w)| | | |] eqn:E; vm_compute in E; try discriminate.
  injection E as <- <-. eexists _, _. split; [reflexivity|].
  split; [eexists _, _, _; eapply do_push; reflexivity|].
  split; [intros t room H; vm_compute in H; injection H as <- <-; reflexivity|].
  split; [eexists _, _, _; eapply do_build; reflexivity|].
  eexists. split; [vm_compute; reflexivity|]. split; vm_compute; reflexivity.
Qed.
