(** C166: results that refer to elements. *)
From Verif Require Import Base MemoryModel MemoryProofs OptResModel OptResProofs RefResModel RefResSpec RefResProofs.

(** Every program does what the names say, and is undefined exactly when they say so. *)
Theorem C166_program : forall A E (moved : E -> E) (elems : list A) os,
  match says_all moved (mkNames elems []) os with
  | Some (l, s) => exists w, rr_run moved (rr_start elems) os = Ret (l, w) /\ rr_elems w = n_elems s /\
      forall i c, refers w i c <-> nth_error (n_vars s) i = Some (inl c)
  | None => rr_run moved (rr_start elems) os = UB
  end.
Proof.
  intros A E moved elems os. pose proof (rr_run_spec moved os (mkNames elems [])) as H. change (rrw (mkNames elems [])) with (@rr_start A E elems) in H.
  destruct (says_all moved (mkNames elems []) os) as [[l s]|]; [|exact H]. exists (rrw s). split; [exact H|]. split; [reflexivity|].
  intros i c. unfold refers, rrw. cbn [rr_vars]. rewrite nth_error_map. destruct (nth_error (n_vars s) i) as [[d|e]|]; unfold option_map, rrv, res_of, res_err; split; intros Q; congruence.
Qed.
Print Assumptions C166_program.

Lemma reached_names {A E} (moved : E -> E) (w : rrworld A E) : reached moved w -> exists s, w = rrw s /\
  forall i c, nth_error (n_vars s) i = Some (inl c) -> (c < length (n_elems s))%nat.
Proof.
  intros (elems & os & l & H). change (@rr_start A E elems) with (rrw (@mkNames A E elems [])) in H.
  assert (G : forall os (s : names A E) l w, (forall i c, nth_error (n_vars s) i = Some (inl c) -> (c < length (n_elems s))%nat) ->
            rr_run moved (rrw s) os = Ret (l, w) -> exists s, w = rrw s /\ forall i c, nth_error (n_vars s) i = Some (inl c) -> (c < length (n_elems s))%nat).
  { clear. induction os as [|o os IH]; intros s l w K H; cbn [rr_run] in H; [injection H as <- <-; eauto|].
    rewrite rr_step_spec in H. destruct (says moved s o) as [[a s']|] eqn:Q; [|discriminate]. cbn [bind fst snd] in H.
    destruct (rr_run moved (rrw s') os) as [[l' w']| | | |] eqn:R; try discriminate. injection H as <- <-. apply (IH s' l' w'); [|exact R]. exact (says_inside moved s o a s' K Q). }
  apply (G os (mkNames elems []) l w); [|exact H]. intros [|i] c; discriminate.
Qed.

(** A result that refers to an element reads and writes that element. *)
Theorem C166_alias : forall A E (moved : E -> E) (w : rrworld A E) i c, reached moved w -> refers w i c ->
  exists x, nth_error (rr_elems w) c = Some x /\ rr_step moved w (RRRead i) = Ret (RRGot x, w) /\ rr_step moved w (RRValue i) = Ret (RRGot x, w) /\
    forall y, rr_step moved w (RRWrite i y) = Ret (RRDone, mkRR (replaced_at (rr_elems w) c y) (rr_vars w)).
Proof.
  intros A E moved w i c R H. destruct (reached_names moved w R) as (s & -> & K). apply refers_inl in H. pose proof (K i c H) as L. apply nth_error_Some in L.
  destruct (nth_error (n_elems s) c) as [x|] eqn:Hc; [|congruence]. exists x. split; [exact Hc|].
  split; [|split]; [| |intros y]; rewrite rr_step_spec; cbn [says]; rewrite H, Hc; reflexivity.
Qed.
Print Assumptions C166_alias.

(** No other element changes, and none does unless it is written through a result. *)
Theorem C166_elements : forall A E (moved : E -> E) (w w' : rrworld A E) o a, reached moved w -> rr_step moved w o = Ret (a, w') ->
  length (rr_elems w') = length (rr_elems w) /\
  forall c, nth_error (rr_elems w') c <> nth_error (rr_elems w) c -> exists i, writes o i /\ refers w i c.
Proof.
  intros A E moved w w' o a R H. destruct (reached_names moved w R) as (s & -> & K). rewrite rr_step_spec in H.
  destruct (says moved s o) as [[a' s']|] eqn:Q; [|discriminate]. injection H as <- <-. exact (says_elems moved s o a' s' Q).
Qed.
Print Assumptions C166_elements.

(** What a result refers to stays the same, also when it is moved from, until it is assigned. *)
Theorem C166_stays : forall A E (moved : E -> E) (w w' : rrworld A E) o a i c, reached moved w -> refers w i c -> rr_step moved w o = Ret (a, w') ->
  (forall j, o <> RRAssign i j /\ o <> RRAssign j i) -> refers w' i c.
Proof.
  intros A E moved w w' o a i c R F H N. destruct (reached_names moved w R) as (s & -> & K). rewrite rr_step_spec in H.
  destruct (says moved s o) as [[a' s']|] eqn:Q; [|discriminate]. injection H as <- <-. apply refers_inl in F. apply refers_inl. exact (says_stays moved s o a' s' i c F Q N).
Qed.
Print Assumptions C166_stays.

(** Moving gives a second name of the element; assigning exchanges what the two refer to. *)
Theorem C166_names : forall A E (moved : E -> E) (w : rrworld A E) i c, reached moved w -> refers w i c ->
  (exists w', rr_step moved w (RRMove i) = Ret (RRDone, w') /\ refers w' i c /\ refers w' (length (rr_vars w)) c) /\
  (forall j, (j < length (rr_vars w))%nat -> j <> i -> exists w', rr_step moved w (RRAssign i j) = Ret (RRDone, w') /\ rr_elems w' = rr_elems w /\
     refers w' j c /\ (forall d, refers w j d <-> refers w' i d)).
Proof.
  intros A E moved w i c R F. destruct (reached_names moved w R) as (s & -> & K). apply refers_inl in F. split.
  - exists (rrw (more s (inl c))). rewrite rr_step_spec. cbn [says]. rewrite F. split; [reflexivity|]. rewrite !refers_inl. cbn [more n_vars rrw rr_vars]. rewrite map_length.
    split; [rewrite nth_error_app1; [exact F|apply nth_error_Some; congruence]|]. rewrite nth_error_app2, Nat.sub_diag by lia. reflexivity.
  - intros j L Ne. cbn [rrw rr_vars] in L. rewrite map_length in L. apply nth_error_Some in L. destruct (nth_error (n_vars s) j) as [v|] eqn:Hj; [|congruence].
    exists (rrw (other (other s i v) j (inl c))). rewrite rr_step_spec. cbn [says]. rewrite F, Hj. destruct (Nat.eqb_spec i j) as [|_]; [congruence|].
    split; [reflexivity|]. split; [reflexivity|].
    assert (X : nth_error (n_vars (other s i v)) j = Some v) by (cbn [other n_vars]; rewrite <- (upd_at _ _ v _ F), nth_upd_ne by congruence; exact Hj).
    rewrite refers_inl. split; [|intros d; rewrite !refers_inl; rewrite Hj]; cbn [other n_vars] in *; rewrite <- (upd_at _ _ (inl c) _ X).
    + eapply nth_upd_eq. exact X.
    + rewrite nth_upd_ne by congruence. rewrite <- (upd_at _ _ v _ F). rewrite (nth_upd_eq _ _ v _ F). reflexivity.
Qed.
Print Assumptions C166_names.

Example C166_ok : let w := mkRR [10; 20; 30] [res_of 2%nat; res_of 0%nat; @res_err nat N 7] in reached (fun _ => 0) w /\ refers w 0 2 /\ (1 < length (rr_vars w))%nat.
Proof. split; [exists [10; 20; 30], [RRBind 2; RRBind 0; RRFail 7]; eexists; vm_compute; reflexivity|]. split; [reflexivity|cbn; lia]. Qed.
Example C166_case : option_map fst (says_all (fun _ : N => 0) (mkNames [10; 20; 30] [])
    [RRBind 2; RRBind 0; RRAssign 0 1; RRWrite 0 11; RRMove 0; RRWrite 2 12; RRRead 0; RRThen 1 (fun x => (x + 1, x)); RRRead 1; RRFail 7; RRMove 3; RRGetError 3; RRGetError 4]) =
  Some [RRDone; RRDone; RRDone; RRDone; RRDone; RRDone; RRGot 12; RRGot 30; RRGot 31; RRDone; RRDone; RRErr 0; RRErr 7].
Proof. reflexivity. Qed.
