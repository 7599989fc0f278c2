From Verif Require Import Base MemoryModel MemoryProofs OptResModel OptResProofs RefResModel RefResSpec.

Definition rrv {E} (v : nat + E) : resultv nat E := match v with inl c => res_of c | inr e => res_err e end.
Definition rrw {A E} (s : names A E) : rrworld A E := mkRR (n_elems s) (map rrv (n_vars s)).

Lemma upd_at {X} (l : list X) : forall i x y, nth_error l i = Some y -> upd l i x = replaced_at l i x.
Proof.
  induction l as [|z l IH]; intros [|i] x y H; try discriminate; [reflexivity|]. cbn [upd]. rewrite (IH i x y H). reflexivity.
Qed.
Lemma upd_map_rr {X Y} (f : X -> Y) (l : list X) : forall i x, upd (map f l) i (f x) = map f (upd l i x).
Proof. induction l as [|z l IH]; intros [|i] x; cbn [upd map]; try reflexivity. now rewrite IH. Qed.
Lemma nth_upd_eq {X} (l : list X) : forall i x y, nth_error l i = Some y -> nth_error (upd l i x) i = Some x.
Proof. induction l as [|z l IH]; intros [|i] x y H; try discriminate; [reflexivity|]. exact (IH i x y H). Qed.
Lemma nth_upd_ne {X} (l : list X) : forall i j x, i <> j -> nth_error (upd l i x) j = nth_error l j.
Proof. induction l as [|z l IH]; intros [|i] [|j] x H; cbn; try reflexivity; try congruence. apply IH. congruence. Qed.

Section RR.
Context {A E : Type} (moved : E -> E).
Lemma rr_get_spec (s : names A E) i : rr_get (rrw s) i = match nth_error (n_vars s) i with Some v => Ret (rrv v) | None => UB end.
Proof. unfold rr_get, rrw. cbn [rr_vars]. rewrite nth_error_map. now destruct (nth_error (n_vars s) i). Qed.
Lemma rr_load_spec (s : names A E) c : rr_load (rrw s) c = match nth_error (n_elems s) c with Some x => Ret x | None => UB end.
Proof. reflexivity. Qed.
Lemma rr_store_spec (s : names A E) c x : rr_store (rrw s) c x = match nth_error (n_elems s) c with Some _ => Ret (rrw (written s c x)) | None => UB end.
Proof.
  unfold rr_store. rewrite rr_load_spec. destruct (nth_error (n_elems s) c) eqn:H; [|reflexivity]. cbn [bind]. unfold rrw, written. cbn [rr_elems rr_vars n_elems n_vars].
  now rewrite (upd_at _ _ _ _ H).
Qed.
Lemma rr_new_spec (s : names A E) v : rr_new (rrw s) (rrv v) = rrw (more s v).
Proof. unfold rr_new, rrw, more. cbn [rr_elems rr_vars n_elems n_vars]. now rewrite map_app. Qed.
Lemma rr_put_spec (s : names A E) i v u : nth_error (n_vars s) i = Some u -> rr_put (rrw s) i (rrv v) = rrw (other s i v).
Proof. intros H. unfold rr_put, rrw, other. cbn [rr_elems rr_vars n_elems n_vars]. now rewrite upd_map_rr, (upd_at _ _ _ _ H). Qed.

(** The three steps of swap, on the list of results. *)
Lemma rr_destroy_spec (v : nat + E) : exists b, rr_destroy (rrv v) = Ret (mkRes b Raw).
Proof. destruct v; cbn; eauto. Qed.
Lemma rr_get_vars (w : rrworld A E) i r : nth_error (rr_vars w) i = Some r -> rr_get w i = Ret r.
Proof. intros H. unfold rr_get. now rewrite H. Qed.
Lemma upd_same {X} (l : list X) : forall i x, nth_error l i = Some x -> upd l i x = l.
Proof. induction l as [|z l IH]; intros [|i] x H; try discriminate; cbn [upd nth_error] in *; [now injection H as ->|]. now rewrite IH. Qed.
Lemma take_none (w : rrworld A E) i j : nth_error (rr_vars w) j = None -> rr_take moved w i j = UB.
Proof. intros H. unfold rr_take, rr_get. now rewrite H. Qed.
Lemma take_ne (w : rrworld A E) i j a b : i <> j -> nth_error (rr_vars w) i = Some (rrv a) -> nth_error (rr_vars w) j = Some (rrv b) ->
  rr_take moved w i j = Ret (mkRR (rr_elems w) (upd (upd (rr_vars w) i (rrv b)) j (rrv match b with inl c => inl c | inr e => inr (moved e) end))).
Proof.
  intros Ne Hi Hj. unfold rr_take. rewrite (rr_get_vars _ _ _ Hj), (rr_get_vars _ _ _ Hi). cbn [bind].
  destruct (rr_destroy_spec a) as (q & ->). cbn [bind]. rewrite (rr_get_vars _ j (rrv b)) by (cbn [rr_put rr_vars]; rewrite nth_upd_ne by exact Ne; exact Hj).
  cbn [bind]. destruct b as [c|e]; cbn [rrv res_isOk res_of res_err r_ok res_value res_error r_store bind]; unfold rr_put; cbn [rr_elems rr_vars].
  - rewrite upd_upd. rewrite (upd_same (upd (rr_vars w) i (res_of c)) j); [reflexivity|]. rewrite nth_upd_ne by exact Ne. exact Hj.
  - rewrite (upd_comm _ j i) by auto. rewrite !upd_upd. reflexivity.
Qed.
Lemma rr_swap_spec (s : names A E) i j :
  rr_swap moved (rrw s) i j =
  match nth_error (n_vars s) i, nth_error (n_vars s) j with
  | Some v, Some v' => if Nat.eqb i j then UB else Ret (rrw (other (other s i v') j v))
  | _, _ => UB
  end.
Proof.
  destruct (nth_error (n_vars s) i) as [v|] eqn:Hi; [|unfold rr_swap; rewrite rr_get_spec, Hi; reflexivity].
  destruct (Nat.eqb_spec i j) as [<-|Ne].
  - unfold rr_swap. rewrite rr_get_spec, Hi. cbn [bind]. destruct v as [c|e]; cbn [rrv res_isOk res_of res_err r_ok res_value res_error r_store bind].
    + unfold rr_take. rewrite rr_get_spec, Hi. cbn [bind rrv res_isOk res_of r_ok rr_destroy r_store].
      rewrite (rr_get_vars _ i (mkRes true Raw)); [reflexivity|]. cbn [rr_put rr_vars rrw]. eapply nth_upd_eq. rewrite nth_error_map, Hi. reflexivity.
    + change (mkRes false (HasError (moved e))) with (rrv (@inr nat E (moved e))). rewrite (rr_put_spec _ _ _ _ Hi). unfold rr_take. rewrite rr_get_spec.
      assert (Q : nth_error (n_vars (other s i (inr (moved e)))) i = Some (inr (moved e))) by (cbn [other n_vars]; rewrite <- (upd_at _ _ _ _ Hi); eapply nth_upd_eq; exact Hi).
      rewrite Q. cbn [bind rrv res_isOk res_err r_ok rr_destroy r_store].
      rewrite (rr_get_vars _ i (mkRes false Raw)); [reflexivity|]. cbn [rr_put rr_vars rrw]. eapply nth_upd_eq. rewrite nth_error_map, Q. reflexivity.
  - assert (G : exists a, rr_swap moved (rrw s) i j = let! w := rr_take moved (rr_put (rrw s) i (rrv a)) i j in rr_give w j (rrv v)).
    { unfold rr_swap. rewrite rr_get_spec, Hi. destruct v as [c|e]; cbn [bind rrv res_isOk res_of res_err r_ok res_value res_error r_store].
      - exists (inl c). replace (rr_put (rrw s) i (rrv (inl c))) with (rrw s); [reflexivity|].
        unfold rr_put, rrw. cbn [rr_elems rr_vars]. rewrite upd_same; [reflexivity|]. rewrite nth_error_map, Hi. reflexivity.
      - exists (inr (moved e)). reflexivity. }
    destruct G as (a & G).
    rewrite G. clear G. destruct (nth_error (n_vars s) j) as [b|] eqn:Hj.
    + rewrite (take_ne _ i j a b Ne); [|cbn [rr_put rr_vars rrw]; eapply nth_upd_eq; rewrite nth_error_map, Hi; reflexivity
        |cbn [rr_put rr_vars rrw]; rewrite nth_upd_ne by exact Ne; rewrite nth_error_map, Hj; reflexivity].
      cbn [bind rr_put rr_elems rr_vars rrw]. rewrite !upd_upd. unfold rr_give. rewrite (rr_get_vars _ j (rrv match b with inl c => inl c | inr e => inr (moved e) end)).
      2:{ cbn [rr_vars]. apply nth_upd_eq with (y := rrv b). rewrite nth_upd_ne by exact Ne. rewrite nth_error_map, Hj. reflexivity. }
      cbn [bind]. destruct (rr_destroy_spec match b with inl c => inl c | inr e => inr (moved e) end) as (q & ->). cbn [bind]. unfold rr_put. cbn [rr_elems rr_vars]. rewrite upd_upd, !upd_map_rr.
      unfold rrw, other. cbn [n_elems n_vars]. rewrite (upd_at _ _ _ _ Hi). rewrite (upd_at (replaced_at (n_vars s) i b) j v b); [reflexivity|].
      rewrite <- (upd_at _ _ _ _ Hi), nth_upd_ne by exact Ne. exact Hj.
    + rewrite take_none; [reflexivity|]. cbn [rr_put rr_vars rrw]. rewrite nth_upd_ne by exact Ne. rewrite nth_error_map, Hj. reflexivity.
Qed.

Lemma rr_step_spec (s : names A E) o :
  rr_step moved (rrw s) o = match says moved s o with Some (a, s') => Ret (a, rrw s') | None => UB end.
Proof.
  assert (P : forall i e u, nth_error (n_vars s) i = Some u -> rr_put (rrw s) i (mkRes false (HasError (moved e))) = rrw (other s i (inr (moved e)))).
  { intros i e u H. change (mkRes false (HasError (moved e))) with (rrv (@inr nat E (moved e))). exact (rr_put_spec _ _ _ _ H). }
  assert (R : forall (s' : names A E) c, rr_new (rrw s') (res_of c) = rrw (more s' (inl c))) by (intros; exact (rr_new_spec s' (inl c))).
  assert (R' : forall (s' : names A E) e, rr_new (rrw s') (res_err e) = rrw (more s' (inr e))) by (intros; exact (rr_new_spec s' (inr e))).
  destruct o as [c|e|i|i j|i|i x|i|i|i f|i f|i f]; cbn [rr_step says];
    try (rewrite rr_get_spec; destruct (nth_error (n_vars s) i) as [[c|e]|] eqn:Hi; [| |reflexivity];
         cbn [bind rrv res_isOk res_isError res_of res_err r_ok negb res_value res_error r_store]).
  - rewrite rr_load_spec. destruct (nth_error (n_elems s) c); cbn [bind]; [|reflexivity]. now rewrite R.
  - now rewrite R'.
  - now rewrite R.
  - now rewrite (P _ _ _ Hi), R'.
  - rewrite rr_swap_spec. destruct (nth_error (n_vars s) i), (nth_error (n_vars s) j); try reflexivity. now destruct (Nat.eqb i j).
  - rewrite rr_load_spec. now destruct (nth_error (n_elems s) c).
  - reflexivity.
  - rewrite rr_store_spec. now destruct (nth_error (n_elems s) c).
  - reflexivity.
  - reflexivity.
  - reflexivity.
  - rewrite rr_load_spec. now destruct (nth_error (n_elems s) c).
  - now rewrite (P _ _ _ Hi).
  - rewrite rr_load_spec. destruct (nth_error (n_elems s) c) eqn:Hc; [|reflexivity]. cbn [bind option_map]. rewrite rr_store_spec, Hc. reflexivity.
  - now rewrite (P _ _ _ Hi).
  - now rewrite R.
  - now rewrite R'.
  - now rewrite R.
  - rewrite rr_load_spec. destruct (nth_error (n_elems s) (f e)); [|reflexivity]. cbn [bind]. now rewrite (P _ _ _ Hi), R.
Qed.
Lemma rr_run_spec os : forall s : names A E,
  rr_run moved (rrw s) os = match says_all moved s os with Some (l, s') => Ret (l, rrw s') | None => UB end.
Proof.
  induction os as [|o os IH]; intros s; [reflexivity|]. cbn [rr_run says_all]. rewrite rr_step_spec. destruct (says moved s o) as [[a s']|]; [|reflexivity].
  cbn [bind fst snd]. rewrite IH. destruct (says_all moved s' os) as [[l s'']|]; reflexivity.
Qed.
End RR.

Lemma refers_inl {A E} (s : names A E) i c : refers (rrw s) i c <-> nth_error (n_vars s) i = Some (inl c).
Proof.
  unfold refers, rrw. cbn [rr_vars]. rewrite nth_error_map. destruct (nth_error (n_vars s) i) as [[d|e]|]; unfold option_map, rrv, res_of, res_err; split; intros Q; congruence.
Qed.
Lemma replaced_nth {X} (l : list X) i x y : nth_error l i = Some y -> forall j, nth_error (replaced_at l i x) j = if Nat.eqb i j then Some x else nth_error l j.
Proof.
  intros H j. rewrite <- (upd_at _ _ _ _ H). destruct (Nat.eqb_spec i j) as [<-|N]; [eapply nth_upd_eq; exact H|now apply nth_upd_ne].
Qed.
Lemma replaced_length {X} (l : list X) i x y : nth_error l i = Some y -> length (replaced_at l i x) = length l.
Proof. intros H. rewrite <- (upd_at _ _ _ _ H). apply length_upd. Qed.

Ltac says_cases :=
  repeat match goal with
  | H : Some _ = Some _ |- _ => injection H as <- <- || (injection H; clear H; intros; subst)
  | H : None = Some _ |- _ => discriminate H
  | H : option_map _ ?x = Some _ |- _ => let V := fresh "V" in destruct x eqn:V; cbn [option_map] in H
  | H : (match ?x with _ => _ end) = Some _ |- _ => let V := fresh "V" in destruct x eqn:V
  end.
Lemma says_elems {A E} (moved : E -> E) (s : names A E) o a s' : says moved s o = Some (a, s') ->
  length (n_elems s') = length (n_elems s) /\
  forall c, nth_error (n_elems s') c <> nth_error (n_elems s) c -> exists i, writes o i /\ refers (rrw s) i c.
Proof.
  intros Q. destruct o; cbn [says] in Q; says_cases; cbn [more other written n_elems]; try (split; [reflexivity|]; intros c0 N; now contradiction N).
  - split; [eapply replaced_length; eassumption|]. intros c N. erewrite replaced_nth in N by eassumption. destruct (Nat.eqb_spec n c) as [->|]; [|contradiction].
    exists i. split; [reflexivity|]. now apply refers_inl.
  - split; [eapply replaced_length; eassumption|]. intros c N. erewrite replaced_nth in N by eassumption. destruct (Nat.eqb_spec n c) as [->|]; [|contradiction].
    exists i. split; [reflexivity|]. now apply refers_inl.
Qed.
Lemma nth_app_1 {X} (l : list X) x i y : nth_error (l ++ [x]) i = Some y -> nth_error l i = Some y \/ (i = length l /\ x = y).
Proof.
  intros H. destruct (Nat.lt_ge_cases i (length l)) as [L|L]; [rewrite nth_error_app1 in H by exact L; now left|].
  rewrite nth_error_app2 in H by exact L. destruct (i - length l)%nat as [|k] eqn:D; [|destruct k; discriminate]. right. split; [lia|]. now injection H.
Qed.
Lemma says_inside {A E} (moved : E -> E) (s : names A E) o a s' : (forall i c, nth_error (n_vars s) i = Some (inl c) -> (c < length (n_elems s))%nat) ->
  says moved s o = Some (a, s') -> forall i c, nth_error (n_vars s') i = Some (inl c) -> (c < length (n_elems s'))%nat.
Proof.
  intros K Q. destruct (says_elems moved s o a s' Q) as (L & _). rewrite L. clear L.
  assert (B : forall c x, nth_error (n_elems s) c = Some x -> (c < length (n_elems s))%nat) by (intros c x H; apply nth_error_Some; congruence).
  intros k d F. destruct o; cbn [says] in Q; says_cases; cbn [more other written n_vars] in F; eauto;
    repeat match goal with
    | F : nth_error (_ ++ [_]) _ = Some _ |- _ => apply nth_app_1 in F as [F|(_ & F)]; [|first [discriminate F|injection F as <-; eauto]]
    end; eauto;
    try (erewrite replaced_nth in F by eassumption; destruct (Nat.eqb_spec i k); [discriminate F|eauto]).
  assert (V1' : nth_error (replaced_at (n_vars s) i s1) j = Some s1) by (erewrite replaced_nth by eassumption; destruct (Nat.eqb_spec i j); [reflexivity|assumption]).
  erewrite replaced_nth in F by eassumption. destruct (Nat.eqb j k); [injection F as ->; eauto|].
  erewrite replaced_nth in F by eassumption. destruct (Nat.eqb i k); [injection F as ->; eauto|eauto].
Qed.
Lemma says_stays {A E} (moved : E -> E) (s : names A E) o a s' i c : nth_error (n_vars s) i = Some (inl c) -> says moved s o = Some (a, s') ->
  (forall j, o <> RRAssign i j /\ o <> RRAssign j i) -> nth_error (n_vars s') i = Some (inl c).
Proof.
  intros F Q N. assert (L : (i < length (n_vars s))%nat) by (apply nth_error_Some; congruence).
  destruct o as [d|e|k|k j|k|k x|k|k|k f|k f|k f]; cbn [says] in Q; says_cases; cbn [more other written n_vars]; try exact F;
    try (rewrite nth_error_app1 by (erewrite ?replaced_length by eassumption; exact L)); try exact F;
    try (erewrite replaced_nth by eassumption; destruct (Nat.eqb_spec k i) as [->|]; [congruence|exact F]).
  assert (k <> i) by (intros ->; now apply (proj1 (N j))). assert (j <> i) by (intros ->; now apply (proj2 (N k))).
  assert (V1' : nth_error (replaced_at (n_vars s) k s1) j = Some s1) by (erewrite replaced_nth by eassumption; destruct (Nat.eqb_spec k j); [reflexivity|assumption]).
  erewrite replaced_nth by eassumption. destruct (Nat.eqb_spec j i); [contradiction|]. erewrite replaced_nth by eassumption. destruct (Nat.eqb_spec k i); [contradiction|exact F].
Qed.
