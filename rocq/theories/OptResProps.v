(** Properties of Optional and Result (C44, C45, C46, C68, C69). *)
From Verif Require Import Base BaseLemmas MemoryModel MemoryProofs OptResModel OptResSpec OptResProofs.
From Coq Require Import Permutation.

Ltac is_opt H := apply opt_is_eq in H; subst.
Ltac is_res H := apply res_is_eq in H; subst.

(** * C44 *)
(** The callback of map, flatMap and filter is called iff there is a value, once, with it.
    [m]: what the optional stands for. *)
Theorem C44_called_iff_present : forall A B (o : optional A) m (f : A -> outcome (B * A)) (g : A -> outcome (optional B * A)) (p : A -> outcome bool),
  opt_is o m ->
  (forall r, opt_map o f = Ret r -> snd r = match m with Some a => [a] | None => [] end) /\
  (forall r, opt_flatMap o g = Ret r -> snd r = match m with Some a => [a] | None => [] end) /\
  (forall r, opt_filter o p = Ret r -> snd r = match m with Some a => [a] | None => [] end) /\
  (m = None -> opt_map o f = Ret (opt_none, o, []) /\ opt_flatMap o g = Ret (opt_none, o, []) /\ opt_filter o p = Ret (opt_none, [])).
Proof.
  intros A B o m f g p H. is_opt H. destruct m as [a|].
  - repeat split; try discriminate; intros r; unfold opt_map, opt_flatMap, opt_filter; cbn.
    + destruct (f a) as [q| | | |]; cbn; intros E; try discriminate; injection E as <-; reflexivity.
    + destruct (g a) as [q| | | |]; cbn; intros E; try discriminate; injection E as <-; reflexivity.
    + destruct (p a) as [q| | | |]; cbn; intros E; try discriminate; injection E as <-; reflexivity.
  - repeat split; cbn; intros; try discriminate; match goal with H : _ = Ret _ |- _ => injection H as <-; reflexivity | |- _ => reflexivity end.
Qed.
Print Assumptions C44_called_iff_present.
(** A callback that throws makes the combinator throw: the exception is not swallowed. *)
Theorem C44_exceptions : forall A B (o : optional A) a x (f : A -> outcome (B * A)) (g : A -> outcome (optional B * A)) (p : A -> outcome bool),
  opt_is o (Some a) -> (f a = Throws x -> opt_map o f = Throws x) /\ (g a = Throws x -> opt_flatMap o g = Throws x) /\ (p a = Throws x -> opt_filter o p = Throws x).
Proof. intros A B o a x f g p H. is_opt H. unfold opt_map, opt_flatMap, opt_filter. cbn. repeat split; intros ->; reflexivity. Qed.
Print Assumptions C44_exceptions.

(** Functor laws, the second for callbacks that may throw. *)
Theorem C44_functor_identity : forall A (o : optional A) m, opt_is o m ->
  exists calls, opt_map o (pure (fun a => a)) = Ret (o, o, calls).
Proof. intros A o m H. is_opt H. destruct m; cbn; eauto. Qed.
Print Assumptions C44_functor_identity.
Theorem C44_functor_composition : forall A B C (o : optional A) m (f : A -> outcome (B * A)) (g : B -> outcome (C * B)), opt_is o m ->
  (let! r := opt_map o f in came_out (came_out (opt_map (fst (fst r)) g))) =
  came_out (came_out (opt_map o (fun a => let! p := f a in let! q := g (fst p) in Ret (fst q, snd p)))).
Proof.
  intros A B C o m f g H. is_opt H. destruct m as [a|]; [|reflexivity]. unfold opt_map; cbn. destruct (f a) as [p| | | |]; cbn; try reflexivity.
  destruct (g (fst p)) as [q| | | |]; reflexivity.
Qed.
Print Assumptions C44_functor_composition.
(** ... but not for callbacks that return an Optional: a Some(none) comes out as none, so
    mapping in two steps differs from mapping in one. *)
Theorem C44_functor_nested_refuted : exists (o : optional N) (f : N -> optional N) (g : optional N -> bool), opt_is o (Some 1) /\
  (let! r := opt_map_nested o (pure f) in came_out (came_out (opt_map (fst (fst r)) (pure g)))) = Ret opt_none /\
  came_out (came_out (opt_map o (pure (fun a => g (f a))))) = Ret (opt_of true).
Proof. exists (opt_of 1), (fun _ => opt_none), opt_isNone. repeat split; reflexivity. Qed.
Print Assumptions C44_functor_nested_refuted.
Theorem C44_nested_collapses : forall A W (o : optional A) a (f : A -> outcome (optional W * A)) r a' m, opt_is o (Some a) -> f a = Ret (r, a') -> opt_is r m ->
  opt_map_nested o f = Ret (match m with Some w => opt_of (opt_of w) | None => opt_none end, opt_of a', [a]).
Proof. intros A W o a f r a' m H E M. is_opt H. is_opt M. unfold opt_map_nested. cbn. rewrite E. cbn. destruct m; reflexivity. Qed.
Print Assumptions C44_nested_collapses.

(** Monad laws, for callbacks that may throw. *)
Theorem C44_monad_left_identity : forall A B (a : A) (f : A -> outcome (optional B * A)),
  came_out (came_out (opt_flatMap (opt_of a) f)) = came_out (f a).
Proof. intros A B a f. unfold opt_flatMap. cbn. now destruct (f a). Qed.
Print Assumptions C44_monad_left_identity.
Theorem C44_monad_right_identity : forall A (o : optional A) m, opt_is o m -> exists calls, opt_flatMap o (pure opt_of) = Ret (o, o, calls).
Proof. intros A o m H. is_opt H. destruct m; cbn; eauto. Qed.
Print Assumptions C44_monad_right_identity.
Theorem C44_monad_associativity : forall A B C (o : optional A) m (f : A -> outcome (optional B * A)) (g : B -> outcome (optional C * B)), opt_is o m ->
  (let! r := opt_flatMap o f in came_out (came_out (opt_flatMap (fst (fst r)) g))) =
  came_out (came_out (opt_flatMap o (fun a => let! p := f a in let! q := came_out (came_out (opt_flatMap (fst p) g)) in Ret (q, snd p)))).
Proof.
  intros A B C o m f g H. is_opt H. destruct m as [a|]; [|reflexivity]. unfold opt_flatMap at 1 3; cbn. destruct (f a) as [p| | | |]; cbn; try reflexivity.
  destruct (opt_flatMap (fst p) g) as [q| | | |]; reflexivity.
Qed.
Print Assumptions C44_monad_associativity.
(** What the callback leaves in the payload stays there: flatMap hands an rvalue even to
    callbacks of lvalue optionals (the & overload), so a callback taking its argument by
    value empties the optional it was called on, which still reports a value. *)
Theorem C44_flatMap_consumes : forall A B (o : optional A) a (f : A -> outcome (optional B * A)) b a', opt_is o (Some a) -> f a = Ret (b, a') ->
  exists o', opt_flatMap o f = Ret (b, o', [a]) /\ opt_is o' (Some a').
Proof. intros A B o a f b a' H E. is_opt H. unfold opt_flatMap. cbn. rewrite E. eexists. split; [reflexivity|]. split; reflexivity. Qed.
Print Assumptions C44_flatMap_consumes.

(** filter keeps the value iff there is one that satisfies the predicate; twice is the
    conjunction. *)
Theorem C44_filter : forall A (o : optional A) m (p : A -> bool), opt_is o m ->
  exists r calls, opt_filter o (fun a => Ret (p a)) = Ret (r, calls) /\
    (forall a, opt_is r (Some a) <-> m = Some a /\ p a = true) /\ (opt_is r None <-> m = None \/ exists a, m = Some a /\ p a = false).
Proof.
  intros A o m p H. is_opt H. destruct m as [a|].
  - exists (if p a then opt_of a else opt_none), [a]. split; [reflexivity|]. destruct (p a) eqn:P.
    + split; [intros b; split|split]; intros X.
      * destruct X as [_ X]. cbn in X. injection X as <-. auto.
      * destruct X as [X _]. injection X as <-. apply opt_is_of.
      * destruct X as [X _]. discriminate.
      * destruct X as [X|(b & X & Y)]; congruence.
    + split; [intros b; split|split]; intros X.
      * destruct X as [X _]. discriminate.
      * destruct X as [X Y]. congruence.
      * right. eauto.
      * apply opt_is_none.
  - exists opt_none, []. split; [reflexivity|]. split; [intros b; split|split]; intros X; try (destruct X; discriminate); [now left|apply opt_is_none].
Qed.
Print Assumptions C44_filter.
(** orElse gives the value if there is one, the alternative if not; get gives the value if
    there is one and raises if not; operator* ends the program if not. *)
Theorem C44_access : forall A (o : optional A) m t, opt_is o m ->
  opt_orElse o t = Ret (match m with Some a => a | None => t end) /\
  opt_get o = match m with Some a => Ret a | None => Throws InvalidState end /\
  opt_deref o = match m with Some a => Ret a | None => Terminates end /\
  opt_isSome o = (match m with Some _ => true | None => false end) /\ opt_isNone o = negb (opt_isSome o).
Proof. intros A o m t H. is_opt H. destruct m; repeat split. Qed.
Print Assumptions C44_access.
Example C44_case : opt_is (opt_of 7) (Some 7) /\ opt_map (opt_of 7) (pure (N.add 1)) = Ret (opt_of 8, opt_of 7, [7]) /\
  opt_filter (opt_of 7) (fun a => Ret (a <? 5)) = Ret (opt_none, [7]).
Proof. repeat split. Qed.

(** * C46 *)
(** Which continuation is called, and with what: exactly the one the state selects.  The
    other alternative comes out unchanged. *)
Theorem C46_selected : forall V E W F (r : resultv V E) s (conv : E -> F) (cv : V -> W) (f : V -> outcome (resultv W F)) (g : E -> outcome (resultv W F)) (h : E -> outcome F), res_is r s ->
  res_then conv r f = match s with inl v => let! x := f v in Ret (x, [OnValue v]) | inr e => Ret (res_err (conv e), []) end /\
  res_orElse cv r g = match s with inl v => Ret (res_of (cv v), []) | inr e => let! x := g e in Ret (x, [OnError e]) end /\
  res_mapError r h = match s with inl v => Ret (res_of v, []) | inr e => let! x := h e in Ret (res_err x, [OnError e]) end.
Proof. intros V E W F r s conv cv f g h H. is_res H. destruct s; repeat split. Qed.
Print Assumptions C46_selected.
(** ... for continuations that return plain values or nothing *)
Theorem C46_selected_plain : forall V E W (r : resultv V E) s (cv : V -> W) (f : V -> outcome W) (k : V -> outcome unit) (g : E -> outcome W), res_is r s ->
  res_then_value r f = match s with inl v => let! x := f v in Ret (res_of x, [OnValue v]) | inr e => Ret (res_err e, []) end /\
  res_then_void r k = match s with inl v => let! _ := k v in Ret (opt_none, [OnValue v]) | inr e => Ret (opt_of e, []) end /\
  res_orElse_value cv r g = match s with inl v => Ret (res_of (cv v), []) | inr e => let! x := g e in Ret (res_of x, [OnError e]) end.
Proof. intros V E W r s cv f k g H. is_res H. destruct s; repeat split. Qed.
Print Assumptions C46_selected_plain.
(** ... and for Result<void, E>; [m]: the error, if any *)
Theorem C46_selected_void : forall E W F (r : optional E) m (conv : E -> F) (f : unit -> outcome (resultv W F)) (f' : unit -> outcome W) (k : unit -> outcome unit)
    (g : E -> outcome (optional F)) (g' : E -> outcome unit) (h : E -> outcome F), opt_is r m ->
  void_isOk r = (match m with None => true | _ => false end) /\
  void_then conv r f = match m with None => let! x := f tt in Ret (x, [OnValue tt]) | Some e => Ret (res_err (conv e), []) end /\
  void_then_value r f' = match m with None => let! x := f' tt in Ret (res_of x, [OnValue tt]) | Some e => Ret (res_err e, []) end /\
  void_then_void r k = match m with None => let! _ := k tt in Ret (opt_none, [OnValue tt]) | Some e => Ret (opt_of e, []) end /\
  void_orElse r g = match m with None => Ret (opt_none, []) | Some e => let! x := g e in Ret (x, [OnError e]) end /\
  void_orElse_void r g' = match m with None => Ret (opt_none, []) | Some e => let! _ := g' e in Ret (opt_none, [OnError e]) end /\
  void_mapError r h = match m with None => Ret (opt_none, []) | Some e => let! x := h e in Ret (opt_of x, [OnError e]) end.
Proof. intros E W F r m conv f f' k g g' h H. is_opt H. destruct m; repeat split. Qed.
Print Assumptions C46_selected_void.

(** Monad laws of then (with Ok as unit) and of orElse (with Err as unit), for
    continuations that may throw. *)
Theorem C46_then_left_identity : forall V E W (v : V) (f : V -> outcome (resultv W E)), came_out (res_then (fun e => e) (res_of v) f) = f v.
Proof. intros V E W v f. unfold res_then, came_out. cbn. now destruct (f v). Qed.
Print Assumptions C46_then_left_identity.
Theorem C46_then_right_identity : forall V E (r : resultv V E) s, res_is r s -> came_out (res_then (fun e => e) r (fun v => Ret (res_of v))) = Ret r.
Proof. intros V E r s H. is_res H. now destruct s. Qed.
Print Assumptions C46_then_right_identity.
Theorem C46_then_associativity : forall V E W X (r : resultv V E) s (f : V -> outcome (resultv W E)) (g : W -> outcome (resultv X E)), res_is r s ->
  (let! x := came_out (res_then (fun e => e) r f) in came_out (res_then (fun e => e) x g)) =
  came_out (res_then (fun e => e) r (fun v => let! x := f v in came_out (res_then (fun e => e) x g))).
Proof.
  intros V E W X r s f g H. is_res H. destruct s as [v|e]; [|reflexivity]. now rewrite !C46_then_left_identity.
Qed.
Print Assumptions C46_then_associativity.
Theorem C46_orElse_laws : forall V E F G (r : resultv V E) s (e : E) (f : E -> outcome (resultv V F)) (g : F -> outcome (resultv V G)), res_is r s ->
  came_out (res_orElse (fun v => v) (res_err e) f) = f e /\
  came_out (res_orElse (fun v => v) r (fun e => Ret (res_err e))) = Ret r /\
  (let! x := came_out (res_orElse (fun v => v) r f) in came_out (res_orElse (fun v => v) x g)) =
    came_out (res_orElse (fun v => v) r (fun e => let! x := f e in came_out (res_orElse (fun v => v) x g))).
Proof.
  intros V E F G r s e f g H. is_res H. repeat split.
  - unfold res_orElse, came_out. cbn. now destruct (f e).
  - now destruct s.
  - destruct s as [v|e']; [reflexivity|].
    assert (L : forall G (k : E -> outcome (resultv V G)), came_out (res_orElse (fun v => v) (res_err e') k) = k e') by (intros G' k; unfold res_orElse, came_out; cbn; now destruct (k e')).
    now rewrite !L.
Qed.
Print Assumptions C46_orElse_laws.
(** mapError is a functor on errors. *)
Theorem C46_mapError_laws : forall V E F G (r : resultv V E) s (f : E -> outcome F) (g : F -> outcome G), res_is r s ->
  came_out (res_mapError r (fun e => Ret e)) = Ret r /\
  (let! x := came_out (res_mapError r f) in came_out (res_mapError x g)) = came_out (res_mapError r (fun e => let! x := f e in g x)).
Proof.
  intros V E F G r s f g H. is_res H. split; [now destruct s|]. destruct s as [v|e]; [reflexivity|]. unfold res_mapError, came_out. cbn.
  destruct (f e) as [x| | | |]; cbn; try reflexivity. destruct (g x); reflexivity.
Qed.
Print Assumptions C46_mapError_laws.
(** unwrap and getError give what is there and raise if it is the other. *)
Theorem C46_access : forall V E (r : resultv V E) s, res_is r s ->
  res_unwrap r = match s with inl v => Ret v | inr _ => Throws InvalidState end /\
  res_getError r = match s with inl _ => Throws InvalidState | inr e => Ret e end /\
  res_isOk r = (match s with inl _ => true | inr _ => false end) /\ res_isError r = negb (res_isOk r).
Proof. intros V E r s H. is_res H. destruct s; repeat split. Qed.
Print Assumptions C46_access.
Example C46_case : res_is (@res_of N bool 3) (inl 3) /\ res_is (@res_err N bool true) (inr true) /\
  res_then negb (@res_err N bool true) (fun v => Ret (res_of (v + 1))) = Ret (res_err false, []) /\
  res_then negb (@res_of N bool 3) (fun v => Ret (res_of (v + 1))) = Ret (res_of 4, [OnValue 3]).
Proof. repeat split. Qed.

(** * C45 *)
(** Whatever a program does with any number of Optionals and Results, with constructors
    throwing wherever they like: nothing undefined happens, no payload is constructed
    twice, and every payload is used and destroyed only between its construction and its
    destruction, which happens at most once; those not yet destroyed are the ones held by
    living objects, each by one. *)
Theorem C45_lifetimes_partial : forall A (mvd : A -> A) nm (ops : list (oop A)), Forall (o_orderly nm) ops ->
  exists w log answers, orun mvd nm oworld0 ops = Ret (w, log, answers) /\ legal log /\ NoDup (held w) /\
    (forall x, In x (held w) <-> In (Born x) log /\ ~ In (Died x) log).
Proof.
  intros A mvd nm ops F. destruct (run_all mvd nm ops F oworld0 [] []) as (w & log & E & H & R).
  - split; [reflexivity|]. intros [|i]; exact I.
  - apply hist0.
  - destruct H as [H1 H2 H3 H4]. exists w, log, (snd (arun mvd nm [] ops)). auto.
Qed.
Print Assumptions C45_lifetimes_partial.
(** ... and when all objects are gone, every payload was destroyed. *)
Theorem C45_all_destroyed_partial : forall A (mvd : A -> A) nm (ops : list (oop A)) w log answers, Forall (o_orderly nm) ops ->
  orun mvd nm oworld0 ops = Ret (w, log, answers) -> (forall i, get (ow_objs w) i = None) -> forall x, In (Born x) log -> In (Died x) log.
Proof.
  intros A mvd nm ops w log answers F E D x B. destruct (C45_lifetimes_partial A mvd nm ops F) as (w' & log' & an & E' & _ & _ & H). rewrite E in E'. injection E' as <- <- <-.
  assert (X : held w = []).
  { unfold held. clear - D. induction (ow_objs w) as [|o l IH]; [reflexivity|]. cbn [flat_map]. rewrite IH by (intros i; exact (D (S i))). specialize (D O). cbn in D. now rewrite D. }
  destruct (in_dec (fun a b : life => ltac:(repeat decide equality) : {a = b} + {a <> b}) (Died x) log) as [Y|Y]; [exact Y|].
  exfalso. assert (Z : In x (held w)) by (apply H; auto). rewrite X in Z. exact Z.
Qed.
Print Assumptions C45_all_destroyed_partial.
(** A Result swapped with, or moved to, itself reads the payload it has just destroyed,
    whatever it holds. *)
Theorem C45_result_self_swap_refuted : forall A (mvd : A -> A) nm (w : oworld A) i r p fail, get (ow_objs w) i = Some (ORes r) -> res_is r p -> mthrow nm fail = false ->
  ostep mvd nm w (ResSwap i i fail) = UB.
Proof.
  intros A mvd nm w i r p fail G H T. cbn [ostep]. rewrite T. unfold res_swap. rewrite G. is_res H.
  destruct p as [p|p]; unfold r_payload, r_leave, oput; cbn; (erewrite get_upd_same by exact G); cbn; rewrite upd_upd; (erewrite get_upd_same by exact G); reflexivity.
Qed.
Print Assumptions C45_result_self_swap_refuted.
(** An Optional assigned from its own payload reads the payload it has just destroyed. *)
Theorem C45_optional_own_payload_refuted : forall A (mvd : A -> A) nm (w : oworld A) i o p fail, get (ow_objs w) i = Some (OOpt o) -> opt_is o (Some p) ->
  ostep mvd nm w (OptAssignFrom i i fail) = UB.
Proof.
  intros A mvd nm w i o p fail G H. cbn [ostep]. rewrite G. is_opt H. unfold opt_get, o_destroy. cbn. unfold oput. erewrite get_upd_same by exact G. reflexivity.
Qed.
Print Assumptions C45_optional_own_payload_refuted.
(** An Optional swapped with itself is harmless. *)
Theorem C45_optional_self_swap : forall A (mvd : A -> A) nm (w : oworld A) i o m fail, get (ow_objs w) i = Some (OOpt o) -> opt_is o m -> mthrow nm fail = false ->
  exists ev nx, ostep mvd nm w (OptSwap i i fail) = Ret (mkOW (ow_objs w) nx, ev, ODone).
Proof.
  intros A mvd nm w i o m fail G H T. cbn [ostep]. rewrite T. unfold opt_swap. rewrite G. is_opt H. destruct m as [p|]; cbn [opt_isSome engaged].
  - cbn. unfold oput. erewrite get_upd_same by exact G. cbn. rewrite !upd_upd. destruct p as [n v]. cbn. unfold opt_of in G. rewrite (upd_id _ _ _ G). eauto.
  - cbn. eauto.
Qed.
Print Assumptions C45_optional_self_swap.
(** Building an Optional or a Result from an argument whose constructor throws ends the
    program when the payload's move constructor is noexcept, although nothing is moved. *)
Theorem C45_throwing_argument_terminates : forall A (mvd : A -> A) (w : oworld A),
  ostep mvd true w (OptOf None) = Terminates /\ ostep mvd true w (OptInPlace None) = Terminates /\
  ostep mvd true w (ResOk None) = Terminates /\ ostep mvd true w (ResErr None) = Terminates /\
  ostep mvd true w (ResOkInPlace None) = Ret (w, [], ORaised UserException).
Proof. repeat split. Qed.
Print Assumptions C45_throwing_argument_terminates.
Definition C45_ops : list (oop N) :=
  [OptOf (Some 1); OptEmpty; OptSwap 0 1 false; OptOf None; OptCopy 1 true; OptCopy 1 false; OptAssign 1 5 true; OptAssignFrom 0 2 false;
   ResOk (Some 7); ResErr (Some 8); ResSwap 3 4 false; ResMove 3 true; ResMove 3 false; OptGet 0; ResGetError 3; ResUnwrap 3; DropO 4; OptReset 0].
Example C45_case : Forall (o_orderly false) C45_ops /\
  exists w log answers, orun (fun _ => 0) false oworld0 C45_ops = Ret (w, log, answers) /\ length log = 28%nat /\ held w = [2; 7; 9]%nat /\
    answers = [ODone; ODone; ODone; ORaised UserException; ORaised UserException; ODone; ORaised UserException; ODone; ODone; ODone; ODone; ORaised UserException; ODone; OGot 1; OGot 0; ORaised InvalidState; ODone; ODone].
Proof. split; [repeat constructor; cbn; auto; discriminate|]. do 3 eexists. split; [vm_compute; reflexivity|]. vm_compute. repeat split. Qed.

(** * C68 *)
(** Optionals and Results are values: every answer is the one an optional value, or a
    disjoint sum, gives under the same operations, and at the end every object stands for
    the value it should.  A moved-from object keeps its state, with what is left of the
    payload. *)
Theorem C68_values : forall A (mvd : A -> A) nm (ops : list (oop A)), Forall (o_orderly nm) ops ->
  let '(aw, answers) := arun mvd nm [] ops in
  exists w log, orun mvd nm oworld0 ops = Ret (w, log, answers) /\ length (ow_objs w) = length aw /\ forall i, stands_for (get (ow_objs w) i) (get aw i).
Proof.
  intros A mvd nm ops F. destruct (run_all mvd nm ops F oworld0 [] []) as (w & log & E & H & R).
  - split; [reflexivity|]. intros [|i]; exact I.
  - apply hist0.
  - destruct (arun mvd nm [] ops) as [aw an]. exists w, log. destruct R as [R1 R2]. auto.
Qed.
Print Assumptions C68_values.
Example C68_case : snd (arun (fun _ => 0) false [] C45_ops) =
  [ODone; ODone; ODone; ORaised UserException; ORaised UserException; ODone; ORaised UserException; ODone; ODone; ODone; ODone; ORaised UserException; ODone; OGot 1; OGot 0; ORaised InvalidState; ODone; ODone].
Proof. reflexivity. Qed.

(** * C69 *)
(** == of two different Optionals or Results holds iff both hold nothing, or the same
    alternative with equal contents; != is its negation if the payload's is. *)
Theorem C69_equality : forall A (eqb neb : A -> A -> bool) (a b : optional A) m n v, opt_is a m -> opt_is b n ->
  opt_eq eqb false a b = Ret (match m, n with Some x, Some y => eqb x y | None, None => true | _, _ => false end) /\
  opt_eq_value eqb a v = Ret (match m with Some x => eqb x v | None => false end) /\
  ((forall x y, neb x y = negb (eqb x y)) ->
     (exists r, opt_eq eqb false a b = Ret r /\ opt_ne neb false a b = Ret (negb r)) /\
     exists r, opt_eq_value eqb a v = Ret r /\ opt_ne_value neb a v = Ret (negb r)).
Proof.
  intros A eqb neb a b m n v H1 H2. is_opt H1. is_opt H2. destruct m, n; repeat split; try (eexists; split; [reflexivity|]; cbn; now rewrite ?H); try (eexists; split; reflexivity).
Qed.
Print Assumptions C69_equality.
Theorem C69_results : forall V E (veq : V -> V -> bool) (eeq : E -> E -> bool) (a b : resultv V E) s t v e, res_is a s -> res_is b t ->
  res_eq veq eeq a b = Ret (agree veq eeq s t) /\
  res_eq_ok veq a v = Ret (agree veq eeq s (inl v)) /\ res_eq_err eeq a e = Ret (agree veq eeq s (inr e)).
Proof.
  intros V E veq eeq a b s t v e H1 H2. is_res H1. is_res H2. destruct s, t; repeat split; unfold res_eq; cbn; destruct veq; reflexivity.
Qed.
Print Assumptions C69_results.
(** An Optional equals itself whatever == says of its payload. *)
Theorem C69_same_object_refuted : exists (eqb : N -> N -> bool) (a : optional N),
  opt_is a (Some 1) /\ opt_eq eqb true a a = Ret true /\ opt_eq eqb false a (opt_of 1) = Ret false.
Proof. exists (fun _ _ => false), (opt_of 1). repeat split. Qed.
Print Assumptions C69_same_object_refuted.
Theorem C69_same_object_reflexive : forall A (eqb : A -> A -> bool) (a : optional A) m same, (forall x, eqb x x = true) -> opt_is a m -> opt_eq eqb same a a = Ret true.
Proof. intros A eqb a m same R H. is_opt H. destruct same; [reflexivity|]. destruct m; cbn; now rewrite ?R. Qed.
Print Assumptions C69_same_object_reflexive.
Example C69_case : opt_eq N.eqb false (opt_of 3) (opt_of 3) = Ret true /\ res_eq N.eqb Bool.eqb (res_of 3) (res_err true) = Ret false.
Proof. split; reflexivity. Qed.
