From Verif Require Import Base MemViewModel MemoryModel ContainerModel ContainerSpec ContainerProofs AliasModel AliasSpec AliasProofs.

(** * C164: the elements of a vector as arguments of its own operations. *)

(** Whatever mixture of other values and own elements the operations are given, the vector
    behaves as the bounded sequence of AliasSpec.v, and the program is undefined exactly
    when that says so. *)
Theorem C164_program : forall A (eqb : A -> A -> bool) sz bytes ops, 0 < sz -> bytes < 2 ^ 64 ->
  match aspec_run eqb (bytes / sz) [] ops with
  | Some (l, answers) => exists v, arun eqb sz 0 (mkCont (raw_buf sz bytes) 0) ops = Ret (v, answers) /\ contents_of sz v = Ret l
  | None => arun eqb sz 0 (mkCont (raw_buf sz bytes) 0) ops = UB
  end.
Proof. intros A eqb sz bytes ops S B. apply (arun_spec eqb sz bytes S ops 0 (mkCont (raw_buf sz bytes) 0) []); [now apply holds_raw|reflexivity]. Qed.
Print Assumptions C164_program.

Lemma run_app {A} (eqb : A -> A -> bool) cap a : forall l b, aspec_run eqb cap l (a ++ b) =
  match aspec_run eqb cap l a with
  | None => None
  | Some (l1, r1) => match aspec_run eqb cap l1 b with Some (l2, r2) => Some (l2, r1 ++ r2) | None => None end
  end.
Proof.
  induction a as [|o a IH]; intros l b; cbn [app aspec_run]; [destruct (aspec_run eqb cap l b) as [(l2 & r2)|]; reflexivity|].
  destruct (aspec eqb cap l o) as [(l1 & x)|]; [|reflexivity]. rewrite IH. destruct (aspec_run eqb cap l1 a) as [(l2 & r2)|]; [|reflexivity].
  destruct (aspec_run eqb cap l2 b) as [(l3 & r3)|]; reflexivity.
Qed.
(** The only way to go wrong is to replace an element that exists by itself: it is
    destroyed before it is copied. *)
Theorem C164_only : forall A (eqb : A -> A -> bool) sz bytes ops, 0 < sz -> bytes < 2 ^ 64 ->
  (arun eqb sz 0 (mkCont (raw_buf sz bytes) 0) ops = UB <->
   exists before i after v answers l, ops = before ++ AReplace i (Elem i) :: after /\
     arun eqb sz 0 (mkCont (raw_buf sz bytes) 0) before = Ret (v, answers) /\ contents_of sz v = Ret l /\ i < N.of_nat (length l)).
Proof.
  intros A eqb sz bytes ops S B. split.
  - intros U. assert (N0 : aspec_run eqb (bytes / sz) [] ops = None).
    { pose proof (C164_program A eqb sz bytes ops S B) as P. destruct (aspec_run eqb (bytes / sz) [] ops) as [(l & r)|]; [|reflexivity]. destruct P as (v & P & _). congruence. }
    clear U. cut (exists before i after l r, ops = before ++ AReplace i (Elem i) :: after /\ aspec_run eqb (bytes / sz) [] before = Some (l, r) /\ i < N.of_nat (length l)).
    { intros (b & i & af & l & r & -> & E & L). pose proof (C164_program A eqb sz bytes b S B) as P. rewrite E in P. destruct P as (v & P & Q). exists b, i, af, v, r, l. auto. }
    revert N0. generalize (@nil A). induction ops as [|o ops IH]; intros l N0; cbn [aspec_run] in N0; [discriminate|].
    destruct (aspec eqb (bytes / sz) l o) as [(l1 & a)|] eqn:E.
    + destruct (aspec_run eqb (bytes / sz) l1 ops) as [(l2 & r2)|] eqn:E2; [discriminate|]. destruct (IH l1 E2) as (b & i & af & l' & r & -> & E3 & L).
      exists (o :: b), i, af, l', (a :: r). split; [reflexivity|]. split; [|exact L]. cbn [aspec_run]. now rewrite E, E3.
    + destruct o as [a| |i a|i a|a|a|i]; cbn [aspec] in E; try discriminate; try (destruct (meant l a); discriminate).
      * destruct (meant l a) eqn:M; [|discriminate]. destruct (N.ltb_spec i (N.of_nat (length l))); [|discriminate]. destruct (itself i a) eqn:X; [|discriminate].
        destruct a as [y|j]; cbn [itself] in X; [discriminate|]. apply N.eqb_eq in X. subst j. exists [], i, ops, l, []. auto.
      * destruct (meant l a); [|discriminate]. destruct (i <? _); discriminate.
  - intros (b & i & af & v & r & l & -> & E & C & L). pose proof (C164_program A eqb sz bytes (b ++ AReplace i (Elem i) :: af) S B) as P.
    pose proof (C164_program A eqb sz bytes b S B) as Q. rewrite run_app in P. destruct (aspec_run eqb (bytes / sz) [] b) as [(l1 & r1)|]; [|congruence].
    destruct Q as (v' & Q & Q2). rewrite E in Q. injection Q as <- <-. rewrite C in Q2. injection Q2 as <-.
    cbn [aspec_run aspec meant] in P. destruct (nth_error l (N.to_nat i)) eqn:X; [|apply nth_error_None in X; lia].
    destruct (N.ltb_spec i (N.of_nat (length l))); [|lia]. cbn [itself] in P. rewrite N.eqb_refl in P. exact P.
Qed.
Print Assumptions C164_only.

(** An element found through indexOf is found at or before its own place, if == is
    reflexive on it. *)
Theorem C164_find_own : forall A (eqb : A -> A -> bool) l j x, nth_error l (N.to_nat j) = Some x -> eqb x x = true ->
  exists i, position eqb x l = Some i /\ i <= j /\ exists y, nth_error l (N.to_nat i) = Some y /\ eqb x y = true.
Proof.
  intros A eqb l. induction l as [|y l IH]; intros j x J R; [destruct (N.to_nat j); discriminate|]. cbn [position]. destruct (eqb x y) eqn:E.
  - exists 0. split; [reflexivity|]. split; [lia|]. now exists y.
  - destruct (N.eq_dec j 0) as [->|NZ]; [cbn in J; congruence|]. assert (JJ : N.to_nat j = S (N.to_nat (j - 1))) by lia. rewrite JJ in J. cbn [nth_error] in J.
    destruct (IH (j - 1) x J R) as (i & -> & L & z & Z & X). exists (1 + i). split; [reflexivity|]. split; [lia|]. exists z.
    replace (N.to_nat (1 + i)) with (S (N.to_nat i)) by lia. auto.
Qed.
Print Assumptions C164_find_own.

(** A program with own elements everywhere; and one that replaces an element by itself. *)
Definition own_program : list (aop N) :=
  [APush (Value 7); APush (Elem 0); APush (Value 9); APush (Elem 2); AReplace 0 (Elem 2); ASet 1 (Elem 0); AGet 1;
   AFind (Elem 2); APush (Elem 4); AReplace 4 (Elem 0); APop; APush (Value 3); AFill (Elem 3); AGet 0].
Example C164_ok : exists v,
  arun N.eqb 8 0 (mkCont (raw_buf 8 35) 0) own_program =
    Ret (v, [ADone; ADone; ADone; ADone; ADone; ADone; AValue 9; AIndex (Some 0); AThrew IndexOutOfRange; AThrew IndexOutOfRange; ADone; ADone; ADone; AValue 3]) /\
  contents_of 8 v = Ret [3; 3; 3; 3] /\ aspec_run N.eqb (35 / 8) [] (own_program ++ [APush (Elem 0)]) <> None.
Proof. eexists. split; [vm_compute; reflexivity|]. split; [vm_compute; reflexivity|]. vm_compute. discriminate. Qed.
Example C164_case : arun N.eqb 8 0 (mkCont (raw_buf 8 32) 0) [APush (Value 7); AReplace 0 (Elem 0)] = UB /\
  exists v, arun N.eqb 8 0 (mkCont (raw_buf 8 32) 0) [APush (Value 7); AReplace 1 (Elem 0); AReplace 0 (Value 7)] = Ret (v, [ADone; AThrew IndexOutOfRange; ADone]) /\
    contents_of 8 v = Ret [7].
Proof. split; [vm_compute; reflexivity|]. eexists. split; vm_compute; reflexivity. Qed.
