From Verif Require Import Base MemViewModel MemoryModel MemoryProofs ContainerModel ContainerSpec ContainerProofs AliasModel RefsModel RefsSpec RefsProofs.
Local Arguments get : simpl never.

(** * C165: references to elements kept while vectors and arrays change. *)

(** Every program with vectors, arrays made of them and references to their elements does
    what RefsSpec.v says: contents keep their names when they move, and a reference shows
    what is at its position of the content it was taken from.  The program is undefined
    exactly when a reference is used whose content has no such element any more. *)
Theorem C165_program : forall A sz (ops : list (rop A)), 0 < sz -> Forall small ops ->
  match srun sz swld0 ops with
  | Some (_, answers) => exists w, rrun sz rworld0 ops = Ret (w, answers)
  | None => rrun sz rworld0 ops = UB
  end.
Proof.
  intros A sz ops S F. pose proof (rrun_spec sz ops S rworld0 swld0 F (rrel0 sz)) as P. destruct (srun sz swld0 ops) as [(s & r)|]; [|exact P]. destruct P as (w & P & _). eauto.
Qed.
Print Assumptions C165_program.

Lemma lookup_in {A} (l : list (option (kind * option (content A)))) n e : lookup l n = Some e ->
  exists i k c, get l i = Some (k, Some c) /\ k_name c = n /\ k_elems c = e.
Proof.
  induction l as [|x l IH]; cbn [lookup]; [discriminate|]. intros H.
  assert (T : lookup l n = Some e -> exists i k c, get (x :: l) i = Some (k, Some c) /\ k_name c = n /\ k_elems c = e).
  { intros E. destruct (IH E) as (i & k & c & G & R). exists (Datatypes.S i), k, c. split; [exact G|exact R]. }
  destruct x as [(k & [c|])|]; auto. destruct (Nat.eqb_spec (k_name c) n) as [E|]; [|auto]. injection H as H. exists O, k, c. repeat split; assumption.
Qed.
(** A position of a content in some object. *)
Definition holds_at {A} (l : list (option (kind * option (content A)))) (r : nat * nat) (x : A) : Prop :=
  exists i k c, get l i = Some (k, Some c) /\ k_name c = fst r /\ nth_error (k_elems c) (snd r) = Some x.
Lemma shown_iff {A} sz bl objs (l : list (option (kind * option (content A)))) r x : rel sz bl objs l -> shown l r = Some x <-> holds_at l r x.
Proof.
  intros R. unfold shown. split.
  - destruct (lookup l (fst r)) as [e|] eqn:E; [|discriminate]. intros H. destruct (lookup_in _ _ _ E) as (i & k & c & G & Nm & <-). exists i, k, c. auto.
  - intros (i & k & c & G & <- & H). rewrite (lookup_some l (rel_one _ _ _ _ R) i k c G). exact H.
Qed.

(** Statements that take nothing away and write through no reference. *)
Definition adds_only {A} (o : rop A) : Prop :=
  match o with RPop _ | RNull _ | RDrop _ | RWrite _ _ => False | _ => True end.
Lemma get_app_old {A} (l : list (option A)) x i y : get l i = Some y -> get (l ++ [x]) i = Some y.
Proof. intros H. rewrite get_app. destruct (Nat.eqb_spec i (length l)) as [->|]; [|exact H]. apply get_lt in H. lia. Qed.

Lemma step_keeps {A} sz (s s' : swld A) o a q r x : adds_only o -> sstep sz s o = Some (s', a) ->
  get (s_refs s) q = Some r -> holds_at (s_objs s) r x -> get (s_refs s') q = Some r /\ holds_at (s_objs s') r x.
Proof.
  intros AO E Q (i0 & k0 & c0 & G0 & Nm & X).
  assert (SAME : get (s_refs s) q = Some r /\ holds_at (s_objs s) r x) by (split; [exact Q|exists i0, k0, c0; auto]).
  assert (KEEP : forall l, holds_at l r x -> get (s_refs (mkS l (s_made s) (s_refs s))) q = Some r /\ holds_at (s_objs (mkS l (s_made s) (s_refs s))) r x) by (intros l H; split; [exact Q|exact H]).
  assert (MOVED : forall i k k' c y, get (s_objs s) i = Some (k, c) -> y = None -> holds_at (upd (s_objs s) i (Some (k, y)) ++ [Some (k', c)]) r x).
  { intros i k k' c y G _. destruct (Nat.eq_dec i i0) as [->|D].
    - rewrite G0 in G. injection G as <- <-. exists (length (s_objs s)), k', c0. split; [|auto]. rewrite get_app, length_upd, Nat.eqb_refl. reflexivity.
    - exists i0, k0, c0. split; [|auto]. apply get_app_old. now rewrite get_upd_other. }
  assert (SWAPPED : forall i j u v, get (s_objs s) i = Some u -> get (s_objs s) j = Some v -> holds_at (upd (upd (s_objs s) i (Some v)) j (Some u)) r x).
  { intros i j u v Gi Gj. pose proof (get_lt _ _ _ Gi). pose proof (get_lt _ _ _ Gj).
    destruct (Nat.eq_dec i0 i) as [->|Di].
    - exists j, k0, c0. split; [|auto]. rewrite get_upd, Nat.eqb_refl, length_upd. destruct (Nat.ltb_spec j (length (s_objs s))); [|lia]. cbn [andb]. congruence.
    - destruct (Nat.eq_dec i0 j) as [->|Dj].
      + exists i, k0, c0. split; [|auto]. rewrite get_upd_other by congruence. rewrite get_upd, Nat.eqb_refl. destruct (Nat.ltb_spec i (length (s_objs s))); [|lia]. cbn [andb]. congruence.
      + exists i0, k0, c0. split; [|auto]. now rewrite !get_upd_other by congruence. }
  destruct o as [bytes|i y|i|i|i|i j|i|i|i k|i k|q'|q' y]; cbn [sstep adds_only] in *; try contradiction.
  - injection E as <- _. split; [exact Q|]. exists i0, k0, c0. split; [|auto]. cbn [s_objs]. now apply get_app_old.
  - destruct (get (s_objs s) i) as [([|] & c)|] eqn:G; try (injection E as <- _; exact SAME). destruct (_ <? _); [|injection E as <- _; exact SAME]. injection E as <- _.
    apply KEEP. destruct (Nat.eq_dec i i0) as [->|D]; [|exists i0, k0, c0; split; [now rewrite get_upd_other|auto]].
    rewrite G0 in G. injection G as -> <-. exists i0, Vec. eexists. split; [rewrite (get_upd_same _ _ _ _ G0); reflexivity|]. split; [exact Nm|]. cbn. rewrite nth_error_app1; [exact X|]. apply nth_error_Some. congruence.
  - destruct (get (s_objs s) i) as [(k & c)|] eqn:G; injection E as <- _; [|exact SAME]. apply KEEP. now apply (MOVED i k k c None).
  - destruct (get (s_objs s) i) as [([|] & c)|] eqn:Gi; destruct (get (s_objs s) j) as [([|] & d)|] eqn:Gj; injection E as <- _; try exact SAME; apply KEEP; now apply SWAPPED.
  - destruct (get (s_objs s) i) as [([|] & c)|] eqn:G; injection E as <- _; try exact SAME. apply KEEP. now apply (MOVED i Vec Arr c None).
  - destruct (get (s_objs s) i) as [(kd & c)|]; injection E as <- _; exact SAME.
  - assert (R2 : forall y, get (s_refs s ++ [y]) q = Some r) by (intros y; now apply get_app_old).
    destruct (get (s_objs s) i) as [(kd & [c|])|]; [destruct (_ <? _)| |]; injection E as <- _; try exact SAME; (split; [apply R2|exact (proj2 SAME)]).
  - destruct (get (s_refs s) q') as [p|]; [destruct (shown (s_objs s) p); [|discriminate]|]; injection E as <- _; exact SAME.
Qed.

(** A reference that shows a value goes on showing it, whatever is made, pushed, moved,
    swapped, assigned or turned into an array. *)
Theorem C165_stays : forall A sz (before between : list (rop A)) w w' answers answers' q x, 0 < sz -> Forall small (before ++ between) -> Forall adds_only between ->
  rrun sz rworld0 before = Ret (w, answers) -> rstep sz w (RRead q) = Ret (w, RValue x) ->
  rrun sz w between = Ret (w', answers') -> rstep sz w' (RRead q) = Ret (w', RValue x).
Proof.
  intros A sz before between w w' answers answers' q x S F AO E1 RD E2. apply Forall_app in F as (F1 & F2).
  pose proof (rrun_spec sz before S rworld0 swld0 F1 (rrel0 sz)) as P. destruct (srun sz swld0 before) as [(s & r)|]; [|congruence]. destruct P as (w1 & P & R). rewrite E1 in P. injection P as <- <-.
  assert (START : exists p, get (s_refs s) q = Some p /\ holds_at (s_objs s) p x).
  { pose proof (rstep_spec sz w s (RRead q) S Logic.I R) as X. cbn [sstep] in X. destruct (get (s_refs s) q) as [p|].
    - exists p. split; [reflexivity|]. destruct (shown (s_objs s) p) as [y|] eqn:Y; [|congruence]. destruct X as (w2 & X & _). rewrite RD in X. injection X as _ <-. apply (shown_iff sz _ _ _ _ _ (proj1 R)). exact Y.
    - destruct X as (w2 & X & _). rewrite RD in X. discriminate. }
  destruct START as (p & Q & H).
  assert (G : exists s', rrel sz w' s' /\ get (s_refs s') q = Some p /\ holds_at (s_objs s') p x).
  { clear E1 RD. revert w s answers' E2 R Q H. induction between as [|o l IH]; intros w s answers' E2 R Q H.
    - cbn in E2. injection E2 as <- _. exists s. auto.
    - inversion F2 as [|? ? S1 S2]; subst. inversion AO as [|? ? A1 A2]; subst. cbn [rrun] in E2. pose proof (rstep_spec sz w s o S S1 R) as X. destruct (sstep sz s o) as [(s1 & a)|] eqn:Es; [|rewrite X in E2; discriminate].
      destruct X as (w1 & X & R1). rewrite X in E2. cbn [bind fst snd] in E2. destruct (rrun sz w1 l) as [(w2 & r2)| | | |] eqn:E3; try discriminate. cbn [bind fst snd] in E2. injection E2 as <- _.
      destruct (step_keeps sz s s1 o a q p x A1 Es Q H) as (Q1 & H1). exact (IH S2 A2 w1 s1 r2 E3 R1 Q1 H1). }
  destruct G as (s' & R' & Q' & H'). pose proof (rstep_spec sz w' s' (RRead q) S Logic.I R') as X. cbn [sstep] in X. rewrite Q' in X. apply (shown_iff sz _ _ _ _ _ (proj1 R')) in H'. rewrite H' in X. destruct X as (w2 & X & _).
  assert (w2 = w'); [|congruence]. cbn [rstep] in X. destruct (get (rw_refs w') q); [|injection X; congruence]. destruct (at_address w' p0); try discriminate. cbn [bind] in X. injection X. congruence.
Qed.
Print Assumptions C165_stays.

(** After the end of its vector or array, and after the vector was emptied by assigning
    nullptr, a reference cannot be used. *)
Theorem C165_gone : forall A sz (before : list (rop A)) w w1 w2 answers i k o, 0 < sz -> Forall small before ->
  rrun sz rworld0 before = Ret (w, answers) -> rstep sz w (RRef i k) = Ret (w1, RDone) ->
  o = RDrop i \/ o = RNull i -> rstep sz w1 o = Ret (w2, RDone) ->
  rstep sz w2 (RRead (length (rw_refs w))) = UB.
Proof.
  intros A sz before w w1 w2 answers i k o S F E E1 O E2.
  pose proof (rrun_spec sz before S rworld0 swld0 F (rrel0 sz)) as P. destruct (srun sz swld0 before) as [(s & r)|]; [|congruence]. destruct P as (w' & P & R). rewrite E in P. injection P as <- <-.
  pose proof (rstep_spec sz w s (RRef i k) S Logic.I R) as X. cbn [sstep] in X.
  destruct (get (s_objs s) i) as [(kd & [c|])|] eqn:G; [destruct (k <? N.of_nat (length (k_elems c))) eqn:K| |]; destruct X as (w1' & X & R1); rewrite E1 in X; try discriminate. injection X as <-.
  set (s1 := mkS (s_objs s) (s_made s) (s_refs s ++ [Some (k_name c, N.to_nat k)])) in *.
  assert (SM : small o) by (destruct O as [-> | ->]; exact Logic.I).
  pose proof (rstep_spec sz w1 s1 o S SM R1) as Y. pose proof (rel_one _ _ _ _ (proj1 R)) as U.
  assert (Q : exists s2, sstep sz s1 o = Some (s2, RDone) /\ s_refs s2 = s_refs s1 /\ shown (s_objs s2) (k_name c, N.to_nat k) = None).
  { pose proof (get_lt _ _ _ G) as L. destruct O as [-> | ->]; cbn [sstep] in *; change (s_objs s1) with (s_objs s) in *; rewrite G in *.
    - eexists. split; [reflexivity|]. split; [reflexivity|]. cbn [s_objs]. unfold shown. cbn [fst]. rewrite lookup_none; [reflexivity|]. intros j. rewrite get_upd. destruct (Nat.eqb_spec i j) as [<-|D]; cbn [andb].
      + destruct (Nat.ltb_spec i (length (s_objs s))); [discriminate|lia].
      + intros Z. apply D. apply (U i j (k_name c)); [now rewrite G|exact Z].
    - destruct kd; [|destruct Y as (w3 & Y & _); rewrite E2 in Y; discriminate]. destruct Y as (w3 & _ & R3). cbn [change s_objs] in R3. eexists. split; [reflexivity|]. split; [reflexivity|]. cbn [s_objs change]. unfold shown. cbn [fst snd].
      pose proof (lookup_some _ (rel_one _ _ _ _ (proj1 R3)) i Vec (mkContent (k_name c) (k_cap c) []) (get_upd_same _ _ _ _ G)) as LK. cbn [k_elems k_name s_objs] in LK. rewrite LK. now destruct (N.to_nat k). }
  destruct Q as (s2 & Es & Q1 & Q2). rewrite Es in Y. destruct Y as (w3 & Y & R2). rewrite E2 in Y. injection Y as <-.
  pose proof (rstep_spec sz w2 s2 (RRead (length (rw_refs w))) S Logic.I R2) as Z. cbn [sstep] in Z. rewrite Q1 in Z. cbn [s1 s_refs] in Z.
  rewrite (proj2 (proj2 R)) in Z. rewrite get_app, Nat.eqb_refl in Z. rewrite Q2 in Z. exact Z.
Qed.
Print Assumptions C165_gone.

(** A reference survives pushes, a move, an exchange and toArray(), and writes through it. *)
Example C165_ok : exists w, rrun 8 rworld0
    [RMake 24; RPush 0 5; RPush 0 6; RRef 0 1; RMove 0; RPush 1 7; RPush 1 8; RRead 0; RMake 8; RSwap 1 2; RToArray 2; RWrite 0 9; RRead 0; RGet 3 1; RRef 3 3; RDrop 1; RRead 0] =
  Ret (w, [RDone; RDone; RDone; RDone; RDone; RDone; RFull; RValue 6; RDone; RDone; RDone; RDone; RValue 9; RValue 9; RThrew IndexOutOfRange; RDone; RValue 9]).
Proof. eexists. vm_compute. reflexivity. Qed.
(** Popped, the element is gone; a new one in its place is shown. *)
Example C165_case :
  rrun 8 rworld0 [RMake 24; RPush 0 5; RRef 0 0; RPop 0; RRead 0] = UB /\
  (exists w, rrun 8 rworld0 [RMake 24; RPush 0 5; RRef 0 0; RPop 0; RPush 0 7; RRead 0] = Ret (w, [RDone; RDone; RDone; RDone; RDone; RValue 7])) /\
  rrun 8 rworld0 [RMake 24; RPush 0 5; RRef 0 0; RToArray 0; RDrop 1; RRead 0] = UB /\
  Forall small [@RMake N 24; RPush 0 5].
Proof. split; [vm_compute; reflexivity|]. split; [eexists; vm_compute; reflexivity|]. split; [vm_compute; reflexivity|]. repeat constructor. Qed.
