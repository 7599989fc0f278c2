(** C35, C36, C37: accounting of memory managers, ownership of memory resources. *)
From Verif Require Import Base BaseLemmas MemoryModel MemorySpec MemoryProofs.
From Coq Require Import Permutation.

Lemma acc0 : acc_inv st0 [].
Proof. intros i m G. unfold get in G. destruct i; discriminate. Qed.
Lemma no_moves ops : free_of moves_manager ops ->
  (forall m, ~ In (MoveManager m) ops) /\ (forall pre x y post, ops <> pre ++ SwapManagers x y :: post).
Proof.
  unfold free_of. rewrite Forall_forall. intros F. split.
  - intros m I. discriminate (F _ I).
  - intros pre x y post ->. specialize (F (SwapManagers x y)). discriminate F. apply in_app_iff. right. now left.
Qed.

Lemma nodup_app_l {A} (a b : list A) : NoDup (a ++ b) -> NoDup a.
Proof.
  induction a as [|x a IH]; intros D; [constructor|]. inversion D as [|? ? D1 D2]; subst. constructor; [|now apply IH].
  intros X. apply D1, in_app_iff. now left.
Qed.

(** Size is the sum of the blocks given out and not got back, within the capacity. *)
Theorem C35_accounting : forall sysmem ops s log, sysmem <= 2 ^ 64 -> free_of moves_manager ops ->
  run sysmem st0 ops = Ret (s, log) ->
  forall i m, get (s_mgrs s) i = Some m ->
    m_size m = account i log /\ m_size m <= m_cap m /\ mgr_limit m = m_cap m - m_size m.
Proof.
  intros sysmem ops s log Y F R i m G. destruct (no_moves _ F) as (F1 & F2).
  assert (A : acc_inv s ([] ++ log)).
  { eapply run_acc; [exact Y|exact inv0|exact acc0|exact F1| |exact R]. intros pre x y post s1 ev1 E _. now apply F2 in E. }
  destruct (A i m G) as (_ & S1 & S2 & S3). split; [exact S1|]. split; [exact S2|]. now apply limit_ok.
Qed.
Print Assumptions C35_accounting.
(** A request is granted iff it fits in what is left, the manager is not locked and the
    system has the memory; a refused request changes nothing; a granted one adds its size
    to the account and gives out a block never given out before. *)
Theorem C35_allocate : forall sysmem ops s log, sysmem <= 2 ^ 64 -> free_of moves_manager ops ->
  run sysmem st0 ops = Ret (s, log) ->
  forall i m n sys, get (s_mgrs s) i = Some m ->
  exists s' ev a, step sysmem s (Allocate i n sys) = Ret (s', ev, a) /\
    (a = Done <-> account i log + n <= m_cap m /\ m_locked m = false /\ (sys = true \/ n = 0)) /\
    (a <> Done -> s' = s /\ ev = [] /\
       a = Refused (if m_cap m <? account i log + n then E_NOMEM else if m_locked m then E_PERM else E_NOMEM)) /\
    (a = Done -> account i (log ++ ev) = account i log + n /\
       (exists m', get (s_mgrs s') i = Some m' /\ m_size m' = m_size m + n /\ m_cap m' = m_cap m) /\
       exists b, get (s_ress s') (length (s_ress s)) = Some (mkRes b n (Some i)) /\
         match b with Some b => ~ In b (given log) /\ ev = [EvMalloc i b n] | None => n = 0 /\ ev = [] end).
Proof.
  intros sysmem ops s log Y F R i m n sys G. destruct (C35_accounting sysmem ops s log Y F R i m G) as (A & B & C).
  pose proof (run_own sysmem ops st0 [] s log inv0 R) as I. cbn [app] in I.
  assert (CAP : m_cap m < 2 ^ 64).
  { destruct (no_moves _ F) as (F1 & F2). assert (Q : acc_inv s ([] ++ log)).
    { eapply run_acc; [exact Y|exact inv0|exact acc0|exact F1| |exact R]. intros pre x y post s1 ev1 E _. now apply F2 in E. }
    apply (Q i m G). }
  cbn [step]. rewrite G. unfold mgr_allocate. rewrite C. pose proof (get_some _ _ _ G) as L.
  destruct (N.ltb_spec (m_cap m - m_size m) n) as [H|H].
  { eexists _, _, _. split; [reflexivity|]. split; [split; [discriminate|lia]|]. split; [|discriminate]. intros _. repeat split.
    destruct (N.ltb_spec (m_cap m) (account i log + n)); [reflexivity|lia]. }
  destruct (m_locked m) eqn:K.
  { eexists _, _, _. split; [reflexivity|]. split; [split; [discriminate|intros (_ & X & _); discriminate]|]. split; [|discriminate]. intros _. repeat split.
    destruct (N.ltb_spec (m_cap m) (account i log + n)); [lia|reflexivity]. }
  assert (U : u64 (m_size m + n) = m_size m + n) by (unfold u64; apply N.mod_small; lia). rewrite U.
  destruct sys; cbn [negb andb].
  - eexists _, _, _. split; [reflexivity|]. split; [split; [intros _; split; [lia|auto]|reflexivity]|]. split; [intros X; now contradiction X|]. intros _.
    split; [unfold account; rewrite outstanding_app; cbn [fold_left after_event bytes_of]; rewrite Nat.eqb_refl; apply N.add_comm|].
    split; [eexists; cbn [set_mgr s_mgrs]; rewrite (get_upd_same _ _ _ _ G); split; [reflexivity|split; reflexivity]|].
    exists (Some (s_next s)). cbn [set_mgr s_ress]. rewrite get_app, Nat.eqb_refl. split; [reflexivity|]. split; [|reflexivity].
    intros X. pose proof (i_fresh _ _ I) as Z. rewrite Forall_forall in Z. apply Z in X. lia.
  - destruct (N.eqb_spec n 0) as [->|Nz]; cbn [negb].
    + eexists _, _, _. split; [reflexivity|]. split; [split; [intros _; split; [lia|auto]|reflexivity]|]. split; [intros X; now contradiction X|]. intros _.
      rewrite account_nil. split; [lia|]. split; [eexists; cbn [add_res set_mgr s_mgrs]; rewrite (get_upd_same _ _ _ _ G); split; [reflexivity|split; reflexivity]|].
      exists None. cbn [add_res set_mgr s_ress]. rewrite get_app, Nat.eqb_refl. auto.
    + eexists _, _, _. split; [reflexivity|]. split; [split; [discriminate|intros (_ & _ & [X|X]); [discriminate|lia]]|]. split; [|discriminate]. intros _. repeat split.
      destruct (N.ltb_spec (m_cap m) (account i log + n)); [lia|reflexivity].
Qed.
Print Assumptions C35_allocate.
(** A new manager is unlocked and empty; lock and unlock act on the manager they name and
    on nothing else, and nothing else changes whether a manager is locked or its capacity. *)
Theorem C35_lock : forall sysmem s o s' ev a i, moves_manager o = false -> step sysmem s o = Ret (s', ev, a) ->
  match get (s_mgrs s) i, get (s_mgrs s') i with
  | Some m, Some m' => m_cap m' = m_cap m /\
      m_locked m' = (match o with Lock j => Nat.eqb j i || m_locked m | Unlock j => negb (Nat.eqb j i) && m_locked m | _ => m_locked m end)%bool
  | Some m, None => o = DropManager i
  | None, Some m' => m_locked m' = false /\ m_size m' = 0 /\ o = NewManager (m_cap m')
  | None, None => True
  end.
Proof.
  intros sysmem s o s' ev a i M E.
  assert (SAME : match get (s_mgrs s) i, get (s_mgrs s) i with
    | Some m, Some m' => m_cap m' = m_cap m /\ m_locked m' = m_locked m | Some m, None => o = DropManager i
    | None, Some m' => m_locked m' = false /\ m_size m' = 0 /\ o = NewManager (m_cap m') | None, None => True end)
    by (destruct (get (s_mgrs s) i); auto).
  destruct o; cbn [step moves_manager] in *; try discriminate.
  - destruct (cap <? sysmem); injection E as <- <- <-; [|exact SAME]. cbn [s_mgrs]. rewrite get_app.
    destruct (Nat.eqb_spec i (length (s_mgrs s))) as [->|Ni]; [|exact SAME]. unfold get at 1. rewrite nth_overflow by lia. auto.
  - destruct (get (s_mgrs s) m) as [x|] eqn:G; [|injection E as <- <- <-; exact SAME]. injection E as E. unfold mgr_allocate in E.
    destruct (mgr_limit x <? n); [injection E as <- <- <-; exact SAME|]. destruct (m_locked x) eqn:K; [injection E as <- <- <-; exact SAME|].
    destruct (negb sys && negb (n =? 0))%bool; [injection E as <- <- <-; exact SAME|].
    assert (Q : s_mgrs s' = upd (s_mgrs s) m (Some (mkMgr (m_cap x) (u64 (m_size x + n)) false (m_self x)))) by (destruct sys; injection E as <- <- <-; reflexivity).
    rewrite Q, get_upd. destruct (Nat.eqb_spec m i) as [->|Ni]; cbn [andb]; [|exact SAME]. destruct Nat.ltb; [|exact SAME]. rewrite G. auto.
  - destruct (get (s_mgrs s) m) as [x|] eqn:G; injection E as <- <- <-.
    + cbn [set_mgr s_mgrs]. rewrite get_upd. destruct (Nat.eqb_spec m i) as [->|Ni]; cbn [andb orb].
      * pose proof (get_some _ _ _ G) as L. destruct (Nat.ltb_spec i (length (s_mgrs s))); [|lia]. rewrite G. auto.
      * destruct (get (s_mgrs s) i); auto.
    + destruct (Nat.eqb_spec m i) as [->|Ni]; cbn [orb]; [rewrite G; exact Logic.I|exact SAME].
  - destruct (get (s_mgrs s) m) as [x|] eqn:G; injection E as <- <- <-.
    + cbn [set_mgr s_mgrs]. rewrite get_upd. destruct (Nat.eqb_spec m i) as [->|Ni]; cbn [andb negb].
      * pose proof (get_some _ _ _ G) as L. destruct (Nat.ltb_spec i (length (s_mgrs s))); [|lia]. rewrite G. auto.
      * destruct (get (s_mgrs s) i); auto.
    + destruct (Nat.eqb_spec m i) as [->|Ni]; cbn [negb andb]; [rewrite G; exact Logic.I|exact SAME].
  - injection E as <- <- <-. cbn [s_mgrs]. rewrite get_upd. destruct (Nat.eqb_spec m i) as [->|Ni]; cbn [andb]; [|exact SAME].
    destruct Nat.ltb; [destruct (get (s_mgrs s) i); auto|exact SAME].
  - injection E as <- <- <-. exact SAME.
  - destruct (get (s_ress s) r); injection E as <- <- <-; exact SAME.
  - destruct (get (s_ress s) r); injection E as <- <- <-; exact SAME.
  - destruct (get (s_ress s) a0); [|injection E as <- <- <-; exact SAME]. destruct (get (s_ress s) b); injection E as <- <- <-; exact SAME.
  - destruct (get (s_ress s) r) as [x|] eqn:G; [|injection E as <- <- <-; exact SAME]. destruct (r_disp x) as [d|]; [|injection E as <- <- <-; exact SAME].
    unfold mgr_dispose in E. cbn [s_mgrs] in E. destruct (get (s_mgrs s) d) as [md|] eqn:Gd; [|discriminate].
    assert (X : forall s1 ev1, sys_free (mkSt (s_mgrs s) (upd (s_ress s) r None) (s_next s) (h_live s)) (r_addr x) = Ret (s1, ev1) -> s_mgrs s1 = s_mgrs s).
    { intros s1 ev1 Q. unfold sys_free in Q. destruct (r_addr x); [|injection Q as <- <-; reflexivity]. destruct in_dec; [|discriminate]. injection Q as <- <-. reflexivity. }
    destruct (sys_free _ _) as [[s1 ev1]| | | |]; try discriminate. specialize (X s1 ev1 eq_refl). cbn [bind] in E.
    destruct (get (s_mgrs s) (m_self md)) as [mm|] eqn:Gm; [|discriminate]. cbn [bind] in E. injection E as <- <- <-. cbn [set_mgr s_mgrs]. rewrite X, get_upd.
    destruct (Nat.eqb_spec (m_self md) i) as [<-|Ni]; cbn [andb]; [|exact SAME]. destruct Nat.ltb; [|exact SAME]. rewrite Gm. auto.
Qed.
Print Assumptions C35_lock.
Example C35_ok : exists s log m, run (2 ^ 30) st0
    [NewManager 100; Allocate 0 60 true; Allocate 0 60 true; Allocate 0 40 true; Lock 0; DropResource 0; Allocate 0 5 true] = Ret (s, log) /\
  free_of moves_manager [NewManager 100; Allocate 0 60 true; Allocate 0 60 true; Allocate 0 40 true; Lock 0; DropResource 0; Allocate 0 5 true] /\
  get (s_mgrs s) 0 = Some m /\ m_size m = 40 /\ account 0 log = 40 /\ m_locked m = true /\ log = [EvMalloc 0 0 60; EvMalloc 0 1 40; EvFree 0].
Proof.
  eexists _, _, _. split; [vm_compute; reflexivity|]. split; [repeat constructor|]. repeat (split; [vm_compute; reflexivity|]). vm_compute; reflexivity.
Qed.

(** C36: accounting survives swaps (and move assignments) of managers none of which has
    memory outstanding. *)
Theorem C36_idle_swap_partial : forall sysmem ops s log, sysmem <= 2 ^ 64 -> (forall m, ~ In (MoveManager m) ops) ->
  (forall pre x y post s1 log1, ops = pre ++ SwapManagers x y :: post -> run sysmem st0 pre = Ret (s1, log1) ->
     account x log1 = 0 /\ account y log1 = 0) ->
  run sysmem st0 ops = Ret (s, log) ->
  forall i m, get (s_mgrs s) i = Some m -> m_size m = account i log /\ m_size m <= m_cap m.
Proof.
  intros sysmem ops s log Y F W R i m G.
  assert (A : acc_inv s ([] ++ log)).
  { eapply run_acc; [exact Y|exact inv0|exact acc0|exact F| |exact R]. intros pre x y post s1 ev1 E R1. cbn [app].
    destruct (W pre x y post s1 ev1 E R1) as (-> & ->). reflexivity. }
  destruct (A i m G) as (_ & S1 & S2 & _). auto.
Qed.
Print Assumptions C36_idle_swap_partial.
Example C36_idle_ok : let ops := [NewManager 10; NewManager 20; Allocate 0 4 true; DropResource 0; SwapManagers 0 1; Allocate 0 15 true] in
  (forall pre x y post s1 log1, ops = pre ++ SwapManagers x y :: post -> run 100 st0 pre = Ret (s1, log1) -> account x log1 = 0 /\ account y log1 = 0) /\
  exists s log, run 100 st0 ops = Ret (s, log) /\ account 0 log = 15.
Proof.
  split.
  - intros pre x y post s1 log1 E. do 4 (destruct pre as [|? pre]; [discriminate E|injection E as <- E]).
    destruct pre as [|? pre].
    + injection E as <- <- <-. intros R. vm_compute in R. injection R as <- <-. vm_compute. auto.
    + do 2 (injection E as <- E; destruct pre as [|? pre]; [discriminate E|]). discriminate E.
  - eexists _, _. split; vm_compute; reflexivity.
Qed.
(** It does not survive a swap with memory outstanding: the release is credited to the
    wrong manager, whose size wraps, while the other one never gets its memory back. *)
Theorem C36_swap_refuted : forall sysmem ca cb n, ca < sysmem -> cb < sysmem -> sysmem <= 2 ^ 64 -> 0 < n <= ca ->
  exists s log x y, run sysmem st0 [NewManager ca; NewManager cb; Allocate 0 n true; SwapManagers 0 1; DropResource 0] = Ret (s, log) /\
    get (s_mgrs s) 0 = Some x /\ get (s_mgrs s) 1 = Some y /\ account 0 log = 0 /\ account 1 log = 0 /\
    m_size x = 2 ^ 64 - n /\ m_size y = n.
Proof.
  intros sysmem ca cb n Ha Hb Y Hn. cbn [run step bind]. destruct (N.ltb_spec ca sysmem); [|lia]. destruct (N.ltb_spec cb sysmem); [|lia].
  cbn [s_mgrs s_ress s_next h_live st0 app length bind get nth]. unfold mgr_allocate. rewrite limit_ok by (cbn; lia). cbn [m_cap m_size m_locked m_self].
  destruct (N.ltb_spec (ca - 0) n); [lia|]. cbn [negb andb]. unfold u64. rewrite N.mod_small by lia.
  eexists _, _, _, _. split; [reflexivity|]. split; [reflexivity|]. split; [reflexivity|]. split; [reflexivity|]. split; [reflexivity|]. cbn [m_size r_len].
  split; [|reflexivity]. unfold sub64, sub_wrap. symmetry. apply N.mod_unique with 0; lia.
Qed.
Print Assumptions C36_swap_refuted.
(** A manager constructed by a move never gets its memory back, even when nothing was
    outstanding at the time of the move. *)
Theorem C36_move_refuted : forall sysmem c n, c < sysmem -> sysmem <= 2 ^ 64 -> 0 < n <= c ->
  exists s log x y, run sysmem st0 [NewManager c; MoveManager 0; Allocate 1 n true; DropResource 0] = Ret (s, log) /\
    get (s_mgrs s) 0 = Some x /\ get (s_mgrs s) 1 = Some y /\ account 0 log = 0 /\ account 1 log = 0 /\
    m_size x = 2 ^ 64 - n /\ m_size y = n.
Proof.
  intros sysmem c n Ha Y Hn. cbn [run step bind]. destruct (N.ltb_spec c sysmem); [|lia].
  cbn [s_mgrs s_ress s_next h_live st0 app length bind get nth]. unfold mgr_allocate. rewrite limit_ok by (cbn; lia). cbn [m_cap m_size m_locked m_self].
  destruct (N.ltb_spec (c - 0) n); [lia|]. cbn [negb andb]. unfold u64. rewrite N.mod_small by lia.
  eexists _, _, _, _. split; [reflexivity|]. split; [reflexivity|]. split; [reflexivity|]. split; [reflexivity|]. split; [reflexivity|]. cbn [m_size r_len].
  split; [|reflexivity]. unfold sub64, sub_wrap. symmetry. apply N.mod_unique with 0; lia.
Qed.
Print Assumptions C36_move_refuted.

(** C37: whatever the history (managers may even be swapped or moved, as long as they stay
    alive), no operation is undefined, no block is given back twice or without having been
    given out, a block owned by a living resource has not been given back and has no other
    owner, and once every resource is gone every block has been given back. *)
Theorem C37_exactly_once : forall sysmem ops, free_of drops_manager ops ->
  exists s log, run sysmem st0 ops = Ret (s, log) /\
    NoDup (given log) /\ NoDup (returned log) /\ incl (returned log) (given log) /\
    (forall i r b d, get (s_ress s) i = Some r -> r_addr r = Some b -> r_disp r = Some d ->
       In b (given log) /\ ~ In b (returned log) /\
       forall j r', get (s_ress s) j = Some r' -> r_addr r' = Some b -> r_disp r' <> None -> j = i) /\
    ((forall i, get (s_ress s) i = None) -> Permutation (returned log) (given log)).
Proof.
  intros sysmem ops F. destruct (run_total sysmem ops st0 [] inv0) as (s & log & R & A); [intros i H; cbn in H; lia|exact F|].
  exists s, log. split; [exact R|]. pose proof (run_own sysmem ops st0 [] s log inv0 R) as I. cbn [app] in I.
  pose proof (i_given _ _ I) as G. pose proof (i_hist _ _ I) as H.
  assert (ND : NoDup (returned log ++ map addr_of (outstanding log))) by (eapply Permutation_NoDup; [symmetry; exact H|exact G]).
  split; [exact G|]. split; [now apply nodup_app_l in ND|]. split; [intros b B; eapply Permutation_in; [exact H|]; apply in_app_iff; now left|]. split.
  - intros i r b d G1 G2 G3.
    assert (ON : In (d, b, r_len r) (owned s)).
    { destruct (owned_upd _ _ _ None G1) as (m & P & _). unfold owned. rewrite P. destruct r as [? ? ?]; cbn in G2, G3; subst. now left. }
    assert (IB : In b (map addr_of (outstanding log))).
    { change b with (addr_of (d, b, r_len r)). apply in_map. eapply Permutation_in; [exact (i_owned _ _ I)|exact ON]. }
    split; [eapply Permutation_in; [exact H|]; apply in_app_iff; now right|]. split.
    + intros X. clear - ND IB X. induction (returned log) as [|y l IH]; [contradiction|]. cbn [app] in ND. inversion ND as [|? ? N1 N2]; subst.
      destruct X as [->|X]; [apply N1, in_app_iff; now right|now apply IH].
    + intros j r' J1 J2 J3. destruct (r_disp r') as [d'|] eqn:D'; [|congruence]. clear J3.
      assert (N2 : NoDup (map addr_of (owned s))) by (eapply Permutation_NoDup; [symmetry; apply Permutation_map; exact (i_owned _ _ I)|exact (i_nodup _ _ I)]).
      destruct (Nat.eq_dec j i) as [|Nj]; [assumption|exfalso]. unfold owned in N2.
      destruct (owned_upd _ _ _ None G1) as (m & P & Q). cbn [owns app] in Q.
      destruct (owned_upd (upd (s_ress s) i None) j r' None) as (m2 & P2 & _); [now rewrite get_upd_other by congruence|].
      assert (OR : owns (Some r) = [(d, b, r_len r)]) by (destruct r as [? ? ?]; cbn in *; subst; reflexivity).
      assert (OR' : owns (Some r') = [(d', b, r_len r')]) by (destruct r' as [? ? ?]; cbn in *; subst; reflexivity).
      rewrite Q in P2. rewrite P2 in P. rewrite OR, OR' in P. eapply Permutation_NoDup in N2; [|apply Permutation_map; exact P]. cbn in N2.
      inversion N2 as [|? ? X1 X2]; subst. apply X1. now left.
  - intros D. assert (O : outstanding log = []).
    { apply Permutation_nil. transitivity (owned s); [|exact (i_owned _ _ I)]. unfold owned.
      assert (E : flat_map owns (s_ress s) = []); [|rewrite E; constructor].
      assert (K : forall l, (forall i, get l i = None) -> flat_map owns l = []).
      { induction l as [|x l IH]; intros Dl; [reflexivity|]. pose proof (Dl O) as D0. cbn in D0. subst x. cbn [flat_map owns app]. apply IH. intros i. apply (Dl (S i)). }
      now apply K. }
    rewrite O in H. cbn [map] in H. now rewrite app_nil_r in H.
Qed.
Print Assumptions C37_exactly_once.
(** As long as no non-owning copy of a view is made, no resource, moved-from or not,
    refers to memory that was given back. *)
Theorem C37_no_dangling : forall sysmem ops s log, free_of copies_view ops -> run sysmem st0 ops = Ret (s, log) ->
  forall i r b, get (s_ress s) i = Some r -> r_addr r = Some b -> In b (given log) /\ ~ In b (returned log).
Proof.
  intros sysmem ops s log F R i r b G1 G2.
  assert (A : no_alias s) by (eapply run_alias; [|exact F|exact R]; intros j r' G; unfold get in G; destruct j; discriminate).
  destruct (r_disp r) as [d|] eqn:D; [|rewrite (A i r G1 D) in G2; discriminate].
  pose proof (run_own sysmem ops st0 [] s log inv0 R) as I. cbn [app] in I. pose proof (i_hist _ _ I) as H.
  assert (ND : NoDup (returned log ++ map addr_of (outstanding log))) by (eapply Permutation_NoDup; [symmetry; exact H|exact (i_given _ _ I)]).
  assert (IB : In b (map addr_of (outstanding log))).
  { change b with (addr_of (d, b, r_len r)). apply in_map. eapply Permutation_in; [exact (i_owned _ _ I)|].
    destruct (owned_upd _ _ _ None G1) as (m & P & _). unfold owned. rewrite P. destruct r as [? ? ?]; cbn in G2, D; subst. now left. }
  split; [eapply Permutation_in; [exact H|]; apply in_app_iff; now right|].
  intros X. clear - ND IB X. induction (returned log) as [|y l IH]; [contradiction|]. cbn [app] in ND. inversion ND as [|? ? N1 N2]; subst.
  destruct X as [->|X]; [apply N1, in_app_iff; now right|now apply IH].
Qed.
Print Assumptions C37_no_dangling.
(** What a move and a swap do to the objects. *)
Theorem C37_transfer : forall sysmem s a b ra rb, get (s_ress s) a = Some ra -> get (s_ress s) b = Some rb ->
  (exists s', step sysmem s (MoveResource a) = Ret (s', [], Done) /\
     get (s_ress s') (length (s_ress s)) = Some ra /\ get (s_ress s') a = Some (mkRes None 0 None)) /\
  (exists s', step sysmem s (SwapResources a b) = Ret (s', [], Done) /\
     get (s_ress s') a = Some rb /\ get (s_ress s') b = Some ra).
Proof.
  intros sysmem s a b ra rb Ga Gb. cbn [step]. rewrite Ga, Gb. pose proof (get_some _ _ _ Ga) as La. split; eexists; (split; [reflexivity|]).
  - cbn [add_res set_res s_ress]. rewrite !get_app, length_upd, Nat.eqb_refl. split; [reflexivity|]. destruct (Nat.eqb_spec a (length (s_ress s))); [lia|].
    eapply get_upd_same; eauto.
  - cbn [set_res s_ress]. destruct (Nat.eq_dec a b) as [<-|Nab].
    + assert (ra = rb) as <- by congruence. split; eapply get_upd_same; eapply get_upd_same; eauto.
    + split; [rewrite get_upd_other by congruence; eapply get_upd_same; eauto|]. eapply get_upd_same. rewrite get_upd_other by congruence. exact Gb.
Qed.
Print Assumptions C37_transfer.
(** The documented precondition is needed: a manager must outlive its blocks. *)
Theorem C37_manager_must_outlive : run 100 st0 [NewManager 10; Allocate 0 4 true; DropManager 0; DropResource 0] = UB.
Proof. vm_compute; reflexivity. Qed.
Print Assumptions C37_manager_must_outlive.
Example C37_ok : exists s log, run 100 st0
   [NewManager 50; Allocate 0 7 true; Allocate 0 8 true; MoveResource 0; SwapResources 0 1; MoveManager 0; SwapResources 2 2;
    DropResource 1; DropResource 0; DropResource 2] = Ret (s, log) /\
  (forall i, get (s_ress s) i = None) /\ log = [EvMalloc 0 0 7; EvMalloc 0 1 8; EvFree 1; EvFree 0].
Proof.
  eexists _, _. split; [vm_compute; reflexivity|]. split; [|vm_compute; reflexivity]. intros [|[|[|i]]]; try reflexivity. cbn. destruct i; reflexivity.
Qed.
