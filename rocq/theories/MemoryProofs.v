From Verif Require Import Base BaseLemmas MemoryModel MemorySpec.
From Coq Require Import Permutation.

Local Arguments get : simpl never.
(** Lists of objects. *)
Lemma get_upd {A} (l : list (option A)) i j x : get (upd l i x) j = if andb (Nat.eqb i j) (Nat.ltb i (length l)) then x else get l j.
Proof.
  unfold get. revert i j; induction l as [|y l IH]; intros i j; cbn [upd length].
  - destruct (Nat.eqb_spec i j); cbn [andb]; [|reflexivity]. destruct (Nat.ltb_spec i 0); [lia|reflexivity].
  - destruct i as [|i], j as [|j]; cbn [nth]; try reflexivity. rewrite IH. reflexivity.
Qed.
Lemma get_some {A} (l : list (option A)) i x : get l i = Some x -> (i < length l)%nat.
Proof. unfold get. intros H. destruct (Nat.lt_ge_cases i (length l)); [assumption|]. rewrite nth_overflow in H by assumption. discriminate. Qed.
Lemma get_upd_same {A} (l : list (option A)) i x y : get l i = Some y -> get (upd l i x) i = x.
Proof. intros H. rewrite get_upd, Nat.eqb_refl. apply get_some in H. destruct (Nat.ltb_spec i (length l)); [reflexivity|lia]. Qed.
Lemma get_upd_other {A} (l : list (option A)) i j x : i <> j -> get (upd l i x) j = get l j.
Proof. intros H. rewrite get_upd. destruct (Nat.eqb_spec i j); [contradiction|reflexivity]. Qed.
Lemma length_upd {A} (l : list A) i x : length (upd l i x) = length l.
Proof. revert i; induction l as [|y l IH]; intros [|i]; cbn; auto. Qed.
Lemma get_app {A} (l : list (option A)) x i : get (l ++ [x]) i = if Nat.eqb i (length l) then x else get l i.
Proof.
  unfold get. destruct (Nat.eqb_spec i (length l)) as [->|H].
  - rewrite app_nth2, Nat.sub_diag by lia. reflexivity.
  - destruct (Nat.lt_ge_cases i (length l)); [now rewrite app_nth1|]. rewrite !nth_overflow; [reflexivity|lia|rewrite app_length; cbn; lia].
Qed.

(** Blocks owned by living resources. *)
Definition owns (r : option res) : list (nat * nat * N) :=
  match r with
  | Some (mkRes (Some a) n (Some d)) => [(d, a, n)]
  | _ => []
  end.
Definition owned (s : st) : list (nat * nat * N) := flat_map owns (s_ress s).

Lemma owned_upd (l : list (option res)) i r x : get l i = Some r ->
  exists m, Permutation (flat_map owns l) (owns (Some r) ++ m) /\ Permutation (flat_map owns (upd l i x)) (owns x ++ m).
Proof.
  unfold get. revert i; induction l as [|y l IH]; intros i H; [destruct i; discriminate|]. destruct i as [|i]; cbn [nth] in H.
  - subst y. exists (flat_map owns l). split; reflexivity.
  - destruct (IH i H) as (m & P & Q). exists (owns y ++ m). cbn [flat_map upd]. split.
    + rewrite P. apply Permutation_app_swap_app.
    + rewrite Q. apply Permutation_app_swap_app.
Qed.
Lemma owned_app l x : flat_map owns (l ++ [x]) = flat_map owns l ++ owns x.
Proof. rewrite flat_map_app. cbn [flat_map]. now rewrite app_nil_r. Qed.

Definition addr_of (b : nat * nat * N) : nat := snd (fst b).

Lemma outstanding_app l1 l2 : outstanding (l1 ++ l2) = fold_left after_event l2 (outstanding l1).
Proof. apply fold_left_app. Qed.
Lemma filter_other a bs : ~ In a (map addr_of bs) -> filter (fun b => negb (Nat.eqb (snd (fst b)) a)) bs = bs.
Proof.
  induction bs as [|b bs IH]; intros H; [reflexivity|]. cbn [filter map] in *. unfold addr_of in H at 1.
  destruct (Nat.eqb_spec (snd (fst b)) a) as [E|E]; [exfalso; apply H; now left|]. cbn [negb]. f_equal. apply IH. intros I; apply H; now right.
Qed.
Lemma filter_one d a n bs : NoDup (map addr_of bs) -> In (d, a, n) bs ->
  Permutation bs ((d, a, n) :: filter (fun b => negb (Nat.eqb (snd (fst b)) a)) bs).
Proof.
  induction bs as [|b bs IH]; intros D I; [contradiction|]. cbn [map] in D. inversion D as [|? ? D1 D2]; subst. destruct I as [->|I]; cbn [filter].
  - cbn [fst snd addr_of] in *. rewrite Nat.eqb_refl. cbn [negb]. now rewrite filter_other.
  - destruct (Nat.eqb_spec (snd (fst b)) a) as [E|E].
    + exfalso. apply D1. unfold addr_of at 1. rewrite E. change a with (addr_of (d, a, n)). now apply in_map.
    + cbn [negb]. rewrite (IH D2 I) at 1. apply perm_swap.
Qed.
Lemma bytes_perm m a b : Permutation a b -> bytes_of m a = bytes_of m b.
Proof.
  intros P; induction P as [|[[x y] z] l l' P IH|[[x y] z] [[x' y'] z'] l|]; cbn [bytes_of]; lia.
Qed.
Lemma filter_perm a b p : Permutation a b -> Permutation (filter (p : nat * nat * N -> bool) a) (filter p b).
Proof.
  intros P; induction P; cbn [filter]; try destruct (p x); try destruct (p y); eauto using Permutation.
Qed.

(** The invariant of ownership. *)
Record own_inv (s : st) (log : list event) : Prop := mkInv {
  i_owned : Permutation (owned s) (outstanding log);
  i_nodup : NoDup (map addr_of (outstanding log));
  i_fresh : Forall (fun a => (a < s_next s)%nat) (given log);
  i_live : Permutation (h_live s) (map addr_of (outstanding log));
  i_null : forall i r d, get (s_ress s) i = Some r -> r_disp r = Some d -> r_addr r = None -> r_len r = 0;
  i_mgr : forall i r d, get (s_ress s) i = Some r -> r_disp r = Some d -> (d < length (s_mgrs s))%nat;
  i_hist : Permutation (returned log ++ map addr_of (outstanding log)) (given log);
  i_given : NoDup (given log);
  i_self : forall i m, get (s_mgrs s) i = Some m -> (m_self m < length (s_mgrs s))%nat
}.

(** No manager's life has ended. *)
Definition all_alive (s : st) : Prop := forall i, (i < length (s_mgrs s))%nat -> exists m, get (s_mgrs s) i = Some m.

Lemma inv0 : own_inv st0 [].
Proof. constructor; cbn; try constructor; intros; unfold get in *; destruct i; discriminate. Qed.

Lemma own_mgrs s log ms : own_inv s log -> length ms = length (s_mgrs s) \/ (length (s_mgrs s) <= length ms)%nat ->
  (forall i m, get ms i = Some m -> (m_self m < length ms)%nat) ->
  own_inv (mkSt ms (s_ress s) (s_next s) (h_live s)) log.
Proof.
  intros I L S. destruct I. constructor; cbn; try assumption. intros i r d H1 H2. specialize (i_mgr0 i r d H1 H2). lia.
Qed.
Lemma all_alive_upd s i m : all_alive s -> all_alive (set_mgr s i m).
Proof.
  intros A j H. unfold set_mgr in *. cbn in *. rewrite length_upd in H. rewrite get_upd. destruct andb; [eauto|]. now apply A.
Qed.
Lemma all_alive_res s l n h : all_alive s -> all_alive (mkSt (s_mgrs s) l n h).
Proof. intros A. exact A. Qed.

Lemma set_mgr_inv s log i m : own_inv s log -> (m_self m < length (s_mgrs s))%nat -> own_inv (set_mgr s i m) log.
Proof.
  intros I H. apply own_mgrs; [exact I|left; apply length_upd|]. intros j m' G. rewrite length_upd. rewrite get_upd in G.
  destruct andb; [congruence|]. eapply i_self; eauto.
Qed.

(** Resources rearranged without a change of what is owned. *)
Lemma own_ress s log l : own_inv s log -> Permutation (flat_map owns l) (owned s) ->
  (forall i r d, get l i = Some r -> r_disp r = Some d -> (r_addr r = None -> r_len r = 0) /\ (d < length (s_mgrs s))%nat) ->
  own_inv (mkSt (s_mgrs s) l (s_next s) (h_live s)) log.
Proof.
  intros I P H. destruct I. constructor; cbn; try assumption.
  - unfold owned in *. cbn. etransitivity; eassumption.
  - intros i r d G1 G2. apply (H i r d G1 G2).
  - intros i r d G1 G2. apply (H i r d G1 G2).
Qed.

Lemma step_own sysmem s o log s' ev a : own_inv s log -> step sysmem s o = Ret (s', ev, a) -> own_inv s' (log ++ ev).
Proof.
  intros I E. destruct o; cbn [step] in E.
  - (* NewManager *) destruct (cap <? sysmem); injection E as <- <- <-; rewrite app_nil_r; [|exact I].
    apply own_mgrs; [exact I|right; rewrite app_length; cbn; lia|]. intros i m G. rewrite app_length; cbn [length]. rewrite get_app in G.
    destruct (Nat.eqb_spec i (length (s_mgrs s))); [injection G as <-; cbn; lia|]. pose proof (i_self _ _ I _ _ G). lia.
  - (* Allocate *) destruct (get (s_mgrs s) m) as [x|] eqn:G; [|injection E as <- <- <-; now rewrite app_nil_r].
    injection E as E. unfold mgr_allocate in E. destruct (mgr_limit x <? n); [injection E as <- <- <-; now rewrite app_nil_r|].
    destruct (m_locked x); [injection E as <- <- <-; now rewrite app_nil_r|].
    destruct (negb sys && negb (n =? 0)) eqn:C; [injection E as <- <- <-; now rewrite app_nil_r|].
    assert (I1 : own_inv (set_mgr s m (mkMgr (m_cap x) (u64 (m_size x + n)) false (m_self x))) log)
      by (apply set_mgr_inv; [exact I|cbn; eapply i_self; eauto]).
    pose proof (get_some _ _ _ G) as Lm. set (s1 := set_mgr _ _ _) in *.
    assert (L1 : length (s_mgrs s1) = length (s_mgrs s)) by apply length_upd.
    destruct sys; injection E as <- <- <-.
    + assert (F : ~ In (s_next s) (given log)).
      { intros X. pose proof (i_fresh _ _ I) as Y. rewrite Forall_forall in Y. apply Y in X. lia. }
      destruct I1. constructor; cbn [s_mgrs s_ress s_next h_live] in *.
      * unfold owned in *. cbn [s_ress]. rewrite owned_app, outstanding_app. cbn [owns fold_left after_event]. rewrite <- i_owned0. symmetry. apply Permutation_cons_append.
      * rewrite outstanding_app. cbn [fold_left after_event map addr_of snd fst]. constructor; [|exact i_nodup0].
        intros X. apply F. eapply Permutation_in; [exact i_hist0|]. apply in_app_iff. now right.
      * unfold given. rewrite flat_map_app. apply Forall_app. split; [|constructor; [lia|constructor]].
        eapply Forall_impl; [|exact i_fresh0]. cbn. intros; lia.
      * rewrite outstanding_app. cbn [fold_left after_event map addr_of snd fst]. now constructor.
      * intros i r d H1 H2 H3. rewrite get_app in H1. destruct Nat.eqb; [injection H1 as <-; discriminate|exact (i_null0 i r d H1 H2 H3)].
      * intros i r d H1 H2. rewrite get_app in H1. destruct Nat.eqb; [injection H1 as <-; injection H2 as <-; rewrite ?length_upd; lia|exact (i_mgr0 i r d H1 H2)].
      * unfold given, returned. rewrite !flat_map_app, outstanding_app. cbn [flat_map app fold_left after_event map addr_of snd fst]. rewrite app_nil_r.
        rewrite <- Permutation_middle. rewrite <- Permutation_cons_append. constructor. exact i_hist0.
      * unfold given. rewrite flat_map_app. cbn [flat_map app]. eapply Permutation_NoDup; [apply Permutation_cons_append|]. now constructor.
      * exact i_self0.
    + rewrite app_nil_r. apply own_ress; [exact I1| |].
      * rewrite owned_app. cbn [owns]. now rewrite app_nil_r.
      * intros i r d H1 H2. rewrite get_app in H1. destruct Nat.eqb.
        -- injection H1 as <-. injection H2 as <-. cbn [r_len]. split; [|lia]. intros _. cbn [negb andb] in C. destruct (N.eqb_spec n 0); [assumption|discriminate].
        -- split; [eapply i_null; eauto|eapply i_mgr; eauto].
  - (* Lock *) destruct (get (s_mgrs s) m) as [x|] eqn:G; injection E as <- <- <-; rewrite app_nil_r; [|exact I].
    apply set_mgr_inv; [exact I|]. exact (i_self _ _ I _ _ G).
  - destruct (get (s_mgrs s) m) as [x|] eqn:G; injection E as <- <- <-; rewrite app_nil_r; [|exact I].
    apply set_mgr_inv; [exact I|]. exact (i_self _ _ I _ _ G).
  - (* SwapManagers *) destruct (get (s_mgrs s) a0) as [x|] eqn:G; [|injection E as <- <- <-; now rewrite app_nil_r].
    destruct (get (s_mgrs s) b) as [y|] eqn:G'; injection E as <- <- <-; rewrite app_nil_r; [|exact I].
    apply set_mgr_inv; [apply set_mgr_inv; [exact I|]|]; cbn.
    + eapply (i_self _ _ I); eauto.
    + rewrite length_upd. eapply (i_self _ _ I); eauto.
  - (* MoveManager *) destruct (get (s_mgrs s) m) as [x|] eqn:G; injection E as <- <- <-; rewrite app_nil_r; [|exact I].
    apply own_mgrs; [exact I|right; rewrite app_length; lia|]. intros i m' H. rewrite app_length. cbn [length]. rewrite get_app in H.
    destruct Nat.eqb; [injection H as <-|]; [pose proof (i_self _ _ I _ _ G)|pose proof (i_self _ _ I _ _ H)]; lia.
  - (* DropManager *) injection E as <- <- <-. rewrite app_nil_r. apply own_mgrs; [exact I|left; apply length_upd|].
    intros i m' H. rewrite length_upd. rewrite get_upd in H. destruct andb; [discriminate|]. eapply (i_self _ _ I); eauto.
  - (* NewResource *) injection E as <- <- <-. rewrite app_nil_r. apply own_ress; [exact I| |].
    + rewrite owned_app. cbn. now rewrite app_nil_r.
    + intros i r d H1 H2. rewrite get_app in H1. destruct Nat.eqb; [injection H1 as <-; discriminate|]. split; [eapply i_null|eapply i_mgr]; eauto.
  - (* ViewResource *) destruct (get (s_ress s) r) as [x|] eqn:G; injection E as <- <- <-; rewrite app_nil_r; [|exact I]. apply own_ress; [exact I| |].
    + rewrite owned_app. cbn. destruct (r_addr x); now rewrite app_nil_r.
    + intros i r' d H1 H2. rewrite get_app in H1. destruct Nat.eqb; [injection H1 as <-; discriminate|]. split; [eapply i_null|eapply i_mgr]; eauto.
  - (* MoveResource *) destruct (get (s_ress s) r) as [x|] eqn:G; injection E as <- <- <-; rewrite app_nil_r; [|exact I].
    unfold add_res, set_res; cbn. apply own_ress; [exact I| |].
    + rewrite owned_app. destruct (owned_upd (s_ress s) r x (Some (mkRes None 0 None)) G) as (m & P & Q). rewrite Q. unfold owned. rewrite P. cbn [owns app]. apply Permutation_app_comm.
    + intros i r' d H1 H2. rewrite get_app in H1. destruct Nat.eqb.
      * injection H1 as <-. split; [eapply i_null|eapply i_mgr]; eauto.
      * rewrite get_upd in H1. destruct andb; [injection H1 as <-; discriminate|]. split; [eapply i_null|eapply i_mgr]; eauto.
  - (* SwapResources *) destruct (get (s_ress s) a0) as [x|] eqn:G; [|injection E as <- <- <-; now rewrite app_nil_r].
    destruct (get (s_ress s) b) as [y|] eqn:G'; injection E as <- <- <-; rewrite app_nil_r; [|exact I].
    unfold set_res; cbn. apply own_ress; [exact I| |].
    + destruct (owned_upd (s_ress s) a0 x (Some y) G) as (m & P & Q). destruct (Nat.eq_dec a0 b) as [<-|Nab].
      * assert (x = y) as <- by congruence. destruct (owned_upd (upd (s_ress s) a0 (Some x)) a0 x (Some x) (get_upd_same _ _ _ _ G)) as (m2 & P2 & Q2).
        rewrite Q2, <- P2, Q, <- P. reflexivity.
      * destruct (owned_upd (upd (s_ress s) a0 (Some y)) b y (Some x)) as (m2 & P2 & Q2); [now rewrite get_upd_other|].
        rewrite Q2. unfold owned. rewrite P. rewrite Q in P2. apply Permutation_app_inv_l in P2. now rewrite P2.
    + assert (K : forall i r d, get (s_ress s) i = Some r -> r_disp r = Some d -> (r_addr r = None -> r_len r = 0) /\ (d < length (s_mgrs s))%nat)
        by (intros i r d H1 H2; split; [eapply i_null|eapply i_mgr]; eauto).
      intros i r' d H1 H2. rewrite get_upd in H1. destruct andb; [injection H1 as <-; exact (K _ _ _ G H2)|].
      rewrite get_upd in H1. destruct andb; [injection H1 as <-; exact (K _ _ _ G' H2)|exact (K _ _ _ H1 H2)].
  - (* DropResource *) destruct (get (s_ress s) r) as [x|] eqn:G; [|injection E as <- <- <-; now rewrite app_nil_r].
    destruct (owned_upd (s_ress s) r x None G) as (m & P & Q). cbn [owns app] in Q.
    assert (K : forall i r' d, get (upd (s_ress s) r None) i = Some r' -> r_disp r' = Some d -> (r_addr r' = None -> r_len r' = 0) /\ (d < length (s_mgrs s))%nat).
    { intros i r' d H1 H2. rewrite get_upd in H1. destruct andb; [discriminate|]. split; [eapply i_null|eapply i_mgr]; eauto. }
    destruct (r_disp x) as [d|] eqn:D.
    2:{ injection E as <- <- <-. rewrite app_nil_r. apply own_ress; [exact I| |exact K]. rewrite Q. unfold owned. rewrite P.
        destruct x as [[?|] ? [?|]]; cbn [r_disp] in D; try discriminate; reflexivity. }
    unfold mgr_dispose in E. cbn [s_mgrs s_ress s_next h_live] in E. destruct (get (s_mgrs s) d) as [md|] eqn:Gd; [|discriminate].
    destruct (r_addr x) as [ad|] eqn:A; cbn [sys_free] in E.
    + cbn [h_live] in E. destruct (in_dec Nat.eq_dec ad (h_live s)) as [Il|Il]; [|discriminate]. cbn [bind s_mgrs] in E.
      destruct (get (s_mgrs s) (m_self md)) as [mm|] eqn:Gm; [|discriminate]. cbn [bind] in E. injection E as <- <- <-.
      apply set_mgr_inv; [|cbn; eapply (i_self _ _ I); eauto]. cbn [s_mgrs s_ress s_next].
      destruct x as [ax nx dx]; cbn in A, D; subst ax dx. cbn [owns app] in P.
      assert (IN : In (d, ad, nx) (outstanding log)) by (eapply Permutation_in; [exact (i_owned _ _ I)|]; unfold owned; rewrite P; now left).
      pose proof (filter_one d ad nx _ (i_nodup _ _ I) IN) as F. destruct I.
      assert (OUT : outstanding (log ++ [EvFree ad]) = filter (fun b => negb (Nat.eqb (snd (fst b)) ad)) (outstanding log)) by (rewrite outstanding_app; reflexivity).
      assert (NL : ~ In ad (map addr_of (filter (fun b => negb (Nat.eqb (snd (fst b)) ad)) (outstanding log)))).
      { intros X. apply in_map_iff in X as (b & B1 & B2). apply filter_In in B2 as (_ & B2). unfold addr_of in B1. rewrite B1, Nat.eqb_refl in B2. discriminate. }
      assert (FM : Permutation (map addr_of (outstanding log)) (ad :: map addr_of (filter (fun b => negb (Nat.eqb (snd (fst b)) ad)) (outstanding log))))
        by (rewrite F at 1; reflexivity).
      constructor; cbn [s_mgrs s_ress s_next h_live]; rewrite ?OUT.
      * unfold owned in *. cbn [s_ress]. rewrite Q. apply (Permutation_cons_inv (a := (d, ad, nx))). rewrite <- F, <- i_owned0, P. reflexivity.
      * eapply Permutation_NoDup in FM; [|exact i_nodup0]. now inversion FM.
      * unfold given. rewrite flat_map_app. apply Forall_app. split; [assumption|constructor].
      * apply (Permutation_cons_inv (a := ad)). rewrite <- FM, <- i_live0.
        assert (D2 : NoDup (h_live s)) by (eapply Permutation_NoDup; [symmetry; exact i_live0|assumption]).
        clear - Il D2. induction (h_live s) as [|y l IH]; [contradiction|]. inversion D2 as [|? ? D3 D4]; subst. cbn [remove].
        destruct (Nat.eq_dec ad y) as [<-|Ne].
        -- rewrite notin_remove by assumption. reflexivity.
        -- destruct Il as [Il|Il]; [congruence|]. rewrite perm_swap. constructor. now apply IH.
      * intros i r' d' H1 H2. now apply (K i r' d').
      * intros i r' d' H1 H2. now apply (K i r' d').
      * unfold given, returned. rewrite !flat_map_app. cbn [flat_map app]. rewrite app_nil_r. fold (given log) (returned log).
        rewrite <- i_hist0, FM, <- app_assoc. reflexivity.
      * unfold given. rewrite flat_map_app. cbn [flat_map app]. rewrite app_nil_r. assumption.
      * assumption.
    + cbn [bind s_mgrs] in E. destruct (get (s_mgrs s) (m_self md)) as [mm|] eqn:Gm; [|discriminate]. cbn [bind] in E. injection E as <- <- <-.
      rewrite app_nil_r. apply set_mgr_inv; [|cbn; eapply (i_self _ _ I); eauto]. apply own_ress; [exact I| |exact K].
      rewrite Q. unfold owned. rewrite P. destruct x as [? ? ?]; cbn in A, D; subst. reflexivity.
Qed.

Lemma step_total sysmem s o log : own_inv s log -> all_alive s -> drops_manager o = false ->
  exists s' ev a, step sysmem s o = Ret (s', ev, a) /\ all_alive s'.
Proof.
  intros I A D. destruct o; cbn [step drops_manager] in *; try discriminate.
  - destruct (cap <? sysmem); eexists _, _, _; (split; [reflexivity|]); [|exact A].
    intros i H. cbn in *. rewrite app_length in H. cbn [length] in H. rewrite get_app. destruct (Nat.eqb_spec i (length (s_mgrs s))); [eauto|]. apply A. lia.
  - destruct (get (s_mgrs s) m) as [x|] eqn:G; [|eexists _, _, _; split; [reflexivity|exact A]]. unfold mgr_allocate.
    destruct (mgr_limit x <? n); [eexists _, _, _; split; [reflexivity|exact A]|].
    destruct (m_locked x); [eexists _, _, _; split; [reflexivity|exact A]|].
    destruct (negb sys && negb (n =? 0)); [eexists _, _, _; split; [reflexivity|exact A]|].
    destruct sys; eexists _, _, _; (split; [reflexivity|]); apply all_alive_res; now apply all_alive_upd.
  - destruct (get (s_mgrs s) m) as [x|] eqn:G; eexists _, _, _; (split; [reflexivity|]); [now apply all_alive_upd|exact A].
  - destruct (get (s_mgrs s) m) as [x|] eqn:G; eexists _, _, _; (split; [reflexivity|]); [now apply all_alive_upd|exact A].
  - destruct (get (s_mgrs s) a) as [x|] eqn:G; [|eexists _, _, _; split; [reflexivity|exact A]].
    destruct (get (s_mgrs s) b) as [y|] eqn:G'; eexists _, _, _; (split; [reflexivity|]); [now apply all_alive_upd, all_alive_upd|exact A].
  - destruct (get (s_mgrs s) m) as [x|] eqn:G; eexists _, _, _; (split; [reflexivity|]); [|exact A].
    intros i H. cbn in *. rewrite app_length in H. cbn [length] in H. rewrite get_app. destruct (Nat.eqb_spec i (length (s_mgrs s))); [eauto|]. apply A. lia.
  - eexists _, _, _; split; [reflexivity|exact A].
  - destruct (get (s_ress s) r); eexists _, _, _; split; try reflexivity; exact A.
  - destruct (get (s_ress s) r); eexists _, _, _; split; try reflexivity; exact A.
  - destruct (get (s_ress s) a); [|eexists _, _, _; split; [reflexivity|exact A]]. destruct (get (s_ress s) b); eexists _, _, _; split; try reflexivity; exact A.
  - destruct (get (s_ress s) r) as [x|] eqn:G; [|eexists _, _, _; split; [reflexivity|exact A]].
    destruct (r_disp x) as [d|] eqn:Dx; [|eexists _, _, _; split; [reflexivity|exact A]].
    pose proof (i_mgr _ _ I _ _ _ G Dx) as L. destruct (A d L) as (md & Gd). pose proof (i_self _ _ I _ _ Gd) as L2. destruct (A _ L2) as (mm & Gm).
    unfold mgr_dispose. cbn [s_mgrs]. rewrite Gd.
    assert (X : exists s1 ev, sys_free (mkSt (s_mgrs s) (upd (s_ress s) r None) (s_next s) (h_live s)) (r_addr x) = Ret (s1, ev) /\ all_alive s1).
    { destruct (r_addr x) as [ad|] eqn:Ad; cbn [sys_free h_live s_mgrs s_ress s_next]; [|eexists _, _; split; [reflexivity|exact A]].
      destruct (in_dec Nat.eq_dec ad (h_live s)) as [Il|Il]; [eexists _, _; split; [reflexivity|exact A]|]. exfalso. apply Il.
      eapply Permutation_in; [symmetry; exact (i_live _ _ I)|]. change ad with (addr_of (d, ad, r_len x)). apply in_map.
      eapply Permutation_in; [exact (i_owned _ _ I)|]. destruct (owned_upd _ _ _ None G) as (m & P & _). unfold owned. rewrite P.
      destruct x as [? ? ?]; cbn in Ad, Dx; subst. now left. }
    destruct X as (s1 & ev & -> & A1). cbn [bind]. rewrite Gm. cbn [bind]. eexists _, _, _; split; [reflexivity|]. now apply all_alive_upd.
Qed.

Lemma run_own sysmem ops : forall s log s' ev, own_inv s log -> run sysmem s ops = Ret (s', ev) -> own_inv s' (log ++ ev).
Proof.
  induction ops as [|o ops IH]; intros s log s' ev I E; cbn [run] in E; [injection E as <- <-; now rewrite app_nil_r|].
  destruct (step sysmem s o) as [[[s1 ev1] a]| | | |] eqn:S; try discriminate. cbn [bind] in E.
  destruct (run sysmem s1 ops) as [[s2 ev2]| | | |] eqn:R; try discriminate. cbn [bind fst snd] in E. injection E as <- <-.
  rewrite app_assoc. eapply IH; [|exact R]. eapply step_own; eassumption.
Qed.
Lemma run_total sysmem ops : forall s log, own_inv s log -> all_alive s -> free_of drops_manager ops ->
  exists s' ev, run sysmem s ops = Ret (s', ev) /\ all_alive s'.
Proof.
  induction ops as [|o ops IH]; intros s log I A F; [eexists _, _; split; [reflexivity|exact A]|]. inversion F as [|? ? F1 F2]; subst.
  destruct (step_total sysmem s o log I A F1) as (s1 & ev & a & E & A1). cbn [run]. rewrite E. cbn [bind].
  destruct (IH s1 (log ++ ev) (step_own _ _ _ _ _ _ _ I E) A1 F2) as (s2 & ev2 & E2 & A2). rewrite E2. cbn [bind]. eexists _, _; split; [reflexivity|exact A2].
Qed.

(** Every view is owned or empty. *)
Definition no_alias (s : st) : Prop := forall i r, get (s_ress s) i = Some r -> r_disp r = None -> r_addr r = None.
Lemma step_alias sysmem s o s' ev a : no_alias s -> copies_view o = false -> step sysmem s o = Ret (s', ev, a) -> no_alias s'.
Proof.
  intros H C E.
  assert (K : forall l x, (forall i r, get l i = Some r -> r_disp r = None -> r_addr r = None) ->
     (r_disp x = None -> r_addr x = None) -> forall i r, get (l ++ [Some x]) i = Some r -> r_disp r = None -> r_addr r = None).
  { intros l x Hl Hx i r G. rewrite get_app in G. destruct Nat.eqb; [injection G as <-; exact Hx|now apply (Hl i)]. }
  assert (U : forall l j x, (forall i r, get l i = Some r -> r_disp r = None -> r_addr r = None) ->
     (forall y, x = Some y -> r_disp y = None -> r_addr y = None) -> forall i r, get (upd l j x) i = Some r -> r_disp r = None -> r_addr r = None).
  { intros l j x Hl Hx i r G. rewrite get_upd in G. destruct andb; [now apply Hx|now apply (Hl i)]. }
  destruct o; cbn [step copies_view] in *; try discriminate.
  - destruct (cap <? sysmem); injection E as <- <- <-; exact H.
  - destruct (get (s_mgrs s) m) as [x|] eqn:G; [|injection E as <- <- <-; exact H]. injection E as E. unfold mgr_allocate in E.
    destruct (mgr_limit x <? n); [injection E as <- <- <-; exact H|]. destruct (m_locked x); [injection E as <- <- <-; exact H|].
    destruct (negb sys && negb (n =? 0)); [injection E as <- <- <-; exact H|]. destruct sys; injection E as <- <- <-; intros i r; cbn; apply K; auto; discriminate.
  - destruct (get (s_mgrs s) m); injection E as <- <- <-; exact H.
  - destruct (get (s_mgrs s) m); injection E as <- <- <-; exact H.
  - destruct (get (s_mgrs s) a0); [|injection E as <- <- <-; exact H]. destruct (get (s_mgrs s) b); injection E as <- <- <-; exact H.
  - destruct (get (s_mgrs s) m); injection E as <- <- <-; exact H.
  - injection E as <- <- <-; exact H.
  - injection E as <- <- <-. intros i r; cbn. apply K; auto.
  - destruct (get (s_ress s) r) as [x|] eqn:G; injection E as <- <- <-; [|exact H]. intros i r'; cbn. apply K; [|now apply (H r)].
    apply U; [exact H|]. intros y [= <-]; reflexivity.
  - destruct (get (s_ress s) a0) as [x|] eqn:G; [|injection E as <- <- <-; exact H].
    destruct (get (s_ress s) b) as [y|] eqn:G'; injection E as <- <- <-; [|exact H]. intros i r'; cbn.
    apply U; [apply U; [exact H|]|]; intros z [= <-]; [now apply (H b)|now apply (H a0)].
  - destruct (get (s_ress s) r) as [x|] eqn:G; [|injection E as <- <- <-; exact H].
    assert (H1 : forall i r', get (upd (s_ress s) r None) i = Some r' -> r_disp r' = None -> r_addr r' = None) by (apply U; [exact H|discriminate]).
    destruct (r_disp x); [|injection E as <- <- <-; exact H1]. unfold mgr_dispose in E. cbn [s_mgrs] in E. destruct (get (s_mgrs s) n); [|discriminate].
    destruct (r_addr x); cbn [sys_free h_live s_mgrs s_ress s_next] in E.
    + destruct in_dec; [|discriminate]. cbn [bind] in E. destruct (get (s_mgrs s) (m_self m)); [|discriminate]. cbn [bind] in E. injection E as <- <- <-. exact H1.
    + cbn [bind] in E. destruct (get (s_mgrs s) (m_self m)); [|discriminate]. cbn [bind] in E. injection E as <- <- <-. exact H1.
Qed.
Lemma run_alias sysmem ops : forall s s' ev, no_alias s -> free_of copies_view ops -> run sysmem s ops = Ret (s', ev) -> no_alias s'.
Proof.
  induction ops as [|o ops IH]; intros s s' ev H F E; cbn [run] in E; [injection E as <- <-; exact H|]. inversion F as [|? ? F1 F2]; subst.
  destruct (step sysmem s o) as [[[s1 ev1] a]| | | |] eqn:S; try discriminate. cbn [bind] in E.
  destruct (run sysmem s1 ops) as [[s2 ev2]| | | |] eqn:R; try discriminate. cbn [bind fst snd] in E. injection E as <- <-.
  eapply IH; [|exact F2|exact R]. eapply step_alias; eassumption.
Qed.

(** The invariant of accounting. *)
Definition acc_inv (s : st) (log : list event) : Prop := forall i m, get (s_mgrs s) i = Some m ->
  m_self m = i /\ m_size m = account i log /\ m_size m <= m_cap m /\ m_cap m < 2 ^ 64.
Lemma bytes_in m a n bs : In (m, a, n) bs -> n <= bytes_of m bs.
Proof.
  induction bs as [|[[x y] z] bs IH]; intros []; cbn [bytes_of]; [injection H as -> -> ->; rewrite Nat.eqb_refl; lia|]. apply IH in H. lia.
Qed.
Lemma account_nil i log : account i (log ++ []) = account i log.
Proof. now rewrite app_nil_r. Qed.
Lemma outstanding_bound s log i : own_inv s log -> (length (s_mgrs s) <= i)%nat -> account i log = 0.
Proof.
  intros I L. unfold account. assert (H : forall b, In b (outstanding log) -> (fst (fst b) < length (s_mgrs s))%nat).
  { intros b B. eapply Permutation_in in B; [|symmetry; exact (i_owned _ _ I)]. apply in_flat_map in B as (x & X1 & X2).
    apply (In_nth _ _ None) in X1 as (j & _ & J). destruct x as [[[ad|] n [d|]]|]; cbn in X2; try contradiction. destruct X2 as [<-|[]]. cbn.
    eapply (i_mgr _ _ I j); [exact J|reflexivity]. }
  induction (outstanding log) as [|[[x y] z] bs IH]; [reflexivity|]. cbn [bytes_of]. pose proof (H _ (or_introl eq_refl)) as Hx. cbn in Hx.
  destruct (Nat.eqb_spec i x); [lia|]. rewrite IH; [reflexivity|]. intros b B. apply H. now right.
Qed.

Lemma limit_ok m : m_size m <= m_cap m -> m_cap m < 2 ^ 64 -> mgr_limit m = m_cap m - m_size m.
Proof. intros H1 H2. unfold mgr_limit, sub64, sub_wrap. symmetry. apply N.mod_unique with 1; lia. Qed.

Lemma step_acc sysmem s o log s' ev a : sysmem <= 2 ^ 64 -> own_inv s log -> acc_inv s log ->
  moves_manager o = false -> step sysmem s o = Ret (s', ev, a) -> acc_inv s' (log ++ ev).
Proof.
  intros Y I A D E. destruct o; cbn [step moves_manager] in *; try discriminate.
  - destruct (N.ltb_spec cap sysmem); injection E as <- <- <-; [|intros i m G; rewrite account_nil; now apply A].
    intros i m G; cbn in G; rewrite account_nil. rewrite get_app in G. destruct (Nat.eqb_spec i (length (s_mgrs s))) as [->|Ni]; [|now apply A].
    injection G as <-. cbn. rewrite (outstanding_bound s log _ I) by lia. lia.
  - destruct (get (s_mgrs s) m) as [x|] eqn:G; [|injection E as <- <- <-; intros i q Gi; rewrite account_nil; now apply A].
    destruct (A m x G) as (S1 & S2 & S3 & S4). injection E as E. unfold mgr_allocate in E. rewrite limit_ok in E by assumption.
    destruct (N.ltb_spec (m_cap x - m_size x) n) as [Ln|Ln]; [injection E as <- <- <-; intros i q Gi; rewrite account_nil; now apply A|].
    destruct (m_locked x); [injection E as <- <- <-; intros i q Gi; rewrite account_nil; now apply A|].
    destruct (negb sys && negb (n =? 0)) eqn:C; [injection E as <- <- <-; intros i q Gi; rewrite account_nil; now apply A|].
    assert (U : u64 (m_size x + n) = m_size x + n) by (unfold u64; apply N.mod_small; lia). rewrite U in E.
    destruct sys; injection E as <- <- <-; intros i q Gi; cbn in Gi; rewrite get_upd in Gi.
    + unfold account. rewrite outstanding_app. cbn [fold_left after_event bytes_of]. fold (account i log).
      destruct (Nat.eqb_spec m i) as [->|Ni]; cbn [andb] in Gi.
      * rewrite Nat.eqb_refl. pose proof (get_some _ _ _ G) as Lm. destruct (Nat.ltb_spec i (length (s_mgrs s))); [|lia]. injection Gi as <-. cbn. lia.
      * destruct (Nat.eqb_spec i m); [congruence|]. rewrite N.add_0_l. now apply A.
    + rewrite account_nil. destruct (Nat.eqb_spec m i) as [->|Ni]; cbn [andb] in Gi; [|now apply A].
      pose proof (get_some _ _ _ G) as Lm. destruct (Nat.ltb_spec i (length (s_mgrs s))); [|lia]. injection Gi as <-. cbn [negb andb] in C.
      destruct (N.eqb_spec n 0); [|discriminate]. cbn. lia.
  - destruct (get (s_mgrs s) m) as [x|] eqn:G; injection E as <- <- <-; intros i q Gi; rewrite account_nil; [|now apply A]. cbn in Gi. rewrite get_upd in Gi.
    destruct (Nat.eqb_spec m i) as [->|Ni]; cbn [andb] in Gi; [|now apply A]. destruct Nat.ltb; [|now apply A]. injection Gi as <-. now apply (A i x).
  - destruct (get (s_mgrs s) m) as [x|] eqn:G; injection E as <- <- <-; intros i q Gi; rewrite account_nil; [|now apply A]. cbn in Gi. rewrite get_upd in Gi.
    destruct (Nat.eqb_spec m i) as [->|Ni]; cbn [andb] in Gi; [|now apply A]. destruct Nat.ltb; [|now apply A]. injection Gi as <-. now apply (A i x).
  - injection E as <- <- <-; intros i q Gi; rewrite account_nil. cbn in Gi. rewrite get_upd in Gi. destruct andb; [discriminate|now apply A].
  - injection E as <- <- <-; intros i q Gi; rewrite account_nil; now apply A.
  - destruct (get (s_ress s) r); injection E as <- <- <-; intros i q Gi; rewrite account_nil; now apply A.
  - destruct (get (s_ress s) r); injection E as <- <- <-; intros i q Gi; rewrite account_nil; now apply A.
  - destruct (get (s_ress s) a0); [|injection E as <- <- <-; intros i q Gi; rewrite account_nil; now apply A].
    destruct (get (s_ress s) b); injection E as <- <- <-; intros i q Gi; rewrite account_nil; now apply A.
  - destruct (get (s_ress s) r) as [x|] eqn:G; [|injection E as <- <- <-; intros i q Gi; rewrite account_nil; now apply A].
    destruct (r_disp x) as [d|] eqn:Dx; [|injection E as <- <- <-; intros i q Gi; rewrite account_nil; now apply A].
    unfold mgr_dispose in E. cbn [s_mgrs] in E. destruct (get (s_mgrs s) d) as [md|] eqn:Gd; [|discriminate].
    destruct (A d md Gd) as (S1 & S2 & S3 & S4). rewrite S1 in E. rewrite Gd in E.
    destruct (r_addr x) as [ad|] eqn:Ad; cbn [sys_free h_live s_mgrs s_ress s_next] in E.
    + destruct in_dec as [Il|]; [|discriminate]. cbn [bind] in E. injection E as <- <- <-.
      assert (IN : In (d, ad, r_len x) (outstanding log)).
      { destruct (owned_upd (s_ress s) r x None G) as (m & P & _). eapply Permutation_in; [exact (i_owned _ _ I)|]. unfold owned. rewrite P.
        destruct x as [? ? ?]; cbn in Ad, Dx; subst. now left. }
      pose proof (filter_one _ _ _ _ (i_nodup _ _ I) IN) as F. pose proof (bytes_in _ _ _ _ IN) as Lb. fold (account d log) in Lb.
      intros i q Gi. cbn in Gi. rewrite get_upd in Gi. unfold account. rewrite outstanding_app. cbn [fold_left after_event].
      pose proof (bytes_perm i _ _ F) as B. cbn [bytes_of] in B. fold (account i log) in B.
      destruct (Nat.eqb_spec d i) as [->|Ni]; cbn [andb] in Gi.
      * rewrite Nat.eqb_refl in B. pose proof (get_some _ _ _ Gd) as Ld. destruct (Nat.ltb_spec i (length (s_mgrs s))); [|lia]. injection Gi as <-. cbn [m_size m_cap m_self].
        assert (SB : sub64 (m_size md) (r_len x) = m_size md - r_len x) by (unfold sub64, sub_wrap; symmetry; apply N.mod_unique with 1; lia).
        rewrite SB. repeat split; lia.
      * destruct (Nat.eqb_spec i d); [congruence|]. rewrite N.add_0_l in B. rewrite <- B. now apply A.
    + cbn [bind] in E. injection E as <- <- <-. pose proof (i_null _ _ I _ _ _ G Dx Ad) as Z.
      intros i q Gi. rewrite account_nil. cbn in Gi. rewrite get_upd in Gi. destruct (Nat.eqb_spec d i) as [->|Ni]; cbn [andb] in Gi; [|now apply A].
      pose proof (get_some _ _ _ Gd) as Ld. destruct (Nat.ltb_spec i (length (s_mgrs s))); [|lia]. injection Gi as <-. cbn [m_size m_cap m_self].
      assert (SB : sub64 (m_size md) (r_len x) = m_size md) by (unfold sub64, sub_wrap; symmetry; apply N.mod_unique with 1; lia). rewrite SB. repeat split; lia.
Qed.
Lemma step_acc_swap sysmem s x y log s' ev a : own_inv s log -> acc_inv s log ->
  account x log = account y log -> step sysmem s (SwapManagers x y) = Ret (s', ev, a) -> acc_inv s' (log ++ ev).
Proof.
  intros I A Q E. cbn [step] in E. destruct (get (s_mgrs s) x) as [mx|] eqn:Gx; [|injection E as <- <- <-; intros i m G; rewrite account_nil; now apply A].
  destruct (get (s_mgrs s) y) as [my|] eqn:Gy; injection E as <- <- <-; intros i m G; rewrite account_nil; [|now apply A].
  destruct (A x mx Gx) as (X1 & X2 & X3 & X4). destruct (A y my Gy) as (Y1 & Y2 & Y3 & Y4). cbn [set_mgr s_mgrs] in G. rewrite !get_upd in G.
  destruct (Nat.eqb_spec y i) as [Ey|Ey]; cbn [andb] in G.
  - subst i. rewrite length_upd in G. pose proof (get_some _ _ _ Gy) as L. destruct (Nat.ltb_spec y (length (s_mgrs s))); [|lia]. injection G as <-. cbn. lia.
  - destruct (Nat.eqb_spec x i) as [Ex|Ex]; cbn [andb] in G; [|now apply A]. subst i. pose proof (get_some _ _ _ Gx) as L.
    destruct (Nat.ltb_spec x (length (s_mgrs s))); [|lia]. injection G as <-. cbn. lia.
Qed.

Lemma run_acc sysmem ops : sysmem <= 2 ^ 64 -> forall s log s' ev, own_inv s log -> acc_inv s log ->
  (forall m, ~ In (MoveManager m) ops) ->
  (forall pre x y post s1 ev1, ops = pre ++ SwapManagers x y :: post -> run sysmem s pre = Ret (s1, ev1) ->
     account x (log ++ ev1) = account y (log ++ ev1)) ->
  run sysmem s ops = Ret (s', ev) -> acc_inv s' (log ++ ev).
Proof.
  intros Y. induction ops as [|o ops IH]; intros s log s' ev I A F W E; cbn [run] in E; [injection E as <- <-; now rewrite app_nil_r|].
  destruct (step sysmem s o) as [[[s1 ev1] a]| | | |] eqn:S; try discriminate. cbn [bind] in E.
  destruct (run sysmem s1 ops) as [[s2 ev2]| | | |] eqn:R; try discriminate. cbn [bind fst snd] in E. injection E as <- <-.
  rewrite app_assoc. eapply IH; [eapply step_own; eassumption| | | |exact R].
  - destruct (moves_manager o) eqn:M; [|eapply step_acc; eassumption]. destruct o as [| | | |u v|u| | | | | |]; try discriminate.
    + eapply step_acc_swap; try eassumption. specialize (W [] u v ops s [] eq_refl eq_refl). now rewrite app_nil_r in W.
    + exfalso. apply (F u). now left.
  - intros m X. apply (F m). now right.
  - intros pre x y post s3 ev3 -> R3. rewrite <- app_assoc. eapply (W (o :: pre) x y post s3); [reflexivity|].
    cbn [run]. rewrite S. cbn [bind]. rewrite R3. reflexivity.
Qed.
