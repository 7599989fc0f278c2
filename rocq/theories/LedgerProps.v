(** C135: what managers account for when they are swapped and moved. *)
From Coq Require Import Permutation.
From Verif Require Import Base BaseLemmas MemoryModel MemorySpec MemoryProofs LedgerSpec.
Open Scope Z_scope.

Lemma Z_u64 n : Z.of_N (u64 n) = Z.of_N n mod 2 ^ 64.
Proof. unfold u64. rewrite N2Z.inj_mod. reflexivity. Qed.
Lemma Z_sub64 a b : Z.of_N (sub64 a b) = (Z.of_N a - Z.of_N b) mod 2 ^ 64.
Proof.
  unfold sub64, sub_wrap. rewrite N2Z.inj_mod, N2Z.inj_sub, N2Z.inj_add, !N2Z.inj_mod.
  - change (Z.of_N (2 ^ 64)) with (2 ^ 64). rewrite Zminus_mod, Z.add_mod, Z.mod_same, Z.add_0_r, !Z.mod_mod, <- Zminus_mod by lia. reflexivity.
  - pose proof (N.mod_upper_bound b (2 ^ 64) ltac:(lia)). lia.
Qed.
(** The books agree with the state. *)
Record kept (s : st) (log : list event) (b : books) : Prop := mkKept {
  k_members : members b = length (s_mgrs s);
  k_lent : lent b = outstanding log;
  k_size : forall i m, get (s_mgrs s) i = Some m -> Z.of_N (m_size m) = balance b i mod 2 ^ 64 /\ m_self m = payee b i
}.
Lemma kept0 : kept st0 [] no_books.
Proof. constructor; try reflexivity. intros [|i] m H; discriminate. Qed.
Lemma find_lent d a n bs : NoDup (map addr_of bs) -> In (d, a, n) bs -> find (fun x => Nat.eqb (snd (fst x)) a) bs = Some (d, a, n).
Proof.
  induction bs as [|[[m c] k] bs IH]; intros D I; [contradiction|]. cbn [find fst snd map addr_of] in *. inversion D as [|? ? D1 D2]; subst.
  destruct I as [E|I]; [injection E as -> -> ->; now rewrite Nat.eqb_refl|]. destruct (Nat.eqb_spec c a) as [->|]; [|now apply IH].
  exfalso. apply D1. change a with (addr_of (d, a, n)). now apply in_map.
Qed.
Lemma kept_same s log b s' : kept s log b -> s_mgrs s' = s_mgrs s -> kept s' log b.
Proof. intros [K1 K2 K3] E. constructor; rewrite ?E; assumption. Qed.
Lemma members_event b ev : members (fold_left book_event ev b) = members b.
Proof. revert b; induction ev as [|e ev IH]; intros b; [reflexivity|]. cbn [fold_left]. now rewrite IH. Qed.

Lemma step_kept sysmem s o log s' ev a b : own_inv s log -> all_alive s -> drops_manager o = false -> kept s log b ->
  step sysmem s o = Ret (s', ev, a) -> kept s' (log ++ ev) (fold_left book_event ev (book_op sysmem b o)).
Proof.
  intros I A D K E. pose proof K as [K1 K2 K3].
  assert (NIL : forall s1, s_mgrs s1 = s_mgrs s -> kept s1 (log ++ []) b) by (intros s1 E1; rewrite app_nil_r; now apply (kept_same s)).
  destruct o; cbn [step book_op drops_manager] in *; try discriminate.
  - destruct (N.ltb_spec cap sysmem); injection E as <- <- <-; cbn [fold_left]; [|now apply NIL]. rewrite app_nil_r. constructor; cbn [joins members lent balance payee s_mgrs].
    + rewrite app_length. cbn. lia.
    + exact K2.
    + intros i m G. rewrite get_app in G. rewrite K1. destruct (Nat.eqb_spec i (length (s_mgrs s))); [injection G as <-; split; reflexivity|]. now apply K3.
  - destruct (get (s_mgrs s) m) as [x|] eqn:G; [|injection E as <- <- <-; now apply NIL]. injection E as E. unfold mgr_allocate in E.
    destruct (mgr_limit x <? n)%N; [injection E as <- <- <-; now apply NIL|]. destruct (m_locked x); [injection E as <- <- <-; now apply NIL|].
    destruct (negb sys && negb (n =? 0)%N) eqn:C; [injection E as <- <- <-; now apply NIL|]. pose proof (get_some _ _ _ G) as Lm. destruct (K3 m x G) as (S1 & S2).
    destruct sys; injection E as <- <- <-; cbn [fold_left].
    + constructor; cbn [book_event members lent balance payee s_mgrs set_mgr].
      * rewrite length_upd. exact K1.
      * rewrite outstanding_app, K2. reflexivity.
      * intros i q Gi. rewrite get_upd in Gi. unfold change. destruct (Nat.eqb_spec m i) as [->|Ni]; cbn [andb] in Gi.
        -- rewrite Nat.eqb_refl. destruct (Nat.ltb_spec i (length (s_mgrs s))); [|lia]. injection Gi as <-. cbn [m_size m_self]. split; [|exact S2].
           rewrite Z_u64, N2Z.inj_add, S1, Zplus_mod_idemp_l. reflexivity.
        -- destruct (Nat.eqb_spec i m); [congruence|]. now apply K3.
    + rewrite app_nil_r. cbn [negb andb] in C. destruct (N.eqb_spec n 0) as [->|]; [|discriminate]. constructor; cbn [s_mgrs set_mgr add_res]; [rewrite length_upd; exact K1|exact K2|].
      intros i q Gi. rewrite get_upd in Gi. destruct (Nat.eqb_spec m i) as [->|Ni]; cbn [andb] in Gi; [|now apply K3].
      destruct (Nat.ltb_spec i (length (s_mgrs s))); [|lia]. injection Gi as <-. cbn [m_size m_self]. split; [|exact S2]. rewrite Z_u64, N.add_0_r, S1, Z.mod_mod by lia. reflexivity.
  - destruct (get (s_mgrs s) m) as [x|] eqn:G; injection E as <- <- <-; [|now apply NIL]. rewrite app_nil_r. constructor; cbn [s_mgrs set_mgr fold_left]; [rewrite length_upd; exact K1|exact K2|].
    intros i q Gi. rewrite get_upd in Gi. destruct (Nat.eqb_spec m i) as [->|Ni]; cbn [andb] in Gi; [|now apply K3]. destruct Nat.ltb; [|now apply K3]. injection Gi as <-. now apply (K3 i x).
  - destruct (get (s_mgrs s) m) as [x|] eqn:G; injection E as <- <- <-; [|now apply NIL]. rewrite app_nil_r. constructor; cbn [s_mgrs set_mgr fold_left]; [rewrite length_upd; exact K1|exact K2|].
    intros i q Gi. rewrite get_upd in Gi. destruct (Nat.eqb_spec m i) as [->|Ni]; cbn [andb] in Gi; [|now apply K3]. destruct Nat.ltb; [|now apply K3]. injection Gi as <-. now apply (K3 i x).
  - rename a0 into x, b0 into y. rewrite K1. destruct (get (s_mgrs s) x) as [mx|] eqn:Gx.
    + destruct (get (s_mgrs s) y) as [my|] eqn:Gy; injection E as <- <- <-; cbn [fold_left]; rewrite app_nil_r.
      * pose proof (get_some _ _ _ Gx) as Lx. pose proof (get_some _ _ _ Gy) as Ly. destruct (Nat.ltb_spec x (length (s_mgrs s))); [|lia]. destruct (Nat.ltb_spec y (length (s_mgrs s))); [|lia]. cbn [andb].
        destruct (K3 x mx Gx) as (X1 & X2). destruct (K3 y my Gy) as (Y1 & Y2).
        constructor; cbn [members lent balance payee s_mgrs set_mgr]; [now rewrite !length_upd|exact K2|].
        intros i q Gi. rewrite !get_upd, length_upd in Gi. unfold exchanged. destruct (Nat.eqb_spec y i) as [->|Ny]; cbn [andb] in Gi.
        -- rewrite Nat.eqb_refl. destruct (Nat.ltb_spec i (length (s_mgrs s))); [|lia]. injection Gi as <-. cbn. auto.
        -- destruct (Nat.eqb_spec i y); [congruence|]. destruct (Nat.eqb_spec x i) as [->|Nx]; cbn [andb] in Gi.
           ++ rewrite Nat.eqb_refl. destruct (Nat.ltb_spec i (length (s_mgrs s))); [|lia]. injection Gi as <-. cbn. auto.
           ++ destruct (Nat.eqb_spec i x); [congruence|]. now apply K3.
      * destruct (Nat.ltb_spec y (length (s_mgrs s))) as [L|L]; [destruct (A y L); congruence|]. rewrite Bool.andb_false_r. now apply (kept_same s).
    + injection E as <- <- <-; cbn [fold_left]. destruct (Nat.ltb_spec x (length (s_mgrs s))) as [L|L]; [destruct (A x L); congruence|]. now apply NIL.
  - rename m into x. rewrite K1. destruct (get (s_mgrs s) x) as [mx|] eqn:Gx; injection E as <- <- <-; cbn [fold_left].
    + pose proof (get_some _ _ _ Gx) as Lx. destruct (Nat.ltb_spec x (length (s_mgrs s))); [|lia]. rewrite app_nil_r. constructor; cbn [joins members lent balance payee s_mgrs].
      * rewrite app_length. cbn. lia.
      * exact K2.
      * intros i m G. rewrite get_app in G. rewrite K1. destruct (Nat.eqb_spec i (length (s_mgrs s))); [injection G as <-; now apply K3|]. now apply K3.
    + destruct (Nat.ltb_spec x (length (s_mgrs s))) as [L|L]; [destruct (A x L); congruence|]. now apply NIL.
  - injection E as <- <- <-; now apply NIL.
  - destruct (get (s_ress s) r); injection E as <- <- <-; now apply NIL.
  - destruct (get (s_ress s) r); injection E as <- <- <-; now apply NIL.
  - destruct (get (s_ress s) a0); [|injection E as <- <- <-; now apply NIL]. destruct (get (s_ress s) b0); injection E as <- <- <-; now apply NIL.
  - destruct (get (s_ress s) r) as [x|] eqn:G; [|injection E as <- <- <-; now apply NIL].
    destruct (r_disp x) as [d|] eqn:Dx; [|injection E as <- <- <-; now apply NIL].
    unfold mgr_dispose in E. cbn [s_mgrs] in E. destruct (get (s_mgrs s) d) as [md|] eqn:Gd; [|discriminate]. destruct (K3 d md Gd) as (S1 & S2).
    destruct (r_addr x) as [ad|] eqn:Ad; cbn [sys_free h_live s_mgrs s_ress s_next] in E.
    + destruct in_dec as [Il|]; [|discriminate]. cbn [bind] in E. destruct (get (s_mgrs s) (m_self md)) as [ms|] eqn:Gs; [|discriminate]. cbn [bind] in E. injection E as <- <- <-.
      assert (IN : In (d, ad, r_len x) (outstanding log)).
      { destruct (owned_upd (s_ress s) r x None G) as (m & P & _). eapply Permutation_in; [exact (i_owned _ _ I)|]. unfold owned. rewrite P.
        destruct x as [? ? ?]; cbn in Ad, Dx; subst. now left. }
      cbn [fold_left]. unfold book_event. rewrite K2, (find_lent d ad (r_len x)) by (try exact IN; apply (i_nodup _ _ I)).
      destruct (K3 _ _ Gs) as (T1 & T2). pose proof (get_some _ _ _ Gs) as Ls.
      constructor; cbn [members lent balance payee s_mgrs set_mgr]; [rewrite length_upd; exact K1|rewrite outstanding_app; reflexivity|].
      intros i q Gi. rewrite get_upd in Gi. unfold change. rewrite <- S2. destruct (Nat.eqb_spec (m_self md) i) as [<-|Ni]; cbn [andb] in Gi.
      * rewrite Nat.eqb_refl. destruct (Nat.ltb_spec (m_self md) (length (s_mgrs s))); [|lia]. injection Gi as <-. cbn [m_size m_self]. split; [|exact T2].
        rewrite Z_sub64, T1, Zminus_mod_idemp_l. f_equal; lia.
      * destruct (Nat.eqb_spec i (m_self md)); [congruence|]. now apply K3.
    + cbn [bind] in E. destruct (get (s_mgrs s) (m_self md)) as [ms|] eqn:Gs; [|discriminate]. cbn [bind] in E. injection E as <- <- <-. pose proof (i_null _ _ I _ _ _ G Dx Ad) as Z.
      rewrite app_nil_r. destruct (K3 _ _ Gs) as (T1 & T2). pose proof (get_some _ _ _ Gs) as Ls. cbn [fold_left].
      constructor; cbn [s_mgrs set_mgr]; [rewrite length_upd; exact K1|exact K2|].
      intros i q Gi. rewrite get_upd in Gi. destruct (Nat.eqb_spec (m_self md) i) as [<-|Ni]; cbn [andb] in Gi; [|now apply K3].
      destruct (Nat.ltb_spec (m_self md) (length (s_mgrs s))); [|lia]. injection Gi as <-. cbn [m_size m_self]. split; [|exact T2]. rewrite Z_sub64, Z, T1, Z.sub_0_r, Z.mod_mod by lia. reflexivity.
Qed.
Lemma traced_kept sysmem ops : forall s log b s' h, own_inv s log -> all_alive s -> free_of drops_manager ops -> kept s log b ->
  traced sysmem s ops = Ret (s', h) -> kept s' (log ++ concat (map snd h)) (book_run sysmem b h) /\ own_inv s' (log ++ concat (map snd h)) /\ all_alive s' /\ map fst h = ops.
Proof.
  induction ops as [|o ops IH]; intros s log b s' h I A F K E; cbn [traced] in E; [injection E as <- <-; cbn [map concat book_run]; rewrite app_nil_r; auto|].
  inversion F as [|? ? F1 F2]; subst. destruct (step_total sysmem s o log I A F1) as (s1 & ev & a & S & A1). rewrite S in E. cbn [bind] in E.
  pose proof (step_own sysmem s o log s1 ev a I S) as I1. pose proof (step_kept sysmem s o log s1 ev a b I A F1 K S) as K1.
  destruct (traced sysmem s1 ops) as [[s2 h2]| | | |] eqn:T; try discriminate. cbn [bind fst snd] in E. injection E as <- <-.
  destruct (IH s1 (log ++ ev) _ s2 h2 I1 A1 F2 K1 T) as (R1 & R2 & R3 & R4). cbn [map concat snd fst book_run]. rewrite app_assoc. split; [exact R1|]. split; [exact R2|]. split; [exact R3|]. now f_equal.
Qed.
Lemma traced_run sysmem ops : forall s, (let! q := traced sysmem s ops in Ret (fst q, concat (map snd (snd q)))) = run sysmem s ops.
Proof.
  induction ops as [|o ops IH]; intros s; [reflexivity|]. cbn [traced run]. destruct (step sysmem s o) as [[[s1 ev] a]| | | |]; try reflexivity. cbn [bind]. rewrite <- IH.
  destruct (traced sysmem s1 ops) as [[s2 h]| | | |]; reflexivity.
Qed.

(** C135: whatever managers and resources are made, swapped, moved, used and released (the
    managers outlive the program's use of them), the size of each manager is its balance in
    the books, cut to 64 bits. *)
Theorem C135_books : forall sysmem ops, free_of drops_manager ops ->
  exists s h, traced sysmem st0 ops = Ret (s, h) /\ run sysmem st0 ops = Ret (s, concat (map snd h)) /\ map fst h = ops /\
    let b := book_run sysmem no_books h in
    length (s_mgrs s) = members b /\
    (forall i, (i < members b)%nat -> exists m, get (s_mgrs s) i = Some m /\ Z.of_N (m_size m) = balance b i mod 2 ^ 64) /\
    lent b = outstanding (concat (map snd h)).
Proof.
  intros sysmem ops F. assert (A0 : all_alive st0) by (intros i L; cbn in L; lia).
  destruct (run_total sysmem ops st0 [] inv0 A0 F) as (s & ev & R & _). pose proof (traced_run sysmem ops st0) as T. rewrite R in T.
  destruct (traced sysmem st0 ops) as [[s' h]| | | |] eqn:E; try discriminate. cbn [bind fst snd] in T. injection T as -> <-.
  destruct (traced_kept sysmem ops st0 [] no_books s h inv0 A0 F kept0 E) as (K & _ & A & M). cbn [app] in K. exists s, h. split; [reflexivity|]. split; [exact R|]. split; [exact M|].
  cbv zeta. destruct K as [K1 K2 K3]. split; [congruence|]. split; [|exact K2]. intros i L. rewrite K1 in L. destruct (A i L) as (m & G). exists m. split; [exact G|]. now apply K3.
Qed.
Print Assumptions C135_books.

(** When managers are only swapped, what all of them account for together is what is
    outstanding: nothing gets lost or is counted twice. *)
Lemma total_ext f g n : (forall i, (i < n)%nat -> f i = g i) -> total f n = total g n.
Proof. induction n as [|n IH]; intros H; [reflexivity|]. cbn [total]. rewrite IH by (intros; apply H; lia). now rewrite H by lia. Qed.
Lemma total_change f i d n : total (change f i d) n = total f n + (if Nat.ltb i n then d else 0).
Proof.
  induction n as [|n IH]; cbn [total]; [destruct (Nat.ltb_spec i 0); lia|]. rewrite IH. unfold change.
  destruct (Nat.ltb_spec i n), (Nat.ltb_spec i (S n)), (Nat.eqb_spec n i); lia.
Qed.
Lemma total_exchanged f x y n : (x < n)%nat -> (y < n)%nat -> total (exchanged f x y) n = total f n.
Proof.
  intros X Y. rewrite (total_ext _ (change (change f x (f y - f x)) y (f x - f y)) n).
  - rewrite !total_change. destruct (Nat.ltb_spec x n), (Nat.ltb_spec y n); lia.
  - intros i _. unfold exchanged, change. destruct (Nat.eqb_spec i y), (Nat.eqb_spec i x); subst; try congruence; try lia. 
Qed.
Lemma lent_perm a b : Permutation a b -> lent_bytes a = lent_bytes b.
Proof. intros P; unfold lent_bytes; induction P; cbn [fold_right]; lia. Qed.
Definition balanced (b : books) : Prop := total (balance b) (members b) = lent_bytes (lent b) /\ forall i, (i < members b)%nat -> (payee b i < members b)%nat.
Lemma outstanding_member s log m a n : own_inv s log -> In (m, a, n) (outstanding log) -> (m < length (s_mgrs s))%nat.
Proof.
  intros I B. eapply Permutation_in in B; [|symmetry; exact (i_owned _ _ I)]. apply in_flat_map in B as (x & X1 & X2).
  apply (In_nth _ _ None) in X1 as (j & _ & J). destruct x as [[[ad|] k [d|]]|]; cbn in X2; try contradiction. destruct X2 as [X2|[]]. injection X2 as -> -> ->.
  apply (i_mgr _ _ I j _ m J eq_refl).
Qed.
Lemma step_balanced sysmem s o log s' ev a b : own_inv s log -> all_alive s -> drops_manager o = false -> (forall m, o <> MoveManager m) -> kept s log b ->
  step sysmem s o = Ret (s', ev, a) -> balanced b -> balanced (fold_left book_event ev (book_op sysmem b o)).
Proof.
  intros I A D M K E (B1 & B2). pose proof K as [K1 K2 K3].
  destruct o; cbn [step book_op drops_manager] in *; try discriminate; try (injection E as <- <- <-; split; assumption).
  - destruct (N.ltb_spec cap sysmem); injection E as <- <- <-; cbn [fold_left]; [|split; assumption]. split; cbn [joins members balance payee lent total].
    + rewrite Nat.eqb_refl, Z.add_0_r, <- B1. apply total_ext. intros i L. destruct (Nat.eqb_spec i (members b)); [lia|reflexivity].
    + intros i L. destruct (Nat.eqb_spec i (members b)); [lia|]. assert (i < members b)%nat as L2 by lia. specialize (B2 i L2). lia.
  - destruct (get (s_mgrs s) m) as [x|] eqn:G; [|injection E as <- <- <-; split; assumption]. injection E as E. unfold mgr_allocate in E.
    destruct (mgr_limit x <? n)%N; [injection E as <- <- <-; split; assumption|]. destruct (m_locked x); [injection E as <- <- <-; split; assumption|].
    destruct (negb sys && negb (n =? 0)%N) eqn:C; [injection E as <- <- <-; split; assumption|]. pose proof (get_some _ _ _ G) as Lm.
    destruct sys; injection E as <- <- <-; cbn [fold_left]; [|split; assumption]. split; [|exact B2]. cbn [book_event balance members lent after_event lent_bytes fold_right snd].
    rewrite total_change, K1. destruct (Nat.ltb_spec m (length (s_mgrs s))); [|lia]. rewrite <- K1, B1. unfold lent_bytes. lia.
  - destruct (get (s_mgrs s) m); injection E as <- <- <-; split; assumption.
  - destruct (get (s_mgrs s) m); injection E as <- <- <-; split; assumption.
  - assert (ev = []) as -> by (destruct (get (s_mgrs s) a0), (get (s_mgrs s) b0); injection E as <- <- <-; reflexivity). cbn [fold_left].
    destruct (Nat.ltb_spec a0 (members b)); [|split; assumption]. destruct (Nat.ltb_spec b0 (members b)); [|split; assumption]. cbn [andb].
    split; [|exact B2]. cbn [balance members lent]. now rewrite total_exchanged.
  - exfalso. now apply (M m).
  - destruct (get (s_ress s) r); injection E as <- <- <-; split; assumption.
  - destruct (get (s_ress s) r); injection E as <- <- <-; split; assumption.
  - destruct (get (s_ress s) a0); [|injection E as <- <- <-; split; assumption]. destruct (get (s_ress s) b0); injection E as <- <- <-; split; assumption.
  - destruct (get (s_ress s) r) as [x|] eqn:G; [|injection E as <- <- <-; split; assumption].
    destruct (r_disp x) as [d|] eqn:Dx; [|injection E as <- <- <-; split; assumption].
    unfold mgr_dispose in E. cbn [s_mgrs] in E. destruct (get (s_mgrs s) d) as [md|] eqn:Gd; [|discriminate].
    destruct (r_addr x) as [ad|] eqn:Ad; cbn [sys_free h_live s_mgrs s_ress s_next] in E.
    + destruct in_dec as [Il|]; [|discriminate]. cbn [bind] in E. destruct (get (s_mgrs s) (m_self md)) as [ms|] eqn:Gs; [|discriminate]. cbn [bind] in E. injection E as <- <- <-.
      assert (IN : In (d, ad, r_len x) (outstanding log)).
      { destruct (owned_upd (s_ress s) r x None G) as (m & P & _). eapply Permutation_in; [exact (i_owned _ _ I)|]. unfold owned. rewrite P.
        destruct x as [? ? ?]; cbn in Ad, Dx; subst. now left. }
      cbn [fold_left]. split; [|exact B2]. unfold book_event. cbn [balance members lent after_event]. rewrite K2 in *. rewrite (find_lent d ad (r_len x)) by (try exact IN; apply (i_nodup _ _ I)).
      rewrite total_change. pose proof (get_some _ _ _ Gd) as Ld. rewrite <- K1 in Ld. specialize (B2 d Ld). destruct (Nat.ltb_spec (payee b d) (members b)); [|lia].
      pose proof (lent_perm _ _ (filter_one _ _ _ _ (i_nodup _ _ I) IN)) as P. cbn [lent_bytes fold_right snd] in P. unfold lent_bytes in *. lia.
    + cbn [bind] in E. destruct (get (s_mgrs s) (m_self md)) as [ms|] eqn:Gs; [|discriminate]. cbn [bind] in E. injection E as <- <- <-. split; assumption.
Qed.
Lemma traced_balanced sysmem ops : forall s log b s' h, own_inv s log -> all_alive s -> free_of drops_manager ops -> (forall m, ~ In (MoveManager m) ops) -> kept s log b -> balanced b ->
  traced sysmem s ops = Ret (s', h) -> balanced (book_run sysmem b h).
Proof.
  induction ops as [|o ops IH]; intros s log b s' h I A F M K B E; cbn [traced] in E; [injection E as <- <-; exact B|].
  inversion F as [|? ? F1 F2]; subst. destruct (step_total sysmem s o log I A F1) as (s1 & ev & a & S & A1). rewrite S in E. cbn [bind] in E.
  pose proof (step_own sysmem s o log s1 ev a I S) as I1. pose proof (step_kept sysmem s o log s1 ev a b I A F1 K S) as K1.
  assert (B1 : balanced (fold_left book_event ev (book_op sysmem b o))).
  { apply (step_balanced sysmem s o log s1 ev a b); try assumption. intros m ->. apply (M m). now left. }
  destruct (traced sysmem s1 ops) as [[s2 h2]| | | |] eqn:T; try discriminate. cbn [bind fst snd] in E. injection E as <- <-. cbn [book_run].
  apply (IH s1 (log ++ ev) _ s2 h2); try assumption. intros m X. apply (M m). now right.
Qed.
Theorem C135_conserved : forall sysmem ops s log, free_of drops_manager ops -> (forall m, ~ In (MoveManager m) ops) ->
  run sysmem st0 ops = Ret (s, log) ->
  total (size_of s) (length (s_mgrs s)) mod 2 ^ 64 = lent_bytes (outstanding log) mod 2 ^ 64.
Proof.
  intros sysmem ops s log F M R. destruct (C135_books sysmem ops F) as (s' & h & T & R' & _ & L & Z & O). rewrite R in R'. injection R' as <- ->.
  assert (A0 : all_alive st0) by (intros i X; cbn in X; lia).
  pose proof (traced_balanced sysmem ops st0 [] no_books s h inv0 A0 F M kept0 ltac:(split; [reflexivity|intros i X; cbn in X; lia]) T) as (B & _).
  set (b := book_run sysmem no_books h) in *. rewrite O in B. rewrite <- B, L. clear B R T O. revert L Z. generalize (members b). intros n _ Z.
  induction n as [|n IH]; [reflexivity|]. cbn [total]. rewrite Z.add_mod, IH by (try lia; intros; apply Z; lia). unfold size_of at 1. destruct (Z n ltac:(lia)) as (m & -> & ->).
  rewrite Z.mod_mod, <- Z.add_mod by lia. reflexivity.
Qed.
Print Assumptions C135_conserved.

(** A request is granted exactly when it fits in what the 64-bit difference of capacity and
    size says, whatever was swapped or moved before. *)
Theorem C135_granted : forall sysmem ops s h i n sys, free_of drops_manager ops -> traced sysmem st0 ops = Ret (s, h) ->
  (i < length (s_mgrs s))%nat ->
  exists m s' ev a, get (s_mgrs s) i = Some m /\ step sysmem s (Allocate i n sys) = Ret (s', ev, a) /\
    (a = Done <-> Z.of_N n <= (Z.of_N (m_cap m) - balance (book_run sysmem no_books h) i) mod 2 ^ 64 /\ m_locked m = false /\ (sys = true \/ n = 0%N)).
Proof.
  intros sysmem ops s h i n sys F T L. destruct (C135_books sysmem ops F) as (s' & h' & T' & _ & _ & L' & Z & _). rewrite T in T'. injection T' as <- <-.
  rewrite L' in L. destruct (Z i L) as (m & G & Sz). exists m. cbn [step]. rewrite G. unfold mgr_allocate. destruct (N.ltb_spec (mgr_limit m) n) as [Q|Q].
  - eexists _, _, _. split; [reflexivity|]. split; [reflexivity|]. split; [discriminate|]. intros (X & _). unfold mgr_limit in Q. apply N2Z.inj_lt in Q. rewrite Z_sub64, Sz, Zminus_mod_idemp_r in Q. lia.
  - assert (Z.of_N n <= (Z.of_N (m_cap m) - balance (book_run sysmem no_books h) i) mod 2 ^ 64) as X.
    { unfold mgr_limit in Q. apply N2Z.inj_le in Q. rewrite Z_sub64, Sz, Zminus_mod_idemp_r in Q. exact Q. }
    destruct (m_locked m); [eexists _, _, _; split; [reflexivity|]; split; [reflexivity|]; split; [discriminate|intros (_ & Y & _); discriminate]|].
    destruct sys; cbn [negb andb].
    + eexists _, _, _. split; [reflexivity|]. split; [reflexivity|]. split; [auto|reflexivity].
    + destruct (N.eqb_spec n 0) as [->|Nz]; cbn [negb]; (eexists _, _, _; split; [reflexivity|]; split; [reflexivity|]); split; auto; [discriminate|]. intros (_ & _ & [Y|Y]); [discriminate|contradiction].
Qed.
Print Assumptions C135_granted.
Example C135_ok :
  let ops := [NewManager 100; NewManager 50; Allocate 0 30 true; SwapManagers 0 1; Allocate 1 20 true; MoveManager 1; Allocate 2 5 true; DropResource 2; DropResource 0] in
  free_of drops_manager ops /\
  exists s h, traced 1000 st0 ops = Ret (s, h) /\ map (balance (book_run 1000 no_books h)) [0; 1; 2]%nat = [-30; 45; 55] /\
    map (size_of s) [0; 1; 2]%nat = [2 ^ 64 - 30; 45; 55].
Proof. split; [repeat constructor|]. eexists _, _. split; [vm_compute; reflexivity|]. split; vm_compute; reflexivity. Qed.
