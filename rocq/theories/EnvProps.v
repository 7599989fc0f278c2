(** C51, C76: environment variables. *)
From Coq Require Import Lia.
From Verif Require Import Base BaseLemmas StringViewModel EnvModel EnvSpec EnvProofs.
Local Open Scope N_scope.

(** ** C51: set, get, unset, clear *)

(** Every environment whose strings are of the form name=value: get finds the
    first variable of that name, and none iff there is none.  Of its value, it
    returns what precedes a second '='. *)
Theorem C51_get_partial p vars name fuel : lists p vars -> (length vars < fuel)%nat ->
  env_get fuel p name = Ret (match lookup vars name with Some v => Some (until_eq v) | None => None end).
Proof. intros P F. exact (get_spec p vars name fuel P F). Qed.
Print Assumptions C51_get_partial.

(** One call of set or unset: it succeeds, the variable reads back, every other
    variable reads as before (values without '='). *)
Theorem C51_set_partial p vars n v replace junk jv fuel : lists p vars -> size vars + 1 < 2 ^ 16 ->
  n <> [] -> Forall name_char n -> Forall (fun c => c <> 0) v -> size n + size v + 1 < 2 ^ 16 ->
  ~ In 61 v -> (length vars + 1 < fuel)%nat ->
  exists p', env_set false p (zstring n junk) (zstring v jv) replace = Ret (Ok tt, p') /\
    (replace = true \/ env_get fuel p n = Ret None -> env_get fuel p' n = Ret (Some v)) /\
    (replace = false -> env_get fuel p n <> Ret None -> env_get fuel p' n = env_get fuel p n) /\
    (forall x, x <> n -> env_get fuel p' x = env_get fuel p x).
Proof.
  intros P C NE NC V SZ NV F. destruct (set_spec p vars n v replace junk jv P NE NC V SZ C) as (p' & E & P').
  exists p'. split; [exact E|].
  pose proof (length_put n v replace vars) as LP.
  assert (forall x, env_get fuel p' x = Ret (option_map until_eq (lookup (put n v replace vars) x))) as G'
    by (intros x; apply get_spec; [exact P' | lia]).
  assert (forall x, env_get fuel p x = Ret (option_map until_eq (lookup vars x))) as G by (intros x; apply get_spec; [exact P | lia]).
  split; [|split].
  - rewrite G, G', lookup_put. intros H. unfold on. destruct (list_eq_dec N.eq_dec n n) as [_|X]; [|congruence].
    destruct (lookup vars n) eqn:Q; [destruct H as [->|H]; [|discriminate H]|]; cbn [option_map]; now rewrite until_eq_all.
  - intros -> H. rewrite G in H |- *. rewrite G', lookup_put. destruct (lookup vars n); [reflexivity|]. now destruct H.
  - intros x X. rewrite G, G', lookup_put. unfold on. destruct (list_eq_dec N.eq_dec x n); [contradiction|].
    now destruct (lookup vars n), replace.
Qed.
Print Assumptions C51_set_partial.

Theorem C51_unset p vars n junk fuel : lists p vars -> n <> [] -> Forall name_char n -> (length vars < fuel)%nat ->
  exists p', env_unset p (zstring n junk) = Ret (Ok tt, p') /\ env_get fuel p' n = Ret None /\
    (forall x, x <> n -> env_get fuel p' x = env_get fuel p x).
Proof.
  intros P NE NC F. destruct (unset_spec p vars n junk P NE NC) as (p' & E & P'). exists p'. split; [exact E|].
  pose proof (filter_length (fun w : list N * list N => if list_eq_dec N.eq_dec (fst w) n then false else true) vars) as LF.
  split.
  - rewrite (get_spec _ _ n fuel P') by lia. rewrite lookup_filter. unfold on. destruct (list_eq_dec N.eq_dec n n); [reflexivity|congruence].
  - intros x X. rewrite (get_spec _ _ x fuel P'), (get_spec _ _ x fuel P) by lia. rewrite lookup_filter. unfold on.
    destruct (list_eq_dec N.eq_dec x n); [contradiction | reflexivity].
Qed.
Print Assumptions C51_unset.

(** Any history: get behaves as a map, with the map operations of the
    specification; set and unset report success. *)
Theorem C51_history_partial junk ops : forall p vars m fuel,
  lists p vars -> (forall n, m n = lookup vars n) -> Forall (fun v => ~ In 61 (snd v)) vars ->
  Forall op_ok ops -> Forall no_eq_value ops -> N.of_nat (length vars + length ops) < 2 ^ 16 ->
  (length vars + length ops < fuel)%nat ->
  exists rs p', env_run junk p ops = Ret (rs, p') /\
    (forall n, env_get fuel p' n = Ret (fold_left m_step ops m n)) /\
    Forall2 (fun op r => op <> Clear -> r = Ok tt) ops rs.
Proof.
  induction ops as [|op ops IH]; intros p vars m fuel P M VQ OK NQ CNT F.
  - exists [], p. split; [reflexivity|]. split; [|constructor]. intros n. rewrite (get_spec p vars n fuel P) by (cbn in F; lia).
    cbn [fold_left]. rewrite M. unfold lookup. destruct (find _ vars) as [v|] eqn:Q; [|reflexivity]. cbn [option_map].
    apply find_some in Q. rewrite Forall_forall in VQ. now rewrite until_eq_all by (apply VQ; tauto).
  - inversion OK as [|? ? O OK']; subst. inversion NQ as [|? ? Q NQ']; subst. cbn [length] in CNT, F. cbn [env_run fold_left].
    destruct op as [n v replace|n|]; cbn [op_ok env_step no_eq_value] in *.
    + destruct O as (NE & NC & V & SZ).
      destruct (set_spec p vars n v replace junk junk P NE NC V SZ) as (p1 & -> & P1); [unfold size; lia|]. cbn [bind fst snd].
      pose proof (length_put n v replace vars) as LP.
      destruct (IH p1 (put n v replace vars) (m_step m (Set_ n v replace)) fuel) as (rs & p2 & -> & G & R); auto; try lia.
      * intros x. rewrite lookup_put. cbn [m_step]. rewrite M. destruct (lookup vars n), replace; unfold on; try rewrite M; auto.
      * apply Forall_put; [exact Q | exact VQ].
      * cbn [bind fst snd]. exists (Ok tt :: rs), p2. split; [reflexivity|]. split; [exact G|]. constructor; auto.
    + destruct O as (NE & NC). destruct (unset_spec p vars n junk P NE NC) as (p1 & -> & P1). cbn [bind fst snd].
      pose proof (filter_length (fun w : list N * list N => if list_eq_dec N.eq_dec (fst w) n then false else true) vars) as LF.
      destruct (IH p1 _ (m_step m (Unset n)) fuel P1) as (rs & p2 & -> & G & R); auto; try lia.
      * intros x. rewrite lookup_filter. cbn [m_step]. unfold on. now rewrite M.
      * apply Forall_forall. intros x I. apply filter_In in I. rewrite Forall_forall in VQ. now apply VQ.
      * cbn [bind fst snd]. exists (Ok tt :: rs), p2. split; [reflexivity|]. split; [exact G|]. constructor; auto.
    + unfold env_clear. cbn [c_clearenv bind fst snd negb Z.eqb].
      destruct (IH (mkProcess None (p_errno p)) [] (m_step m Clear) fuel) as (rs & p2 & -> & G & R); auto; try (cbn [length]; lia).
      * repeat split; constructor.
      * cbn [bind fst snd]. eexists (_ :: rs), p2. split; [reflexivity|]. split; [exact G|]. constructor; [congruence | exact R].
Qed.
Print Assumptions C51_history_partial.

(** HOME=/root, A=  ; then A=1, B unset, HOME kept. *)
Example C51_ok :
  let home := [72; 79; 77; 69] in
  let vars := [(home, [47; 114]); ([65], [])] in
  let p := mkProcess (Some (map entry vars)) 0 in
  let ops := [Set_ [65] [49] true; Unset [66]; Set_ home [120] false] in
  lists p vars /\ Forall op_ok ops /\ Forall no_eq_value ops /\ Forall (fun v => ~ In 61 (snd v)) vars /\
  env_run [] p ops = Ret ([Ok tt; Ok tt; Ok tt], mkProcess (Some (map entry [(home, [47; 114]); ([65], [49])])) 0) /\
  name_char 65 /\ size vars + 1 < 2 ^ 16.
Proof.
  cbv zeta.
  split.
  { split; [reflexivity|]. split; [reflexivity|].
    repeat constructor; cbn; intuition (try discriminate; try reflexivity). }
  split.
  { repeat constructor; cbn; try discriminate; try reflexivity. }
  split; [repeat constructor; cbn; intuition discriminate|].
  split; [repeat constructor; cbn; intuition discriminate|].
  split; [reflexivity|]. split; [split; discriminate | reflexivity].
Qed.

(** A set or unset that the system refuses is reported with the system's error and
    leaves the environment as it was: a name that is empty or has an '=', and no memory
    for a variable that has to be stored. *)
Theorem C51_refused nomem p n v replace junk jv : n = [] \/ In 61 n -> Forall (fun c => c <> 0) n -> Forall (fun c => c <> 0) v ->
  env_set nomem p (zstring n junk) (zstring v jv) replace = Ret (Err E_INVAL, mkProcess (p_environ p) E_INVAL) /\ env_unset p (zstring n junk) = Ret (Err E_INVAL, mkProcess (p_environ p) E_INVAL).
Proof.
  intros B N0 V0. assert (X : c_bad_name (Some n) = true).
  { destruct B as [->|I]; [reflexivity|]. destruct n as [|c t]; [destruct I|]. apply existsb_exists. exists 61. split; [exact I|reflexivity]. }
  assert (CV : (if sv_empty v then Ret (Some []) else (let! r := cstring (v ++ 0 :: jv) in Ret (Some r))) = Ret (Some v)).
  { destruct (sv_empty v) eqn:Y.
    - unfold sv_empty in Y. apply N.eqb_eq, size_0_nil in Y. now subst.
    - now rewrite cstring_spec. }
  assert (CN : (if sv_empty n then Ret (Some []) else (let! r := cstring (n ++ 0 :: junk) in Ret (Some r))) = Ret (Some n)).
  { destruct (sv_empty n) eqn:Y.
    - unfold sv_empty in Y. apply N.eqb_eq, size_0_nil in Y. now subst.
    - now rewrite cstring_spec. }
  unfold env_set, env_unset, zstring, data_cstring. cbn [chars_of]. rewrite CV, CN, cstring_spec by exact N0. cbn [bind].
  unfold c_setenv, c_unsetenv. rewrite X. now split.
Qed.
Print Assumptions C51_refused.
Theorem C51_no_memory p vars n v replace junk jv fuel : lists p vars -> n <> [] -> Forall name_char n -> Forall (fun c => c <> 0) v ->
  (length vars < fuel)%nat -> replace = true \/ env_get fuel p n = Ret None ->
  env_set true p (zstring n junk) (zstring v jv) replace = Ret (Err E_NOMEM, mkProcess (p_environ p) E_NOMEM).
Proof.
  intros P NE NC V0 F R. destruct (name_char_facts n NC) as (NI & N0).
  assert (CV : (if sv_empty v then Ret (Some []) else (let! r := cstring (v ++ 0 :: jv) in Ret (Some r))) = Ret (Some v)).
  { destruct (sv_empty v) eqn:Y.
    - unfold sv_empty in Y. apply N.eqb_eq, size_0_nil in Y. now subst.
    - now rewrite cstring_spec. }
  unfold env_set, zstring, data_cstring. cbn [chars_of]. rewrite CV, cstring_spec by exact N0. cbn [bind].
  unfold c_setenv. rewrite bad_name by assumption. cbn [andb].
  assert (Q : replace || negb (existsb (c_named n) (c_list p)) = true).
  { destruct R as [->|G]; [reflexivity|]. apply orb_true_iff. right. apply negb_true_iff. rewrite (get_spec p vars n fuel P F) in G.
    destruct (lookup vars n) eqn:Lk; [discriminate|].
    destruct P as (E & L & F1). assert (C : c_list p = map entry vars) by (unfold c_list; destruct (p_environ p); [assumption|now subst]).
    rewrite C. clear - Lk F1 NI. unfold lookup in Lk. induction F1 as [|w t (W & _) _ IH]; [reflexivity|]. cbn [map existsb]. cbn [find] in Lk.
    rewrite named_of by assumption. destruct (list_eq_dec N.eq_dec (fst w) n); [discriminate|]. now apply IH. }
  rewrite Q. reflexivity.
Qed.
Print Assumptions C51_no_memory.

(** Claimed: a value that was set reads back.  Not if it contains '='. *)
Theorem C51_set_refuted : exists p vars n v fuel p', lists p vars /\ op_ok (Set_ n v true) /\ (length vars + 1 < fuel)%nat /\
  env_set false p (zstring n []) (zstring v []) true = Ret (Ok tt, p') /\ env_get fuel p' n <> Ret (Some v).
Proof.
  exists (mkProcess (Some []) 0), [], [65], [98; 61; 99], 2%nat, (mkProcess (Some [[65; 61; 98; 61; 99]]) 0).
  split; [repeat split; constructor|]. split.
  { repeat split; try discriminate; repeat constructor; discriminate. }
  split; [cbn; lia|]. split; [reflexivity|]. vm_compute. discriminate.
Qed.
Print Assumptions C51_set_refuted.

(** clear empties the environment, and reports failure, whatever errno holds. *)
Theorem C51_clear_refuted p : exists p', env_clear p = Ret (Err (p_errno p), p') /\
  lists p' [] /\ (forall name fuel, (0 < fuel)%nat -> env_get fuel p' name = Ret None).
Proof.
  exists (mkProcess None (p_errno p)). split; [reflexivity|].
  assert (lists (mkProcess None (p_errno p)) []) as L by (repeat split; constructor).
  split; [exact L|]. intros name fuel F. now rewrite (get_spec _ [] name fuel L).
Qed.
Print Assumptions C51_clear_refuted.

(** set looks past the end of an empty name that is part of a longer text. *)
Theorem C51_empty_name_refuted : exists p name value p', chars_of name = [] /\
  env_set false p name value true = Ret (Ok tt, p') /\ p_environ p' <> p_environ p.
Proof.
  exists (mkProcess (Some []) 0), (View [] [65; 66; 0]), NullView, (mkProcess (Some [[65; 66; 61]]) 0).
  split; [reflexivity|]. split; [reflexivity|]. discriminate.
Qed.
Print Assumptions C51_empty_name_refuted.
(** And past the end of any name or value not followed by a NUL. *)
Theorem C51_unterminated_refuted : exists p name value p', chars_of name = [65] /\ chars_of value = [49] /\
  env_set false p name value true = Ret (Ok tt, p') /\ p_environ p' = Some [[65; 66; 61; 49; 50]].
Proof.
  exists (mkProcess (Some []) 0), (View [65] [66; 0]), (View [49] [50; 0]), (mkProcess (Some [[65; 66; 61; 49; 50]]) 0).
  repeat split.
Qed.
Print Assumptions C51_unterminated_refuted.

(** ** C76: iteration *)

(** Every variable once, in order, with its name and its value (up to a second
    '='); size and empty agree. *)
Theorem C76_iteration_partial p vars fuel : lists p vars -> (length vars < fuel)%nat ->
  env_forEach fuel p = Ret (map (fun v => (fst v, until_eq (snd v))) vars) /\
  env_size fuel p = Ret (size vars) /\
  env_empty fuel p = Ret (match vars with [] => true | _ => false end).
Proof.
  intros P F. split; [exact (forEach_spec p vars fuel P F)|]. rewrite (env_size_spec fuel p vars P F). split; [reflexivity|].
  unfold env_empty. rewrite (env_size_spec fuel p vars P F). cbn [bind]. f_equal. destruct vars as [|v t]; [reflexivity|].
  apply N.eqb_neq. rewrite size_cons. lia.
Qed.
Print Assumptions C76_iteration_partial.
Example C76_ok : env_forEach 3 (mkProcess (Some [[65; 61; 49]; [66; 61]]) 0) = Ret [([65], [49]); ([66], [])].
Proof. reflexivity. Qed.

(** From 65536 variables on, size, empty, get and forEach never return. *)
Theorem C76_endless_refuted p l : p_environ p = Some l -> 2 ^ 16 <= size l ->
  forall fuel, env_size fuel p = OutOfFuel /\ env_empty fuel p = OutOfFuel /\ env_forEach fuel p = OutOfFuel /\
    (forall name, env_get fuel p name = OutOfFuel).
Proof.
  intros E L fuel. assert (env_size fuel p = OutOfFuel) as S by (apply (size_loop_endless p l E L); lia).
  unfold env_empty, env_forEach, env_get. rewrite S. repeat split.
Qed.
Print Assumptions C76_endless_refuted.
Example C76_endless_ok : exists p l, p_environ p = Some l /\ 2 ^ 16 <= size l.
Proof.
  exists (mkProcess (Some (repeat [65; 61] (N.to_nat (2 ^ 16)))) 0), (repeat [65; 61] (N.to_nat (2 ^ 16))).
  split; [reflexivity|]. unfold size. rewrite repeat_length, N2Nat.id. apply N.le_refl.
Qed.
