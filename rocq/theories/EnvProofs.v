(** Proofs about the environment. *)
From Verif Require Import Base BaseLemmas StringViewModel StringSpec StringViewProofs EnvModel EnvSpec.
Ltac Zify.zify_post_hook ::= Z.div_mod_to_equations.

(** ** Size *)
Lemma size_loop_spec fuel p l : p_environ p = Some l -> size l < 2 ^ 16 -> forall n,
  n <= size l -> (N.to_nat (size l - n) < fuel)%nat -> env_size_loop fuel p n = Ret (size l).
Proof.
  intros E L. induction fuel as [|fuel IH]; intros n H F; [lia|].
  cbn [env_size_loop]. rewrite E. destruct (N.eq_dec n (size l)) as [->|X].
  - assert (nnth l (size l) = None) as -> by (apply nnth_None; lia). reflexivity.
  - destruct (nnth_lt_Some l n) as (x & ->); [lia|].
    assert (u16 (n + 1) = n + 1) as -> by (unfold u16; lia). apply IH; lia.
Qed.
Lemma env_size_spec fuel p vars : lists p vars -> (length vars < fuel)%nat -> env_size fuel p = Ret (size vars).
Proof.
  intros (E & L & _) F. unfold env_size. destruct (p_environ p) as [l|] eqn:P.
  - subst l. assert (size (map entry vars) = size vars) as X by (unfold size; now rewrite map_length).
    rewrite (size_loop_spec fuel p _ P); try lia; [now rewrite X|]. rewrite X. unfold size. lia.
  - subst vars. destruct fuel; [cbn in F; lia|]. cbn. now rewrite P.
Qed.

(** With 65536 strings or more the count never ends. *)
Lemma size_loop_endless p l : p_environ p = Some l -> 2 ^ 16 <= size l -> forall fuel n,
  n < 2 ^ 16 -> env_size_loop fuel p n = OutOfFuel.
Proof.
  intros E L. induction fuel as [|fuel IH]; intros n H; [reflexivity|].
  cbn [env_size_loop]. rewrite E. destruct (nnth_lt_Some l n) as (x & ->); [lia|]. apply IH. unfold u16. lia.
Qed.

(** ** One entry *)
Lemma occurs_in c s i : occurs [c] s i -> In c s.
Proof. intros (p & r & -> & _). apply in_or_app. right. now left. Qed.
Lemma until_eq_in s : ~ In 61 (until_eq s).
Proof.
  induction s as [|c t IH]; [auto|]. cbn. destruct (N.eqb_spec c 61); [auto|]. cbn. intros [H|H]; [congruence | auto].
Qed.
Lemma until_eq_all s : ~ In 61 s -> until_eq s = s.
Proof.
  induction s as [|c t IH]; [reflexivity|]. intros H. cbn. destruct (N.eqb_spec c 61) as [->|].
  - destruct H. now left.
  - rewrite IH; [reflexivity|]. intros I. apply H. now right.
Qed.
Lemma until_eq_split s : In 61 s -> exists r, s = until_eq s ++ 61 :: r.
Proof.
  induction s as [|c t IH]; [contradiction|]. intros H. cbn. destruct (N.eqb_spec c 61) as [->|X].
  - now exists t.
  - destruct H as [H|H]; [congruence|]. destruct (IH H) as (r & E). exists r. cbn. now rewrite <- E.
Qed.
Lemma occurs_before c p r i : ~ In c p -> i < N.of_nat (length p) -> ~ occurs [c] (p ++ [c] ++ r) i.
Proof.
  intros H I O. apply occurs_char in O. rewrite nnth_app in O. destruct (N.ltb_spec i (size p)) as [L|L]; [|unfold size in L; lia].
  rewrite nnth_nth_error in O. apply nth_error_In in O. contradiction.
Qed.
Lemma splits_exists s : exists qs, splits [61] s (until_eq s :: qs).
Proof.
  remember (length s) as n eqn:E. revert s E. induction n as [n IH] using lt_wf_ind. intros s ->.
  destruct (in_dec N.eq_dec 61 s) as [I|I].
  - destruct (until_eq_split s I) as (r & E). destruct (IH (length r)) with (s := r) as (qs & S); [|reflexivity|].
    + rewrite E, app_length. cbn. lia.
    + exists (until_eq r :: qs). rewrite E at 1. change (61 :: r) with ([61] ++ r). apply splits_first; [|exact S].
      intros i L. apply occurs_before; [apply until_eq_in | exact L].
  - exists []. rewrite until_eq_all by assumption. apply splits_last. intros i O. apply I. now apply occurs_in in O.
Qed.

Definition pick (var : list N * list N) (piece : list N * N * N) : list N * list N :=
  let '(v, i, _) := piece in if i =? 0 then (v, snd var) else if i =? 1 then (fst var, v) else var.
Lemma pick_rest n ps : forall i var, 2 <= i -> fold_left pick (indexed i n ps) var = var.
Proof.
  induction ps as [|p t IH]; intros i var H; [reflexivity|]. cbn [indexed fold_left].
  rewrite IH by lia. unfold pick. destruct (N.eqb_spec i 0); [lia|]. destruct (N.eqb_spec i 1); [lia|]. reflexivity.
Qed.
Lemma env_var_pieces s ps : size s < 2 ^ 16 -> splits [61] s ps -> env_var s = Ret (nth 0 ps [], nth 1 ps []).
Proof.
  intros L S. unfold env_var. assert (ntake (u16 (size s)) s = s) as ->.
  { apply ntake_all. unfold u16. rewrite N.mod_small by exact L. lia. }
  destruct (split3_spec (Datatypes.S (length s)) [61] s) as (qs & E & S'); [exact L | discriminate | lia|].
  rewrite E. cbn [bind fst]. rewrite (splits_det [61] s qs ps ltac:(discriminate) S' S). fold pick.
  f_equal. pose proof (splits_nonempty _ _ _ S) as NE. destruct ps as [|a [|b ps]]; [congruence|reflexivity|].
  cbn [indexed fold_left pick nth]. cbn. now apply pick_rest.
Qed.
Lemma env_var_entry var : ~ In 61 (fst var) -> size (entry var) < 2 ^ 16 ->
  env_var (entry var) = Ret (fst var, until_eq (snd var)).
Proof.
  intros H L. destruct (splits_exists (snd var)) as (qs & S).
  rewrite (env_var_pieces _ (fst var :: until_eq (snd var) :: qs) L); [reflexivity|].
  unfold entry. change (61 :: snd var) with ([61] ++ snd var). apply splits_first; [|exact S].
  intros i I. now apply occurs_before.
Qed.
Lemma env_var_bare s : ~ In 61 s -> size s < 2 ^ 16 -> env_var s = Ret (s, []).
Proof.
  intros H L. rewrite (env_var_pieces s [s] L); [reflexivity|]. apply splits_last. intros i O. apply H. now apply occurs_in in O.
Qed.

(** ** get and forEach *)
Definition seen (vars : list (list N * list N)) : list (list N * list N) := map (fun v => (fst v, until_eq (snd v))) vars.
Lemma lookup_cons v t name : lookup (v :: t) name = if list_eq_dec N.eq_dec (fst v) name then Some (snd v) else lookup t name.
Proof. unfold lookup. cbn [find]. destruct (list_eq_dec N.eq_dec (fst v) name); reflexivity. Qed.
Lemma lookup_seen vars name : lookup (seen vars) name = option_map until_eq (lookup vars name).
Proof.
  induction vars as [|v t IH]; [reflexivity|]. cbn [seen map]. fold (seen t). rewrite !lookup_cons, IH. cbn [fst snd].
  destruct (list_eq_dec N.eq_dec (fst v) name); reflexivity.
Qed.
Lemma nnth_skip {A} (l : list A) n x : nnth l n = Some x -> ndrop n l = x :: ndrop (n + 1) l.
Proof.
  revert n. induction l as [|y l IH]; intros n H; [discriminate|].
  cbn [nnth ndrop] in *. destruct (N.eqb_spec (n + 1) 0) as [Z|Z]; [lia|].
  destruct (n =? 0) eqn:X.
  - apply N.eqb_eq in X. subst n. injection H as ->. now rewrite ndrop_0.
  - apply N.eqb_neq in X. rewrite (IH _ H). do 2 f_equal. lia.
Qed.
Lemma deref_spec p vars i v : lists p vars -> nnth vars i = Some v ->
  env_deref p (size vars) i = Ret (fst v, until_eq (snd v)) /\ env_next (size vars) i = Ret (i + 1).
Proof.
  intros (E & L & F) H. pose proof (nnth_Some_lt _ _ _ H) as I. split.
  - unfold env_deref. destruct (N.leb_spec (size vars) i); [lia|].
    destruct (p_environ p) as [l|]; [|subst vars; discriminate H]. subst l.
    assert (nnth (map entry vars) i = Some (entry v)) as ->.
    { rewrite nnth_nth_error. rewrite nnth_nth_error in H. exact (map_nth_error entry _ _ H). }
    rewrite Forall_forall in F. rewrite nnth_nth_error in H. apply nth_error_In in H. apply F in H.
    apply env_var_entry; tauto.
  - unfold env_next. destruct (N.leb_spec (size vars) i); [lia|]. f_equal. unfold u16. lia.
Qed.
Lemma get_loop_spec p vars name fuel : lists p vars -> forall i, i <= size vars -> (N.to_nat (size vars - i) < fuel)%nat ->
  env_get_loop fuel p name (size vars) (size vars) i = Ret (option_map until_eq (lookup (ndrop i vars) name)).
Proof.
  intros P. induction fuel as [|fuel IH]; intros i L F; [lia|].
  cbn [env_get_loop]. destruct (N.eqb_spec i (size vars)) as [->|X].
  - now rewrite ndrop_all.
  - destruct (nnth_lt_Some vars i) as (v & H); [lia|]. destruct (deref_spec p vars i v P H) as (-> & ->). cbn [bind fst snd].
    rewrite (nnth_skip _ _ _ H), lookup_cons.
    destruct (sv_equals (fst v) name) eqn:Q.
    + apply sv_equals_spec in Q. destruct (list_eq_dec N.eq_dec (fst v) name); [reflexivity | contradiction].
    + destruct (list_eq_dec N.eq_dec (fst v) name) as [Y|Y].
      * apply sv_equals_spec in Y. congruence.
      * apply IH; lia.
Qed.
Lemma get_spec p vars name fuel : lists p vars -> (length vars < fuel)%nat ->
  env_get fuel p name = Ret (option_map until_eq (lookup vars name)).
Proof.
  intros P F. unfold env_get. rewrite (env_size_spec fuel p vars P F). cbn [bind].
  rewrite (get_loop_spec p vars name fuel P) by (unfold size; lia). now rewrite ndrop_0.
Qed.
Lemma iterate_spec p vars fuel : lists p vars -> forall i, i <= size vars -> (N.to_nat (size vars - i) < fuel)%nat ->
  env_iterate fuel p (size vars) (size vars) i = Ret (seen (ndrop i vars)).
Proof.
  intros P. induction fuel as [|fuel IH]; intros i L F; [lia|].
  cbn [env_iterate]. destruct (N.eqb_spec i (size vars)) as [->|X].
  - now rewrite ndrop_all.
  - destruct (nnth_lt_Some vars i) as (v & H); [lia|]. destruct (deref_spec p vars i v P H) as (-> & ->). cbn [bind].
    rewrite IH by lia. cbn [bind]. now rewrite (nnth_skip _ _ _ H).
Qed.
Lemma forEach_spec p vars fuel : lists p vars -> (length vars < fuel)%nat -> env_forEach fuel p = Ret (seen vars).
Proof.
  intros P F. unfold env_forEach. rewrite (env_size_spec fuel p vars P F). cbn [bind].
  rewrite (iterate_spec p vars fuel P) by (unfold size; lia). now rewrite ndrop_0.
Qed.

(** ** The C library on well-formed lists *)
Lemma cstring_spec s junk : Forall (fun c => c <> 0) s -> cstring (s ++ 0 :: junk) = Ret s.
Proof.
  induction 1 as [|c t C _ IH]; [reflexivity|]. cbn [app cstring]. destruct (N.eqb_spec c 0); [contradiction|]. now rewrite IH.
Qed.
Lemma named_entry name : ~ In 61 name -> forall n v, ~ In 61 n -> c_named name (n ++ 61 :: v) = true <-> n = name.
Proof.
  induction name as [|x name IH]; intros H [|c n] v G; cbn [c_named app].
  - rewrite N.eqb_refl. tauto.
  - rewrite N.eqb_eq. split; [intros ->; destruct G; now left | discriminate].
  - rewrite andb_true_iff, N.eqb_eq. split; [intros (-> & _); destruct H; now left | discriminate].
  - rewrite andb_true_iff, N.eqb_eq, IH; [|intros I; apply H; now right|intros I; apply G; now right].
    split; [intros (-> & ->); reflexivity | intros E; injection E; auto].
Qed.
Lemma named_of var name : ~ In 61 name -> ~ In 61 (fst var) ->
  c_named name (entry var) = if list_eq_dec N.eq_dec (fst var) name then true else false.
Proof.
  intros H G. pose proof (named_entry name H (fst var) (snd var) G) as X.
  unfold entry. destruct (list_eq_dec N.eq_dec (fst var) name) as [E|E].
  - now apply X.
  - destruct (c_named name (fst var ++ 61 :: snd var)); [|reflexivity]. destruct E. now apply X.
Qed.
Lemma name_char_facts n : Forall name_char n -> ~ In 61 n /\ Forall (fun c => c <> 0) n.
Proof.
  intros H. split.
  - intros I. rewrite Forall_forall in H. now apply H in I as [_ ?].
  - eapply Forall_impl; [|exact H]. now intros c [? _].
Qed.
Lemma bad_name n : n <> [] -> ~ In 61 n -> c_bad_name (Some n) = false.
Proof.
  intros NE H. destruct n as [|c n]; [congruence|]. cbn [c_bad_name].
  destruct (existsb (fun c => c =? 61) (c :: n)) eqn:E; [|reflexivity].
  apply existsb_exists in E. destruct E as (x & I & X). apply N.eqb_eq in X. subst. contradiction.
Qed.
Fixpoint put (n v : list N) (replace : bool) (vars : list (list N * list N)) : list (list N * list N) :=
  match vars with
  | [] => [(n, v)]
  | w :: t => if list_eq_dec N.eq_dec (fst w) n then (if replace then (n, v) else w) :: t else w :: put n v replace t
  end.
Lemma c_put_spec n v replace vars : ~ In 61 n -> Forall (fun var => ~ In 61 (fst var)) vars ->
  c_put n v replace (map entry vars) = map entry (put n v replace vars).
Proof.
  intros H F. induction F as [|w t W _ IH]; [reflexivity|]. cbn [map c_put put]. rewrite named_of by assumption.
  destruct (list_eq_dec N.eq_dec (fst w) n); [now destruct replace | cbn [map]; now rewrite IH].
Qed.
Lemma c_filter_spec n vars : ~ In 61 n -> Forall (fun var => ~ In 61 (fst var)) vars ->
  filter (fun e => negb (c_named n e)) (map entry vars) =
  map entry (filter (fun w => if list_eq_dec N.eq_dec (fst w) n then false else true) vars).
Proof.
  intros H F. induction F as [|w t W _ IH]; [reflexivity|]. cbn [map filter]. rewrite named_of by assumption.
  destruct (list_eq_dec N.eq_dec (fst w) n); cbn [negb map]; now rewrite IH.
Qed.
Lemma lookup_put n v replace vars x :
  lookup (put n v replace vars) x =
  match lookup vars n with
  | Some _ => if replace then on n (Some v) (lookup vars) x else lookup vars x
  | None => on n (Some v) (lookup vars) x
  end.
Proof.
  unfold on. induction vars as [|w t IH].
  - cbn [put]. rewrite lookup_cons. cbn [fst snd]. unfold lookup; cbn.
    destruct (list_eq_dec N.eq_dec n x), (list_eq_dec N.eq_dec x n); congruence.
  - cbn [put]. rewrite lookup_cons. destruct (list_eq_dec N.eq_dec (fst w) n) as [E|E].
    + destruct replace; rewrite !lookup_cons; cbn [fst snd]; [|reflexivity].
      destruct (list_eq_dec N.eq_dec n x), (list_eq_dec N.eq_dec x n), (list_eq_dec N.eq_dec (fst w) x); congruence.
    + rewrite lookup_cons, IH. destruct (list_eq_dec N.eq_dec (fst w) x) as [X|X].
      * destruct (list_eq_dec N.eq_dec x n); [congruence|]. rewrite lookup_cons.
        destruct (list_eq_dec N.eq_dec (fst w) x); [|contradiction]. destruct (lookup t n), replace; reflexivity.
      * rewrite lookup_cons. destruct (list_eq_dec N.eq_dec (fst w) x); [contradiction|]. reflexivity.
Qed.
Lemma lookup_filter n vars x :
  lookup (filter (fun w => if list_eq_dec N.eq_dec (fst w) n then false else true) vars) x = on n None (lookup vars) x.
Proof.
  unfold on. induction vars as [|w t IH]; [cbn; now destruct (list_eq_dec N.eq_dec x n)|].
  cbn [filter]. destruct (list_eq_dec N.eq_dec (fst w) n) as [E|E]; rewrite ?lookup_cons, IH.
  - destruct (list_eq_dec N.eq_dec x n), (list_eq_dec N.eq_dec (fst w) x); congruence.
  - destruct (list_eq_dec N.eq_dec x n), (list_eq_dec N.eq_dec (fst w) x); congruence.
Qed.
Lemma length_put n v r vars : (length (put n v r vars) <= S (length vars))%nat.
Proof. induction vars as [|w t IH]; cbn [put length]; [lia|]. destruct (list_eq_dec N.eq_dec (fst w) n); cbn [length]; lia. Qed.
Lemma Forall_put (P : list N * list N -> Prop) n v r vars : P (n, v) -> Forall P vars -> Forall P (put n v r vars).
Proof.
  intros H F. induction F as [|w t W F' IH]; cbn [put]; [auto|].
  destruct (list_eq_dec N.eq_dec (fst w) n); [destruct r|]; auto.
Qed.

Lemma filter_length {A} (f : A -> bool) l : (length (filter f l) <= length l)%nat.
Proof. induction l as [|x l IH]; cbn; [lia|]. destruct (f x); cbn; lia. Qed.

(** ** The operations *)
Lemma set_spec p vars n v replace junk jv : lists p vars -> n <> [] -> Forall name_char n -> Forall (fun c => c <> 0) v ->
  size n + size v + 1 < 2 ^ 16 -> size vars + 1 < 2 ^ 16 ->
  exists p', env_set false p (zstring n junk) (zstring v jv) replace = Ret (Ok tt, p') /\ lists p' (put n v replace vars).
Proof.
  intros (E & L & F) NE NC V SZ CNT. destruct (name_char_facts n NC) as (NI & N0).
  unfold env_set, zstring, data_cstring. rewrite cstring_spec by assumption. cbn [bind chars_of].
  assert ((if sv_empty v then Ret (Some []) else let! r := cstring (v ++ 0 :: jv) in Ret (Some r)) = Ret (Some v)) as ->.
  { destruct (sv_empty v) eqn:X.
    - unfold sv_empty in X. apply N.eqb_eq, size_0_nil in X. now subst.
    - now rewrite cstring_spec. }
  cbn [bind]. unfold c_setenv. rewrite bad_name by assumption. cbn [andb].
  eexists. split; [reflexivity|].
  assert (Forall (fun var => ~ In 61 (fst var)) vars) as F1 by (eapply Forall_impl; [|exact F]; now intros a [? _]).
  assert (c_list p = map entry vars) as C.
  { unfold c_list. destruct (p_environ p); [assumption | now subst]. }
  unfold lists. cbn [p_environ]. rewrite C, c_put_spec by assumption. split; [reflexivity|].
  pose proof (length_put n v replace vars) as LP. split; [unfold size in *; lia|].
  apply Forall_put; [|exact F]. cbn [fst]. split; [exact NI|]. unfold entry. cbn [fst snd]. rewrite size_app, size_cons. lia.
Qed.
Lemma unset_spec p vars n junk : lists p vars -> n <> [] -> Forall name_char n ->
  exists p', env_unset p (zstring n junk) = Ret (Ok tt, p') /\
    lists p' (filter (fun w => if list_eq_dec N.eq_dec (fst w) n then false else true) vars).
Proof.
  intros (E & L & F) NE NC. destruct (name_char_facts n NC) as (NI & N0).
  unfold env_unset, zstring, data_cstring. cbn [chars_of].
  assert (sv_empty n = false) as ->.
  { unfold sv_empty. apply N.eqb_neq. intros X. apply size_0_nil in X. contradiction. }
  rewrite cstring_spec by assumption. cbn [bind]. unfold c_unsetenv. rewrite bad_name by assumption.
  eexists. split; [reflexivity|].
  assert (Forall (fun var => ~ In 61 (fst var)) vars) as F1 by (eapply Forall_impl; [|exact F]; now intros a [? _]).
  unfold lists. cbn [p_environ]. split; [|split].
  - destruct (p_environ p); cbn [option_map]; [subst; now apply c_filter_spec | now subst].
  - pose proof (filter_length (fun w : list N * list N => if list_eq_dec N.eq_dec (fst w) n then false else true) vars).
    unfold size in *. lia.
  - apply Forall_forall. intros x I. apply filter_In in I. rewrite Forall_forall in F. now apply F.
Qed.
