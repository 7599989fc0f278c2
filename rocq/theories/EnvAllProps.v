(** C138: the environment of any process, whatever its strings and the arguments. *)
From Verif Require Import Base BaseLemmas StringViewModel StringSpec StringViewProofs EnvModel EnvSpec EnvProofs EnvAllSpec.
Ltac Zify.zify_post_hook ::= Z.div_mod_to_equations.

Lemma cut_until s : cut_name s = until_eq s.
Proof. induction s as [|c t IH]; cbn; [reflexivity|]. now rewrite IH. Qed.
Lemma env_var_shown e : env_var e = Ret (shown e).
Proof.
  unfold shown. fold (size e). set (s := firstn _ e).
  assert (size s < 2 ^ 16) as L by (unfold s, size; rewrite firstn_length; lia).
  assert (env_var e = env_var s) as ->.
  { unfold env_var. fold (u16 (size e)). rewrite !ntake_firstn. fold s. replace (firstn (N.to_nat (u16 (size s))) s) with s; [reflexivity|].
    unfold u16. rewrite N.mod_small by exact L. unfold size. now rewrite Nat2N.id, firstn_all. }
  destruct (in_dec N.eq_dec 61 s) as [I|I].
  - destruct (until_eq_split s I) as (r & E). rewrite !cut_until.
    assert (cut_value s = r) as ->.
    { rewrite E. generalize (until_eq_in s). generalize (until_eq s). intros u. induction u as [|c u IH]; intros H; cbn; [reflexivity|].
      destruct (N.eqb_spec c 61) as [->|]; [destruct H; now left|]. apply IH. intros X. apply H. now right. }
    rewrite E at 1. change (until_eq s ++ 61 :: r) with (entry (until_eq s, r)). apply (env_var_entry (until_eq s, r)); [apply until_eq_in|].
    unfold entry. cbn [fst snd]. now rewrite <- E.
  - rewrite env_var_bare by assumption. rewrite !cut_until, until_eq_all by assumption.
    assert (cut_value s = []) as ->; [|reflexivity]. clear - I. induction s as [|c s IH]; cbn; [reflexivity|].
    destruct (N.eqb_spec c 61) as [->|]; [destruct I; now left|]. apply IH. intros X. apply I. now right.
Qed.

Lemma env_size_any fuel p : size (c_list p) < 2 ^ 16 -> (length (c_list p) < fuel)%nat -> env_size fuel p = Ret (size (c_list p)).
Proof.
  intros L F. unfold env_size, c_list in *. destruct (p_environ p) as [l|] eqn:P.
  - apply size_loop_spec; auto; unfold size; lia.
  - destruct fuel; [lia|]. cbn. now rewrite P.
Qed.
Lemma deref_any p i e : size (c_list p) < 2 ^ 16 -> nnth (c_list p) i = Some e ->
  env_deref p (size (c_list p)) i = Ret (shown e) /\ env_next (size (c_list p)) i = Ret (i + 1).
Proof.
  intros L H. pose proof (nnth_Some_lt _ _ _ H) as I. unfold env_deref, env_next. destruct (N.leb_spec (size (c_list p)) i); [lia|].
  split; [|f_equal; unfold u16; lia]. unfold c_list in H. destruct (p_environ p) as [l|]; [|discriminate H]. rewrite H. apply env_var_shown.
Qed.
Lemma get_loop_any p name fuel : size (c_list p) < 2 ^ 16 -> forall i, i <= size (c_list p) -> (N.to_nat (size (c_list p) - i) < fuel)%nat ->
  env_get_loop fuel p name (size (c_list p)) (size (c_list p)) i = Ret (value_of name (ndrop i (c_list p))).
Proof.
  intros P. induction fuel as [|fuel IH]; intros i L F; [lia|].
  cbn [env_get_loop]. destruct (N.eqb_spec i (size (c_list p))) as [->|X].
  - now rewrite ndrop_all.
  - destruct (nnth_lt_Some (c_list p) i) as (e & H); [lia|]. destruct (deref_any p i e P H) as (-> & ->). cbn [bind].
    rewrite (nnth_skip _ _ _ H). cbn [value_of].
    destruct (sv_equals (fst (shown e)) name) eqn:Q.
    + apply sv_equals_spec in Q. destruct (list_eq_dec N.eq_dec (fst (shown e)) name); [reflexivity | contradiction].
    + destruct (list_eq_dec N.eq_dec (fst (shown e)) name) as [Y|Y].
      * apply sv_equals_spec in Y. congruence.
      * apply IH; lia.
Qed.
Lemma iterate_any p fuel : size (c_list p) < 2 ^ 16 -> forall i, i <= size (c_list p) -> (N.to_nat (size (c_list p) - i) < fuel)%nat ->
  env_iterate fuel p (size (c_list p)) (size (c_list p)) i = Ret (map shown (ndrop i (c_list p))).
Proof.
  intros P. induction fuel as [|fuel IH]; intros i L F; [lia|].
  cbn [env_iterate]. destruct (N.eqb_spec i (size (c_list p))) as [->|X].
  - now rewrite ndrop_all.
  - destruct (nnth_lt_Some (c_list p) i) as (e & H); [lia|]. destruct (deref_any p i e P H) as (-> & ->). cbn [bind].
    rewrite (nnth_skip _ _ _ H). cbn [map]. rewrite IH by lia. reflexivity.
Qed.

(** Reading the environment of any process: with fewer than 65536 strings everything is as
    shown; with more, nothing returns. *)
Theorem C138_read : forall p fuel,
  (size (c_list p) < 2 ^ 16 -> (length (c_list p) < fuel)%nat ->
     env_size fuel p = Ret (size (c_list p)) /\
     env_empty fuel p = Ret (match c_list p with [] => true | _ => false end) /\
     env_forEach fuel p = Ret (map shown (c_list p)) /\
     forall name, env_get fuel p name = Ret (value_of name (c_list p))) /\
  (2 ^ 16 <= size (c_list p) ->
     env_size fuel p = OutOfFuel /\ env_empty fuel p = OutOfFuel /\ env_forEach fuel p = OutOfFuel /\ forall name, env_get fuel p name = OutOfFuel).
Proof.
  intros p fuel. split.
  - intros L F. pose proof (env_size_any fuel p L F) as S0. split; [exact S0|]. unfold env_empty, env_forEach, env_get. rewrite S0. cbn [bind].
    split; [|split].
    + f_equal. destruct (c_list p) as [|x t]; [reflexivity|]. apply N.eqb_neq. rewrite size_cons. lia.
    + rewrite iterate_any by (auto; unfold size; lia). now rewrite ndrop_0.
    + intros name. rewrite get_loop_any by (auto; unfold size; lia). now rewrite ndrop_0.
  - intros L. destruct (p_environ p) as [l|] eqn:P; [|unfold c_list in L; rewrite P in L; cbn in L; lia].
    unfold c_list in L. rewrite P in L. assert (env_size fuel p = OutOfFuel) as S0 by (apply (size_loop_endless p l P L); lia).
    unfold env_empty, env_forEach, env_get. rewrite S0. repeat split.
Qed.
Print Assumptions C138_read.

(** ** Calls *)
Lemma text_read v t : text_of v t -> data_cstring v = Ret (Some t).
Proof.
  intros (s & after & rest & -> & E & NI). cbn [data_cstring]. rewrite E. rewrite cstring_spec; [reflexivity|].
  apply Forall_forall. intros x X ->. contradiction.
Qed.
Lemma away_read v : runs_away v -> data_cstring v = UB.
Proof.
  intros (s & after & -> & NI). cbn [data_cstring]. assert (cstring (s ++ after) = UB) as ->; [|reflexivity].
  induction (s ++ after) as [|c t IH]; [reflexivity|]. cbn [cstring]. destruct (N.eqb_spec c 0) as [->|]; [destruct NI; now left|].
  rewrite IH; [reflexivity|]. intros X. apply NI. now right.
Qed.
Lemma text_dec v : v = NullView \/ runs_away v \/ exists t, text_of v t.
Proof.
  destruct v as [|s after]; [now left|]. right. destruct (in_dec N.eq_dec 0 (s ++ after)) as [I|I]; [right|left; now exists s, after].
  assert (exists t rest, s ++ after = t ++ 0 :: rest /\ ~ In 0 t) as (t & rest & E & NI); [|now exists t, s, after, rest].
  induction (s ++ after) as [|c m IH]; [destruct I|]. destruct (N.eq_dec c 0) as [->|X]; [exists [], m; split; [reflexivity|intros []]|].
  destruct I as [I|I]; [congruence|]. destruct (IH I) as (t & rest & -> & NI). exists (c :: t), rest. split; [reflexivity|]. intros [Y|Y]; [congruence|contradiction].
Qed.
Lemma value_read v t : value_text v t -> (if sv_empty (chars_of v) then Ret (Some []) else data_cstring v) = Ret (Some t).
Proof.
  unfold value_text. destruct (list_eq_dec N.eq_dec (chars_of v) []) as [E|E].
  - intros ->. rewrite E. reflexivity.
  - intros T. destruct (sv_empty (chars_of v)) eqn:Y; [unfold sv_empty in Y; apply N.eqb_eq, size_0_nil in Y; contradiction|]. now apply text_read.
Qed.
Lemma named_iff n e : c_named n e = true <-> of_ n e.
Proof.
  unfold of_. revert e. induction n as [|x n IH]; intros [|c e]; cbn [c_named app].
  - split; [discriminate|intros (v & H); discriminate].
  - rewrite N.eqb_eq. split; [intros ->; now exists e|]. intros (v & H). congruence.
  - split; [discriminate|intros (v & H); discriminate].
  - rewrite andb_true_iff, N.eqb_eq, IH. split.
    + intros (-> & v & ->). now exists v.
    + intros (v & H). injection H as -> ->. split; [reflexivity|now exists v].
Qed.
Lemma name_iff n : c_bad_name (Some n) = false <-> is_name n.
Proof.
  unfold is_name. destruct n as [|c t]; cbn [c_bad_name]; [split; [discriminate|intros (H & _); congruence]|].
  split.
  - intros H. split; [discriminate|]. intros I. assert (existsb (fun x => x =? 61) (c :: t) = true) by (apply existsb_exists; exists 61; split; [exact I|reflexivity]). congruence.
  - intros (_ & H). apply not_true_iff_false. intros X. apply existsb_exists in X as (x & I & X). apply N.eqb_eq in X. subst. contradiction.
Qed.
Lemma absent_iff n l : existsb (c_named n) l = false <-> forall x, In x l -> ~ of_ n x.
Proof.
  split.
  - intros H x I O. apply named_iff in O. assert (existsb (c_named n) l = true) by (apply existsb_exists; eauto). congruence.
  - intros H. apply not_true_iff_false. intros X. apply existsb_exists in X as (x & I & X). apply named_iff in X. now apply (H x).
Qed.
Lemma put_absent n v replace l : (forall x, In x l -> ~ of_ n x) -> c_put n v replace l = l ++ [n ++ 61 :: v].
Proof.
  induction l as [|e l IH]; intros H; [reflexivity|]. cbn [c_put app]. destruct (c_named n e) eqn:X.
  - apply named_iff in X. exfalso. apply (H e); [now left|exact X].
  - rewrite IH; [reflexivity|]. intros x I. apply H. now right.
Qed.
Lemma put_present n v replace a old b : (forall x, In x a -> ~ of_ n x) ->
  c_put n v replace (a ++ (n ++ 61 :: old) :: b) = a ++ (n ++ 61 :: if replace : bool then v else old) :: b.
Proof.
  induction a as [|e a IH]; intros H; cbn [c_put app].
  - assert (c_named n (n ++ 61 :: old) = true) as -> by (apply named_iff; now exists old). now destruct replace.
  - destruct (c_named n e) eqn:X; [apply named_iff in X; exfalso; apply (H e); [now left|exact X]|].
    rewrite IH; [reflexivity|]. intros x I. apply H. now right.
Qed.
Lemma kept_iff n l l' : kept n l l' -> filter (fun e => negb (c_named n e)) l = l'.
Proof.
  induction 1 as [n|n x l l' O K IH|n x l l' O K IH]; [reflexivity| |]; cbn [filter].
  - apply named_iff in O. now rewrite O.
  - destruct (c_named n x) eqn:X; [apply named_iff in X; contradiction|]. cbn [negb]. now rewrite IH.
Qed.
Lemma kept_filter n l : kept n l (filter (fun e => negb (c_named n e)) l).
Proof.
  induction l as [|x l IH]; cbn [filter]; [constructor|]. destruct (c_named n x) eqn:X; cbn [negb].
  - apply kept_drop; [now apply named_iff|exact IH].
  - apply kept_keep; [|exact IH]. intros O. apply named_iff in O. congruence.
Qed.

Lemma effect_run c p r s : effect c (c_list p, p_errno p) r s -> exists p', run_call p c = Ret (r, p') /\ s = (c_list p', p_errno p').
Proof.
  intros E. remember (c_list p, p_errno p) as s0 eqn:ES. destruct E as [name value replace l e n v T V I A|name value replace nomem e n v a old b T V I A M
     |name value replace l e n v T V I A|name value replace nomem l e v V B|name l l' e n T C I K|name l e B|l e]; injection ES as EL EE; cbn [run_call].
  - unfold env_set. rewrite (text_read _ _ T), (value_read _ _ V). cbn [bind]. unfold c_setenv. apply name_iff in I as I'. rewrite I'. cbn [andb].
    eexists. split; [reflexivity|]. set (l1 := c_put _ _ _ _). change (c_list (mkProcess (Some l1) (p_errno p))) with l1. unfold l1. rewrite <- EL, put_absent by exact A. now rewrite EE.
  - unfold env_set. rewrite (text_read _ _ T), (value_read _ _ V). cbn [bind]. unfold c_setenv. apply name_iff in I as I'. rewrite I'.
    assert (nomem && (replace || negb (existsb (c_named n) (c_list p))) = false) as ->.
    { destruct M as [->| ->]; [reflexivity|]. cbn [orb]. rewrite <- EL, existsb_app. cbn [existsb].
      assert (c_named n (n ++ 61 :: old) = true) as -> by (apply named_iff; now exists old). cbn [orb]. rewrite orb_true_r. apply andb_false_r. }
    eexists. split; [reflexivity|]. set (l1 := c_put _ _ _ _). change (c_list (mkProcess (Some l1) (p_errno p))) with l1. unfold l1. rewrite <- EL, put_present by exact A. now rewrite EE.
  - unfold env_set. rewrite (text_read _ _ T), (value_read _ _ V). cbn [bind]. unfold c_setenv. apply name_iff in I as I'. rewrite I'.
    assert (true && (replace || negb (existsb (c_named n) (c_list p))) = true) as ->.
    { destruct A as [->|A]; [reflexivity|]. rewrite EL in A. apply absent_iff in A. rewrite A. now rewrite orb_true_r. }
    eexists. split; [reflexivity|]. cbn [p_errno]. unfold c_list in *. cbn [p_environ]. now rewrite EL.
  - unfold env_set. destruct B as [->|(n & T & B)].
    + cbn [data_cstring bind]. rewrite (value_read _ _ V). cbn [bind c_setenv]. eexists. split; [reflexivity|]. unfold c_list in *. cbn [p_environ p_errno]. now rewrite EL.
    + rewrite (text_read _ _ T), (value_read _ _ V). cbn [bind]. unfold c_setenv.
      assert (c_bad_name (Some n) = true) as -> by (destruct (c_bad_name (Some n)) eqn:X; [reflexivity|]; apply name_iff in X; contradiction).
      eexists. split; [reflexivity|]. unfold c_list in *. cbn [p_environ p_errno]. now rewrite EL.
  - unfold env_unset. rewrite (value_read name n).
    2:{ unfold value_text. destruct (list_eq_dec N.eq_dec (chars_of name) []); [contradiction|exact T]. }
    cbn [bind]. unfold c_unsetenv. apply name_iff in I as I'. rewrite I'. eexists. split; [reflexivity|]. cbn [p_errno].
    unfold c_list in *. cbn [p_environ]. rewrite EE. f_equal. apply kept_iff in K. rewrite <- K, EL. destruct (p_environ p); reflexivity.
  - unfold env_unset. assert (exists n, value_text name n /\ c_bad_name (Some n) = true) as (n & V & X).
    { destruct (list_eq_dec N.eq_dec (chars_of name) []) as [E0|E0].
      - exists []. split; [|reflexivity]. unfold value_text. rewrite E0. now destruct (list_eq_dec N.eq_dec [] []).
      - destruct B as [B|(n & T & B)]; [contradiction|]. exists n. split; [unfold value_text; now destruct (list_eq_dec N.eq_dec (chars_of name) [])|].
        destruct (c_bad_name (Some n)) eqn:X; [reflexivity|]. apply name_iff in X. contradiction. }
    rewrite (value_read _ _ V). cbn [bind]. unfold c_unsetenv. rewrite X. eexists. split; [reflexivity|]. unfold c_list in *. cbn [p_environ p_errno]. now rewrite EL.
  - unfold env_clear. cbn [c_clearenv]. exists (mkProcess None (p_errno p)). split; [rewrite <- EE; reflexivity|]. now rewrite <- EE.
Qed.
Lemma first_of n l : (forall x, In x l -> ~ of_ n x) \/ exists a old b, l = a ++ (n ++ 61 :: old) :: b /\ forall x, In x a -> ~ of_ n x.
Proof.
  induction l as [|e l IH]; [left; intros x []|]. destruct (c_named n e) eqn:X.
  - apply named_iff in X as (old & ->). right. exists [], old, l. split; [reflexivity|intros x []].
  - assert (~ of_ n e) as Y by (intros O; apply named_iff in O; congruence). destruct IH as [A|(a & old & b & -> & A)].
    + left. intros x [<-|I]; [exact Y|now apply A].
    + right. exists (e :: a), old, b. split; [reflexivity|]. intros x [<-|I]; [exact Y|now apply A].
Qed.
Lemma effect_total c l e : ~ undefined c -> exists r s, effect c (l, e) r s.
Proof.
  destruct c as [name value replace nomem|name|]; cbn [undefined]; intros U; [| |do 2 eexists; apply cleared].
  - assert (exists v, value_text value v) as (v & V).
    { unfold value_text. destruct (list_eq_dec N.eq_dec (chars_of value) []) as [E|E]; [now exists []|].
      destruct (text_dec value) as [->|[R|T]]; [now destruct E|destruct U; tauto|exact T]. }
    destruct (text_dec name) as [->|[R|(n & T)]]; [do 2 eexists; eapply set_refused; eauto|destruct U; now left|].
    destruct (c_bad_name (Some n)) eqn:B.
    + do 2 eexists. eapply set_refused; [exact V|]. right. exists n. split; [exact T|]. intros I. apply name_iff in I. congruence.
    + apply name_iff in B. destruct (first_of n l) as [A|(a & old & b & -> & A)].
      * destruct nomem; do 2 eexists; [eapply set_nomem; eauto|eapply set_new; eauto].
      * destruct nomem; [destruct replace|]; do 2 eexists; [eapply set_nomem; eauto|eapply set_over; eauto|eapply set_over; eauto].
  - destruct (list_eq_dec N.eq_dec (chars_of name) []) as [E|E]; [do 2 eexists; apply unset_refused; now left|].
    destruct (text_dec name) as [->|[R|(n & T)]]; [now destruct E|destruct U; tauto|].
    destruct (c_bad_name (Some n)) eqn:B.
    + do 2 eexists. apply unset_refused. right. exists n. split; [exact T|]. intros I. apply name_iff in I. congruence.
    + apply name_iff in B. do 2 eexists. eapply unset_gone; eauto. apply kept_filter.
Qed.
Lemma undefined_run c p : undefined c -> run_call p c = UB.
Proof.
  destruct c as [name value replace nomem|name|]; cbn [undefined run_call]; [| |intros []].
  - intros U. unfold env_set. destruct U as [R|(NE & R)]; [now rewrite (away_read _ R)|].
    destruct (data_cstring name) as [x| | | |] eqn:D; try reflexivity.
    3:{ destruct (text_dec name) as [->|[R'|(t & T)]]; [discriminate D|rewrite (away_read _ R') in D; discriminate D|rewrite (text_read _ _ T) in D; discriminate D]. }
    1:{ cbn [bind]. destruct (sv_empty (chars_of value)) eqn:Y; [unfold sv_empty in Y; apply N.eqb_eq, size_0_nil in Y; contradiction|]. now rewrite (away_read _ R). }
    1,2: (destruct (text_dec name) as [->|[R'|(t & T)]]; [discriminate D|rewrite (away_read _ R') in D; discriminate D|rewrite (text_read _ _ T) in D; discriminate D]).
  - intros (NE & R). unfold env_unset. destruct (sv_empty (chars_of name)) eqn:Y; [unfold sv_empty in Y; apply N.eqb_eq, size_0_nil in Y; contradiction|]. now rewrite (away_read _ R).
Qed.

Lemma away_dec v : runs_away v \/ ~ runs_away v.
Proof.
  destruct (text_dec v) as [->|[R|(t & s & after & rest & -> & E & NI)]]; [right; intros (s & after & X & _); discriminate|now left|].
  right. intros (s2 & after2 & X & Y). injection X as <- <-. apply Y. rewrite E. apply in_or_app. right. now left.
Qed.
Lemma undefined_dec c : undefined c \/ ~ undefined c.
Proof.
  destruct c as [name value replace nomem|name|]; cbn [undefined]; [| |tauto].
  - destruct (away_dec name), (away_dec value), (list_eq_dec N.eq_dec (chars_of value) []); tauto.
  - destruct (away_dec name), (list_eq_dec N.eq_dec (chars_of name) []); tauto.
Qed.

(** One call, whatever its arguments and the environment: undefined if it leaves the
    memory of its arguments, else exactly its effect. *)
Theorem C138_call : forall p c,
  (undefined c -> run_call p c = UB) /\
  (~ undefined c -> exists r p', run_call p c = Ret (r, p') /\ effect c (c_list p, p_errno p) r (c_list p', p_errno p')) /\
  (forall r s, effect c (c_list p, p_errno p) r s -> exists p', run_call p c = Ret (r, p') /\ s = (c_list p', p_errno p')).
Proof.
  intros p c. split; [apply undefined_run|]. split; [|apply effect_run].
  intros U. destruct (effect_total c (c_list p) (p_errno p) U) as (r & s & E). destruct (effect_run _ _ _ _ E) as (p' & R & ->). eauto.
Qed.
Print Assumptions C138_call.

(** Any history of calls. *)
Theorem C138_history : forall cs p,
  (Exists undefined cs -> run_calls p cs = UB) /\
  (Forall (fun c => ~ undefined c) cs -> exists rs p', run_calls p cs = Ret (rs, p') /\ history (c_list p, p_errno p) cs rs (c_list p', p_errno p')) /\
  (forall rs s, history (c_list p, p_errno p) cs rs s -> exists p', run_calls p cs = Ret (rs, p') /\ s = (c_list p', p_errno p')).
Proof.
  induction cs as [|c cs IH]; intros p; cbn [run_calls].
  - split; [intros H; inversion H|]. split; [intros _; do 2 eexists; split; [reflexivity|constructor]|].
    intros rs s H. inversion H; subst. eauto.
  - destruct (C138_call p c) as (U & D & R). split; [|split].
    + intros H. inversion H as [? ? X|? ? X]; subst; [now rewrite U|]. destruct (undefined_dec c) as [Y|Y]; [now rewrite U|].
      destruct (D Y) as (r & p1 & -> & _). cbn [bind snd]. now rewrite (proj1 (IH p1)).
    + intros H. inversion H as [|? ? X Y]; subst. destruct (D X) as (r & p1 & -> & E). cbn [bind fst snd].
      destruct (proj1 (proj2 (IH p1)) Y) as (rs & p2 & -> & H2). cbn [bind fst snd]. do 2 eexists. split; [reflexivity|]. econstructor; eauto.
    + intros rs s H. inversion H; subst. match goal with X : effect _ _ _ _ |- _ => destruct (R _ _ X) as (p1 & -> & ->) end. cbn [bind fst snd].
      match goal with X : history _ _ _ _ |- _ => destruct (proj2 (proj2 (IH p1)) _ _ X) as (p2 & -> & ->) end. cbn [bind fst snd]. eauto.
Qed.
Print Assumptions C138_history.

(** A string without '=', one with two, one that starts with it; a name that goes on after
    its end, values with and without an end. *)
Example C138_ok : let p := mkProcess (Some [[65]; [66; 61; 49; 61; 50]; [61; 120]]) 7 in
  map shown (c_list p) = [([65], []); ([66], [49]); ([], [120])] /\
  value_of [66] (c_list p) = Some [49] /\
  ~ undefined (CSet (View [65] [66; 0]) (View [] [1]) true false) /\ undefined (CSet (View [65] [0]) (View [49] [50]) true false) /\
  (exists p', run_calls p [CSet (View [65] [66; 0]) (View [] [1]) true false; CClear; CUnset NullView] = Ret ([Ok tt; Err 7; Err E_INVAL], p') /\ c_list p' = []) /\
  text_of (View [65] [66; 0]) [65; 66].
Proof.
  cbv zeta. split; [reflexivity|]. split; [reflexivity|]. split; [|split; [|split]].
  - intros [(s & a & E & X)|(X & _)]; [|now apply X]. injection E as <- <-. apply X. cbn. tauto.
  - right. split; [discriminate|]. exists [49], [50]. split; [reflexivity|]. cbn. intuition discriminate.
  - eexists. split; reflexivity.
  - exists [65], [66; 0], []. split; [reflexivity|]. split; [reflexivity|]. cbn. intuition discriminate.
Qed.
