(** C148: walking over an environment that the callback changes. *)
From Verif Require Import Base BaseLemmas StringViewModel StringSpec StringViewProofs EnvModel EnvSpec EnvProofs EnvAllSpec EnvAllProps.
Ltac Zify.zify_post_hook ::= Z.div_mod_to_equations.

(** ** What a walk is *)
(** The [k]-th place of a list of strings, as it is shown: past the last string there is one
    more place, which ends the list and is shown as no name and no value. *)
Definition place (l : list (list N)) (k : nat) : option (list N * list N) :=
  match nth_error l k with
  | Some e => Some (shown e)
  | None => if Nat.eqb k (length l) then Some ([], []) else None
  end.
(** [m] more visits from the place [k] on: each sees the environment as the previous visit
    left it.  A visit of no place is undefined. *)
Fixpoint walk {S : Type} (f : S -> N -> list N * list N -> process -> outcome (S * process)) (m k : nat) (st : S) (p : process) : outcome (S * process) :=
  match m with
  | O => Ret (st, p)
  | Datatypes.S m' =>
      match p_environ p with
      | None => UB
      | Some l =>
          match place l k with
          | None => UB
          | Some v => let! r := f st (N.of_nat k) v p in walk f m' (Datatypes.S k) (fst r) (snd r)
          end
      end
  end.

Lemma deref_place p sz k : N.of_nat k < sz ->
  env_deref p sz (N.of_nat k) = match p_environ p with None => UB | Some l => match place l k with Some v => Ret v | None => UB end end.
Proof.
  intros L. unfold env_deref. destruct (N.leb_spec sz (N.of_nat k)); [lia|]. destruct (p_environ p) as [l|]; [|reflexivity].
  unfold place. rewrite nnth_nth_error, Nat2N.id. destruct (nth_error l k) as [e|]; [apply env_var_shown|].
  unfold size. destruct (Nat.eqb_spec k (length l)) as [->|X].
  - rewrite N.eqb_refl. apply env_var_shown.
  - destruct (N.eqb_spec (N.of_nat k) (N.of_nat (length l))); [lia|reflexivity].
Qed.
Lemma walk_any {S : Type} (f : S -> N -> list N * list N -> process -> outcome (S * process)) sz fuel : sz < 2 ^ 16 ->
  forall m k st p, N.of_nat (k + m) = sz -> (m < fuel)%nat -> env_walk f fuel st p sz sz (N.of_nat k) = walk f m k st p.
Proof.
  intros L. induction fuel as [|fuel IH]; intros m k st p E F; [lia|]. cbn [env_walk]. destruct m as [|m].
  - replace (N.of_nat k =? sz) with true by (symmetry; apply N.eqb_eq; lia). reflexivity.
  - replace (N.of_nat k =? sz) with false by (symmetry; apply N.eqb_neq; lia). rewrite deref_place by lia. cbn [walk].
    destruct (p_environ p) as [l|]; [|reflexivity]. destruct (place l k) as [v|]; [|reflexivity]. cbn [bind].
    destruct (f st (N.of_nat k) v p) as [r| | | |]; cbn [bind]; try reflexivity.
    unfold env_next. destruct (N.leb_spec sz (N.of_nat k)); [lia|]. cbn [bind].
    replace (u16 (N.of_nat k + 1)) with (N.of_nat (Datatypes.S k)) by (unfold u16; lia). apply IH; lia.
Qed.

(** However the callback changes the environment, it is called once for each string there was
    at the start, for the places 0, 1, 2, ... in turn, each as it is by then; with 65536
    strings or more nothing is visited and the walk does not end. *)
Theorem C148_walk : forall (S : Type) (f : S -> N -> list N * list N -> process -> outcome (S * process)) fuel st p,
  (size (c_list p) < 2 ^ 16 -> (length (c_list p) < fuel)%nat ->
     env_forEach_do f fuel st p = walk f (length (c_list p)) 0 st p) /\
  (2 ^ 16 <= size (c_list p) -> env_forEach_do f fuel st p = OutOfFuel).
Proof.
  intros S f fuel st p. split.
  - intros L F. unfold env_forEach_do. rewrite env_size_any by assumption. cbn [bind]. change 0 with (N.of_nat 0). apply walk_any; [exact L|reflexivity|exact F].
  - intros L. unfold env_forEach_do. destruct (C138_read p fuel) as (_ & H). destruct (H L) as (-> & _). reflexivity.
Qed.
Print Assumptions C148_walk.

(** ** Callbacks that only set variables *)
Definition is_set (c : call) : Prop := match c with CSet _ _ _ _ => ~ undefined c | _ => False end.
(** The two strings are of the same variable, if of any. *)
Definition same_var (e e' : list N) : Prop := forall n, is_name n -> (of_ n e <-> of_ n e').

Lemma same_var_refl e : same_var e e. Proof. intros n _. tauto. Qed.
Lemma same_var_trans a b c : same_var a b -> same_var b c -> same_var a c.
Proof. intros H G n X. now rewrite (H n X), (G n X). Qed.
Lemma of_name_eq n m e : is_name n -> is_name m -> of_ n e -> of_ m e -> n = m.
Proof.
  intros (_ & A) (_ & B) (v & ->) (w & E). revert m B E. induction n as [|c n IH]; intros [|d m] B E; cbn in E.
  - reflexivity.
  - injection E as <- _. destruct B. now left.
  - injection E as -> _. destruct A. now left.
  - injection E as -> E. f_equal. apply (IH (fun X => A (or_intror X)) m (fun X => B (or_intror X)) E).
Qed.
Lemma same_var_of n v w : is_name n -> same_var (n ++ 61 :: v) (n ++ 61 :: w).
Proof.
  intros Hn m Hm. assert (forall u, of_ n (n ++ 61 :: u)) as O by (intros u; now exists u).
  split; intros H.
  - assert (n = m) as <- by (eapply of_name_eq; eauto). apply O.
  - assert (n = m) as <- by (eapply of_name_eq; eauto). apply O.
Qed.
(** [l'] has a string of the same variable in each place of [l], and perhaps more. *)
Definition grown (l l' : list (list N)) : Prop := exists a b, l' = a ++ b /\ Forall2 same_var l a.
Lemma F2_refl (l : list (list N)) : Forall2 same_var l l.
Proof. induction l; constructor; [apply same_var_refl|assumption]. Qed.
Lemma grown_refl l : grown l l. Proof. exists l, []. split; [now rewrite app_nil_r|apply F2_refl]. Qed.
Lemma F2_trans l : forall m k, Forall2 same_var l m -> Forall2 same_var m k -> Forall2 same_var l k.
Proof.
  induction l as [|x l IH]; intros m k H G; inversion H; subst; inversion G; subst; constructor.
  - eapply same_var_trans; eauto.
  - eapply IH; eauto.
Qed.
Lemma grown_trans l m k : grown l m -> grown m k -> grown l k.
Proof.
  intros (a & b & -> & H) (c & d & -> & G). apply Forall2_app_inv_l in G as (c1 & c2 & G1 & G2 & ->).
  exists c1, (c2 ++ d). split; [now rewrite app_assoc|]. eapply F2_trans; eauto.
Qed.
Lemma put_grown n v replace l : is_name n -> grown l (c_put n v replace l).
Proof.
  intros Hn. induction l as [|e l IH]; cbn [c_put].
  - exists [], [n ++ 61 :: v]. split; [reflexivity|constructor].
  - destruct (c_named n e) eqn:X.
    + exists ((if replace then n ++ 61 :: v else e) :: l), []. split; [now rewrite app_nil_r|]. constructor; [|apply F2_refl].
      destruct replace; [|apply same_var_refl]. apply named_iff in X as (w & ->). now apply same_var_of.
    + destruct IH as (a & b & -> & H). exists (e :: a), b. split; [reflexivity|]. constructor; [apply same_var_refl|exact H].
Qed.
(** A defined set keeps every string's variable in place, and the environment is there. *)
Lemma set_grown c p r p' : is_set c -> run_call p c = Ret (r, p') -> grown (c_list p) (c_list p') /\ (p_environ p <> None -> p_environ p' <> None).
Proof.
  destruct c as [name value replace nomem|name|]; cbn [is_set]; try tauto. intros _. cbn [run_call]. unfold env_set.
  destruct (data_cstring name) as [n| | | |]; cbn [bind]; try discriminate.
  destruct (if sv_empty (chars_of value) then _ else _) as [[v|]| | | |]; cbn [bind]; try discriminate.
  unfold c_setenv. destruct n as [n|].
  2: { intros H. injection H as _ <-. split; [apply grown_refl|auto]. }
  destruct (c_bad_name (Some n)) eqn:B.
  { intros H. injection H as _ <-. split; [apply grown_refl|auto]. }
  destruct (nomem && _).
  { intros H. injection H as _ <-. split; [apply grown_refl|auto]. }
  intros H. injection H as _ <-. cbn. split; [|discriminate]. apply put_grown. now apply name_iff.
Qed.
Lemma sets_grown cs : forall p rs p', Forall is_set cs -> run_calls p cs = Ret (rs, p') -> grown (c_list p) (c_list p') /\ (p_environ p <> None -> p_environ p' <> None).
Proof.
  induction cs as [|c cs IH]; intros p rs p' F H; cbn [run_calls] in H.
  - injection H as _ <-. split; [apply grown_refl|auto].
  - inversion F as [|? ? F1 F2]; subst. destruct (run_call p c) as [[r q]| | | |] eqn:C; cbn [bind fst snd] in H; try discriminate.
    destruct (run_calls q cs) as [[rs' q']| | | |] eqn:D; cbn [bind fst snd] in H; try discriminate. injection H as _ <-.
    destruct (set_grown c p r q F1 C) as (G1 & E1). destruct (IH q rs' q' F2 D) as (G2 & E2). split; [eapply grown_trans; eauto|auto].
Qed.

(** The callback that also writes down what it is shown. *)
Definition seeing {S : Type} (f : S -> N -> list N * list N -> process -> outcome (S * process)) :
  list (list N * list N) * S -> N -> list N * list N -> process -> outcome ((list (list N * list N) * S) * process) :=
  fun st k v p => let! r := f (snd st) k v p in Ret ((fst st ++ [v], fst r), snd r).
(** The callback returns, having made some sets and nothing else. *)
Definition only_sets {S : Type} (f : S -> N -> list N * list N -> process -> outcome (S * process)) : Prop :=
  forall st k v p, exists st' cs rs p', Forall is_set cs /\ run_calls p cs = Ret (rs, p') /\ f st k v p = Ret (st', p').

Lemma sets_walk {S : Type} (f : S -> N -> list N * list N -> process -> outcome (S * process)) : only_sets f ->
  forall l a st seen p, grown (a ++ l) (c_list p) -> (l <> [] -> p_environ p <> None) ->
  exists got st' p', walk (seeing f) (length l) (length a) (seen, st) p = Ret ((seen ++ got, st'), p') /\
    grown (a ++ l) (c_list p') /\ Forall2 (fun e v => exists e', same_var e e' /\ v = shown e') l got.
Proof.
  intros O l. induction l as [|e l IH]; intros a st seen p G E.
  - exists [], st, p. cbn. rewrite app_nil_r. repeat split; [rewrite app_nil_r in G; now rewrite app_nil_r|constructor].
  - cbn [length walk]. unfold c_list in G. destruct (p_environ p) as [cur|] eqn:P; [|now destruct E].
    pose proof G as (c & d & -> & F2). apply Forall2_app_inv_l in F2 as (c1 & c2 & F21 & F22 & ->).
    inversion F22 as [|? e' ? l2 Q F23]; subst.
    assert (length c1 = length a) as L1 by (clear - F21; induction F21; cbn; congruence).
    assert (place ((c1 ++ e' :: l2) ++ d) (length a) = Some (shown e')) as ->.
    { unfold place. rewrite <- app_assoc, nth_error_app2 by lia. now rewrite L1, Nat.sub_diag. }
    unfold seeing at 1. cbn [snd fst]. destruct (O st (N.of_nat (length a)) (shown e') p) as (st' & cs & rs & p' & FS & R & ->). cbn [bind fst snd].
    destruct (sets_grown cs p rs p' FS R) as (G' & E').
    assert (grown ((a ++ [e]) ++ l) (c_list p')) as G2.
    { rewrite <- app_assoc. cbn [app]. eapply grown_trans; [exact G|]. unfold c_list in G' at 1. now rewrite P in G'. }
    destruct (IH (a ++ [e]) st' (seen ++ [shown e']) p' G2) as (got & st2 & p2 & W & G3 & F3).
    { intros _. apply E'. rewrite P. discriminate. }
    rewrite app_length in W. cbn [length] in W. rewrite Nat.add_1_r in W. rewrite W.
    exists (shown e' :: got), st2, p2. rewrite <- !app_assoc in *. cbn [app] in *. repeat split; [exact G3|]. constructor; [eauto|exact F3].
Qed.

(** A callback that only sets variables, whichever, sees every variable there was at the
    start exactly once and in order, perhaps with a value set meanwhile, and none of the
    variables it adds; the walk ends, and every variable is still in its place. *)
Theorem C148_sets : forall (S : Type) (f : S -> N -> list N * list N -> process -> outcome (S * process)) fuel st p,
  size (c_list p) < 2 ^ 16 -> (length (c_list p) < fuel)%nat -> only_sets f ->
  exists seen st' p', env_forEach_do (seeing f) fuel ([], st) p = Ret ((seen, st'), p') /\
    Forall2 (fun e v => exists e', same_var e e' /\ v = shown e') (c_list p) seen /\
    exists a b, c_list p' = a ++ b /\ Forall2 same_var (c_list p) a.
Proof.
  intros S f fuel st p L F O. destruct (C148_walk _ (seeing f) fuel ([], st) p) as (W & _). rewrite W by assumption.
  destruct (sets_walk f O (c_list p) [] st [] p) as (got & st' & p' & R & G & F2).
  - apply grown_refl.
  - unfold c_list. destruct (p_environ p); [discriminate|congruence].
  - cbn [length app] in R. exists got, st', p'. split; [exact R|]. split; [exact F2|exact G].
Qed.
Print Assumptions C148_sets.

(** ** Removing each variable as it is visited *)
(** By its name, copied to memory where a NUL follows. *)
Definition unset_visited (_ : unit) (_ : N) (v : list N * list N) (p : process) : outcome (unit * process) :=
  let! r := env_unset p (View (fst v) [0]) in Ret (tt, snd r).
(** By the name as it was handed over: in the string of the environment. *)
Definition unset_in_place (_ : unit) (_ : N) (v : list N * list N) (p : process) : outcome (unit * process) :=
  let! r := env_unset p (View (fst v) (61 :: snd v ++ [0])) in Ret (tt, snd r).
(** Ordinary variables: strings NAME=VALUE, with no NUL, short enough, of different names. *)
Definition ordinary (e : list N) : Prop := size e < 2 ^ 16 /\ ~ In 0 e /\ exists n, is_name n /\ of_ n e.
Definition distinct (l : list (list N)) : Prop := forall a e b e' c n, l = a ++ e :: b ++ e' :: c -> of_ n e -> of_ n e' -> ~ is_name n.

Lemma cut_name_of n v : ~ In 61 n -> cut_name (n ++ 61 :: v) = n /\ cut_value (n ++ 61 :: v) = v.
Proof.
  induction n as [|c n IH]; intros H; [now cbn|]. cbn. destruct (N.eqb_spec c 61) as [->|]; [destruct H; now left|].
  destruct IH as (-> & ->); [intros X; apply H; now right|]. easy.
Qed.
Lemma shown_ordinary n v : is_name n -> size (n ++ 61 :: v) < 2 ^ 16 -> shown (n ++ 61 :: v) = (n, cut_name v).
Proof.
  intros (_ & Hn) L. unfold shown. fold (size (n ++ 61 :: v)). rewrite N.mod_small by exact L.
  unfold size. rewrite Nat2N.id, firstn_all. destruct (cut_name_of n v Hn) as (-> & ->). reflexivity.
Qed.
Lemma unset_one p l n : p_environ p = Some l -> is_name n -> ~ In 0 n ->
  env_unset p (View n [0]) = Ret (Ok tt, mkProcess (Some (filter (fun e => negb (c_named n e)) l)) (p_errno p)).
Proof.
  intros P Hn Z. unfold env_unset. cbn [chars_of]. destruct (sv_empty n) eqn:Y.
  { unfold sv_empty in Y. apply N.eqb_eq, size_0_nil in Y. now destruct Hn. }
  rewrite (text_read _ n) by (exists n, [0], []; auto). cbn [bind]. unfold c_unsetenv.
  rewrite (proj2 (name_iff n) Hn). rewrite P. reflexivity.
Qed.
Lemma unset_none p : env_unset p (View [] [0]) = Ret (Err E_INVAL, mkProcess (p_environ p) E_INVAL).
Proof. reflexivity. Qed.
Lemma filter_all {A} (g : A -> bool) l : (forall x, In x l -> g x = true) -> filter g l = l.
Proof. induction l as [|x l IH]; intros H; cbn; [reflexivity|]. rewrite H by now left. f_equal. apply IH. intros y Y. apply H. now right. Qed.
Lemma unset_middle a e b n : distinct (a ++ e :: b) -> is_name n -> of_ n e -> filter (fun x => negb (c_named n x)) (a ++ e :: b) = a ++ b.
Proof.
  intros D Hn O. rewrite filter_app. cbn [filter]. rewrite (proj2 (named_iff n e) O). cbn [negb]. f_equal; apply filter_all; intros x X.
  - apply negb_true_iff, not_true_iff_false. intros Y. apply named_iff in Y. apply in_split in X as (a1 & a2 & ->).
    apply (D a1 x a2 e b n); auto. now rewrite <- app_assoc.
  - apply negb_true_iff, not_true_iff_false. intros Y. apply named_iff in Y. apply in_split in X as (b1 & b2 & ->).
    now apply (D a e b1 x b2 n).
Qed.
Lemma distinct_less a e b : distinct (a ++ e :: b) -> distinct (a ++ b).
Proof.
  intros D u x v y w n E O1 O2. 
  assert (forall g h, a ++ b = g ++ h -> exists g' h', a ++ e :: b = g' ++ h' /\ ((g' = g /\ exists h1 h2, h = h1 ++ h2 /\ h' = h1 ++ e :: h2) \/ (h' = h /\ exists g1 g2, g = g1 ++ g2 /\ g' = g1 ++ e :: g2))) as SP.
  { clear. intros g h E. destruct (Nat.le_gt_cases (length g) (length a)) as [L|L].
    - assert (a = g ++ skipn (length g) a /\ h = skipn (length g) a ++ b) as (E1 & E2).
      { assert (firstn (length g) (a ++ b) = g) as F by (rewrite E, firstn_app, firstn_all, Nat.sub_diag, firstn_O, app_nil_r; reflexivity).
        rewrite firstn_app in F. replace (length g - length a)%nat with 0%nat in F by lia. rewrite firstn_O, app_nil_r in F.
        assert (a = g ++ skipn (length g) a) as E1 by (rewrite <- F at 1; symmetry; apply firstn_skipn).
        split; [exact E1|]. rewrite E1, <- app_assoc in E. apply app_inv_head in E. now rewrite E. }
      exists g, (skipn (length g) a ++ e :: b). split; [rewrite app_assoc; now rewrite <- E1|]. left. split; [reflexivity|]. now exists (skipn (length g) a), b.
    - assert (g = a ++ skipn (length a) g /\ b = skipn (length a) g ++ h) as (E1 & E2).
      { assert (firstn (length a) (g ++ h) = a) as F by (rewrite <- E, firstn_app, firstn_all, Nat.sub_diag, firstn_O, app_nil_r; reflexivity).
        rewrite firstn_app in F. replace (length a - length g)%nat with 0%nat in F by lia. rewrite firstn_O, app_nil_r in F.
        assert (g = a ++ skipn (length a) g) as E1 by (rewrite <- F at 1; symmetry; apply firstn_skipn).
        split; [exact E1|]. rewrite E1, <- app_assoc in E. now apply app_inv_head in E. }
      exists (a ++ e :: skipn (length a) g), h. split; [rewrite <- app_assoc; cbn; now rewrite <- E2|]. right. split; [reflexivity|]. now exists a, (skipn (length a) g). }
  destruct (SP u (x :: v ++ y :: w) E) as (g' & h' & E' & [(-> & h1 & h2 & H1 & ->)|(-> & g1 & g2 & -> & ->)]).
  - destruct h1 as [|x1 h1]; cbn [app] in H1.
    + subst h2. apply (D (u ++ [e]) x v y w n); auto. rewrite E'. now rewrite <- app_assoc.
    + injection H1 as <- H1. 
      destruct (Nat.le_gt_cases (length h1) (length v)) as [L|L].
      * assert (exists v2, v = h1 ++ v2 /\ h2 = v2 ++ y :: w) as (v2 & -> & ->).
        { clear - H1 L. revert h1 H1 L. induction v as [|c v IH]; intros [|d h1] H1 L; cbn in *; try lia.
          - exists []. now split.
          - exists (c :: v). now split.
          - injection H1 as -> H1. destruct (IH h1 H1) as (v2 & -> & ->); [lia|]. now exists v2. }
        apply (D u x (h1 ++ e :: v2) y w n); auto. rewrite E'. cbn. now rewrite <- app_assoc.
      * assert (exists w1, h1 = v ++ y :: w1 /\ w = w1 ++ h2) as (w1 & -> & ->).
        { clear - H1 L. revert h1 H1 L. induction v as [|c v IH]; intros [|d h1] H1 L; cbn in *; try lia.
          - injection H1 as -> ->. now exists h1.
          - injection H1 as -> H1. destruct (IH h1 H1) as (w1 & -> & ->); [lia|]. now exists w1. }
        apply (D u x v y (w1 ++ e :: h2) n); auto. rewrite E'. cbn. rewrite <- app_assoc. reflexivity.
  - apply (D (g1 ++ e :: g2) x v y w n); auto.
Qed.

(** One visit of an ordinary variable removes it, and nothing else. *)
Lemma unset_step p a e b k : p_environ p = Some (a ++ e :: b) -> ordinary e -> distinct (a ++ e :: b) ->
  unset_visited tt k (shown e) p = Ret (tt, mkProcess (Some (a ++ b)) (p_errno p)).
Proof.
  intros P (L & Z & n & Hn & v & E) D. unfold unset_visited. subst e. rewrite shown_ordinary by assumption. cbn [fst].
  rewrite (unset_one p _ n P Hn) by (intros X; apply Z; apply in_or_app; now left). cbn [bind snd].
  rewrite unset_middle; [reflexivity|exact D|exact Hn|now exists v].
Qed.
Lemma unset_walk m : forall k p l, p_environ p = Some l -> length l = m -> Forall ordinary l -> distinct l -> (1 <= m)%nat -> (3 <= k + m)%nat ->
  walk unset_visited m k tt p = UB.
Proof.
  induction m as [|m IH]; intros k p l P L O D M K; [lia|]. cbn [walk]. rewrite P. unfold place.
  destruct (nth_error l k) as [e|] eqn:T.
  - apply nth_error_split in T as (a & b & -> & La). rewrite (unset_step p a e b _ P); [|rewrite Forall_app in O; destruct O as (_ & O); now inversion O|exact D].
    cbn [bind fst snd]. rewrite app_length in L. cbn [length] in L. apply (IH _ _ (a ++ b)).
    + reflexivity.
    + rewrite app_length. lia.
    + rewrite Forall_app in *. destruct O as (O1 & O2). inversion O2; now split.
    + now apply distinct_less in D.
    + lia.
    + lia.
  - apply nth_error_None in T. destruct (Nat.eqb_spec k (length l)) as [->|X]; [|reflexivity].
    unfold unset_visited at 1. cbn [fst]. rewrite unset_none. cbn [bind fst snd]. destruct m as [|m]; [lia|].
    cbn [walk p_environ]. rewrite P. unfold place. rewrite (proj2 (nth_error_None l (S (length l)))) by lia.
    destruct (Nat.eqb_spec (S (length l)) (length l)); [lia|reflexivity].
Qed.

(** Removing each variable as it is visited, with ordinary variables of different names: one
    is removed; of two the second is left; three or more are undefined behaviour. *)
Theorem C148_unset_each : forall fuel p l, p_environ p = Some l -> size l < 2 ^ 16 -> (length l < fuel)%nat -> Forall ordinary l -> distinct l ->
  match l with
  | [] => env_forEach_do unset_visited fuel tt p = Ret (tt, p)
  | [e] => env_forEach_do unset_visited fuel tt p = Ret (tt, mkProcess (Some []) (p_errno p))
  | [e1; e2] => env_forEach_do unset_visited fuel tt p = Ret (tt, mkProcess (Some [e2]) E_INVAL)
  | _ => env_forEach_do unset_visited fuel tt p = UB
  end.
Proof.
  intros fuel p l P L F O D. assert (c_list p = l) as C by (unfold c_list; now rewrite P).
  assert (env_forEach_do unset_visited fuel tt p = walk unset_visited (length l) 0 tt p) as W
    by (rewrite <- C in *; apply C148_walk; assumption).
  rewrite W. destruct l as [|e1 [|e2 [|e3 l]]].
  - reflexivity.
  - cbn [length walk]. rewrite P. cbn [place nth_error]. inversion O; subst.
    change (shown e1) with (shown e1). rewrite (unset_step p [] e1 [] _ P); auto.
  - cbn [length walk]. rewrite P. cbn [place nth_error]. inversion O; subst.
    rewrite (unset_step p [] e1 [e2] _ P) by auto. reflexivity.
  - apply (unset_walk _ 0 p _ P eq_refl O D); cbn; lia.
Qed.
Print Assumptions C148_unset_each.

(** The view of a name handed to the callback cannot be given back to unset or set: the C
    library reads on to the end of the value and refuses what it reads. *)
Theorem C148_name_in_place : forall p n v value replace nomem rest, ~ In 0 n -> ~ In 0 v -> forall t, value_text value t ->
  env_set nomem p (View n (61 :: v ++ 0 :: rest)) value replace = Ret (Err E_INVAL, mkProcess (p_environ p) E_INVAL) /\
  env_unset p (View n (61 :: v ++ 0 :: rest)) = Ret (Err E_INVAL, mkProcess (p_environ p) E_INVAL).
Proof.
  intros p n v value replace nomem rest Zn Zv t T.
  assert (text_of (View n (61 :: v ++ 0 :: rest)) (n ++ 61 :: v)) as X.
  { exists n, (61 :: v ++ 0 :: rest), rest. split; [reflexivity|]. split; [now rewrite <- app_assoc|].
    intros I. apply in_app_or in I as [I|[I|I]]; [contradiction|lia|contradiction]. }
  assert (c_bad_name (Some (n ++ 61 :: v)) = true) as B.
  { apply not_false_iff_true. intros B. apply name_iff in B as (_ & B). apply B. apply in_or_app. right. now left. }
  split.
  - unfold env_set. rewrite (text_read _ _ X), (value_read _ _ T). cbn [bind]. unfold c_setenv. now rewrite B.
  - unfold env_unset. cbn [chars_of]. destruct (sv_empty n); [reflexivity|]. rewrite (text_read _ _ X). cbn [bind]. unfold c_unsetenv. now rewrite B.
Qed.
Print Assumptions C148_name_in_place.

(** A walk that unsets each variable by the very view it is handed removes nothing. *)
Theorem C148_unset_in_place : forall fuel p l, p_environ p = Some l -> size l < 2 ^ 16 -> (length l < fuel)%nat -> Forall (fun e => ~ In 0 e) l ->
  exists p', env_forEach_do unset_in_place fuel tt p = Ret (tt, p') /\ p_environ p' = Some l.
Proof.
  intros fuel p l P L F Z. assert (c_list p = l) as C by (unfold c_list; now rewrite P).
  assert (env_forEach_do unset_in_place fuel tt p = walk unset_in_place (length l) 0 tt p) as ->
    by (rewrite <- C in *; apply C148_walk; assumption).
  assert (forall m k q, p_environ q = Some l -> (k + m <= length l)%nat -> exists p', walk unset_in_place m k tt q = Ret (tt, p') /\ p_environ p' = Some l) as H; [|apply H; [exact P|lia]].
  induction m as [|m IH]; intros k q Q K; [exists q; now split|]. cbn [walk]. rewrite Q. unfold place.
  destruct (nth_error l k) as [e|] eqn:T; [|apply nth_error_None in T; lia].
  assert (forall s, ~ In 0 s -> ~ In 0 (cut_name s) /\ ~ In 0 (cut_value s)) as CZ.
  { clear. induction s as [|c s IH]; intros H; cbn; [tauto|]. destruct IH as (A & B); [intros X; apply H; now right|].
    destruct (c =? 61); [split; [intros []|intros X; apply H; now right]|]. split; [|exact B]. intros [X|X]; [apply H; now left|contradiction]. }
  assert (~ In 0 e) as Ze by (rewrite Forall_forall in Z; apply Z; now apply nth_error_In in T).
  assert (~ In 0 (fst (shown e)) /\ ~ In 0 (snd (shown e))) as (A & B).
  { unfold shown. set (s := firstn _ e). assert (~ In 0 s) as Zs.
    { intros X. apply Ze. rewrite <- (firstn_skipn (N.to_nat (N.of_nat (length e) mod 2 ^ 16)) e). apply in_or_app. now left. }
    cbn [fst snd]. split; [apply CZ, Zs|]. apply CZ, CZ, Zs. }
  unfold unset_in_place at 1. destruct (C148_name_in_place q (fst (shown e)) (snd (shown e)) NullView true false [] A B []) as (_ & ->).
  { unfold value_text. cbn. reflexivity. }
  cbn [bind fst snd]. apply IH; [exact Q|lia].
Qed.
Print Assumptions C148_unset_in_place.

(** Walking over HOME=/r, A=1 and B=2 *)
Definition three : list (list N) := [[72;79;77;69;61;47;114]; [65;61;49]; [66;61;50]].
Example C148_three_ordinary : Forall ordinary three.
Proof.
  repeat constructor; try (cbn; lia); try (cbn; intuition discriminate).
  - exists [72;79;77;69]. split; [split; [discriminate|cbn; intuition discriminate]|]. now exists [47;114].
  - exists [65]. split; [split; [discriminate|cbn; intuition discriminate]|]. now exists [49].
  - exists [66]. split; [split; [discriminate|cbn; intuition discriminate]|]. now exists [50].
Qed.
Example C148_three_distinct : distinct three.
Proof.
  intros a e b e' c n E (v & ->) (w & ->) (X & _). destruct n as [|d n]; [congruence|].
  apply (f_equal (map (fun x => hd 0 x))) in E. rewrite map_app in E. cbn [map] in E. rewrite map_app in E. cbn in E.
  assert (NoDup [72; 65; 66]) as D by (repeat constructor; cbn; intuition discriminate).
  rewrite E in D. apply NoDup_remove_2 in D. apply D. rewrite !in_app_iff. right. right. now left.
Qed.
Example C148_case_unset : env_forEach_do unset_visited 9 tt (mkProcess (Some three) 0) = UB.
Proof. vm_compute. reflexivity. Qed.
(** Setting every variable to "x" and adding "N" *)
Definition set_x (_ : unit) (_ : N) (v : list N * list N) (p : process) : outcome (unit * process) :=
  let! r := run_calls p [CSet (View (fst v) [0]) (View [120] [0]) true false; CSet (View [78] [0]) NullView true false] in Ret (tt, snd r).
Example C148_case_set : env_forEach_do (seeing set_x) 9 ([], tt) (mkProcess (Some three) 0) =
  Ret (([([72;79;77;69], [47;114]); ([65], [49]); ([66], [50])], tt),
       mkProcess (Some [[72;79;77;69;61;120]; [65;61;120]; [66;61;120]; [78;61]]) 0).
Proof. vm_compute. reflexivity. Qed.
Lemma ended s : ~ runs_away (View s [0]).
Proof. intros (s' & a & E & NI). injection E as <- <-. apply NI. apply in_or_app. right. now left. Qed.
Lemma one_set p name value : exists rs q, run_calls p [CSet (View name [0]) (View value [0]) true false] = Ret (rs, q).
Proof.
  cbn [run_calls run_call]. unfold env_set. destruct (text_dec (View name [0])) as [Y|[Y|(n & Y)]]; [discriminate|now apply ended in Y|].
  rewrite (text_read _ _ Y). cbn [bind]. destruct (text_dec (View value [0])) as [Z|[Z|(t & Z)]]; [discriminate|now apply ended in Z|].
  rewrite (value_read _ (if list_eq_dec N.eq_dec value [] then [] else t)) by (unfold value_text; cbn [chars_of]; destruct (list_eq_dec N.eq_dec value []); auto).
  cbn [bind]. destruct (c_setenv _ _ _ _ _) as (r & q). cbn. eauto.
Qed.
Example C148_ok_set : @only_sets unit (fun st k v p => let! r := run_calls p [CSet (View [78] [0]) (View (snd v) [0]) true false] in Ret (st, snd r)).
Proof.
  intros st k v p. destruct (one_set p [78] (snd v)) as (rs & q & R). exists st, [CSet (View [78] [0]) (View (snd v) [0]) true false], rs, q.
  split; [|split; [exact R|now rewrite R]]. constructor; [|constructor]. intros [X|(_ & X)]; now apply ended in X.
Qed.
