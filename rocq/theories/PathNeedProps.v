From Verif Require Import Base BaseLemmas StringSpec StringViewModel StringViewProofs StringViewProps StringModel StringProofs StringProps PathModel PathSpec PathProofs PathProps PathAllocModel PathAllocProps.

(** ** C161: exactly which requests for memory a new path needs *)

(** The first [n] requests are granted; the ones after the end of the list are. *)
Definition enough (n : nat) (m : answers) : Prop := forall i, (i < n)%nat -> nth i m true = true.
(** The good value if the first [n] requests are granted, an error for lack of memory otherwise. *)
Definition needs {A} (n : nat) (m : answers) (good : A) (r : result A) : Prop :=
  (enough n m -> r = Ok good) /\ (~ enough n m -> r = Err E_NOMEM).

Lemma ask_enough m b k n : ask m = (b, k) -> enough (S n) m <-> b = true /\ enough n k.
Proof.
  intros E. assert (T : nth 0 m true = b /\ forall i, nth i k true = nth (S i) m true).
  { destruct m as [|x m]; cbn in E; injection E as <- <-; split; cbn; auto. now intros [|i]. }
  destruct T as [T0 T]. unfold enough. split.
  - intros H. split; [rewrite <- T0; apply H; lia|]. intros i L. rewrite T. apply H. lia.
  - intros [B H] [|i] L; [congruence|]. rewrite <- T. apply H. lia.
Qed.
Lemma enough_0 m : enough 0 m. Proof. intros i L. lia. Qed.
Lemma enough_dec n : forall m, enough n m \/ ~ enough n m.
Proof.
  induction n as [|n IH]; intros m; [left; apply enough_0|]. destruct (ask m) as [b k] eqn:E. pose proof (ask_enough m b k n E) as X.
  destruct b; [|right; rewrite X; intros [? _]; discriminate]. destruct (IH k); [left; now rewrite X | right; rewrite X; tauto].
Qed.

Lemma single_need m s : needs 2 m (path_single s) (fst (a_single m s)).
Proof.
  unfold needs, a_single, a_string. destruct (ask m) as [b k] eqn:E. rewrite (ask_enough m b k 1 E). destruct b; cbn [fst].
  2:{ split; [intros [? _]; discriminate|reflexivity]. }
  unfold a_vector. destruct (ask k) as [b k'] eqn:E'. rewrite (ask_enough k b k' 0 E'). pose proof (enough_0 k').
  destruct b; cbn [fst]; split; try reflexivity; try tauto. intros [_ [? _]]. discriminate.
Qed.
Theorem C161_single : forall m s, needs 2 m (path_single s) (fst (a_single m s)).
Proof. exact single_need. Qed.
Print Assumptions C161_single.

(** The components copied: every text, those of a path given by reference, none of a path handed over. *)
Definition copied (a : aarg) : nat := match a with AText _ => 1 | APath p => length (p_comps p) | AMoved _ => 0 end%nat.

Lemma copy_need cs : forall m v r k n, a_copy_all m v cs = (r, k) ->
  (r = Ok (fold_left vpush cs v) /\ (enough (length cs + n) m <-> enough n k)) \/ (r = Err E_NOMEM /\ ~ enough (length cs + n) m).
Proof.
  induction cs as [|c cs IH]; intros m v r k n H; cbn [a_copy_all fold_left length Nat.add] in *.
  - injection H as <- <-. left. tauto.
  - unfold a_string in H. destruct (ask m) as [b m'] eqn:E. rewrite (ask_enough m b m' (length cs + n) E). destruct b.
    + destruct (IH _ _ _ _ n H) as [[-> X]|[-> X]]; [left; split; [reflexivity|tauto] | right; split; [reflexivity|tauto]].
    + injection H as <- <-. right. split; [reflexivity|]. intros [? _]. discriminate.
Qed.
Lemma join_need args : forall m v,
  needs (list_sum (map copied args)) m (fold_left join_arg (map arg_of args) v) (fst (a_join m v args)).
Proof.
  unfold needs. induction args as [|a args IH]; intros m v; cbn [a_join map fold_left list_sum fold_right fst].
  - split; [reflexivity|]. intros X. destruct (X (enough_0 m)).
  - fold (list_sum (map copied args)). destruct (a_join_arg m v a) as [q k] eqn:Q.
    assert (P : (q = Ok (join_arg v (arg_of a)) /\ (enough (copied a + list_sum (map copied args)) m <-> enough (list_sum (map copied args)) k)) \/
                (q = Err E_NOMEM /\ ~ enough (copied a + list_sum (map copied args)) m)).
    { destruct a as [s|p|p]; cbn [a_join_arg arg_of join_arg copied] in *.
      - exact (copy_need [s] m v q k _ Q).
      - exact (copy_need _ m v q k _ Q).
      - injection Q as <- <-. left. split; [reflexivity|]. reflexivity. }
    destruct P as [[-> X]|[-> X]]; cbn [fst]; [rewrite X; apply IH|]. split; [tauto|reflexivity].
Qed.
Theorem C161_make : forall m args, needs (1 + list_sum (map copied args)) m (path_make (map arg_of args)) (a_make m args).
Proof.
  intros m args. unfold a_make, path_make.
  replace (fold_right (fun a n => parg_count (arg_of a) + n) 0 args) with (fold_right (fun a n => parg_count a + n) 0 (map arg_of args)).
  2:{ induction args as [|a args IH]; cbn; [reflexivity|]. now rewrite IH. }
  unfold needs, a_vector. destruct (ask m) as [b k] eqn:E. cbn [Nat.add]. rewrite (ask_enough m b k _ E). destruct b.
  - destruct (join_need args k (mkPath [] (fold_right (fun a n => parg_count a + n) 0 (map arg_of args)))) as [A B]. split; [intros [_ X]; auto|tauto].
  - split; [intros [? _]; discriminate|reflexivity].
Qed.
Print Assumptions C161_make.

(** Parsing: the vector, then one copy for each component; the text of no characters has nothing to copy. *)
Definition to_copy (s : list N) (cs : list (list N)) : nat := match s with [] => 0 | _ => length cs end%nat.

Lemma err_stays l : forall e v m, fst (fst (fold_left a_parse_step l (Some e, v, m))) = Some e.
Proof. induction l as [|[[c i] n] l IH]; intros; cbn [fold_left]; [reflexivity|]. apply IH. Qed.
Lemma parse_need ps : forall items n m, n <> 0 -> ps <> [] -> size items + size ps = n ->
  let st := fold_left a_parse_step (indexed (size items) n ps) (None, mkPath items n, m) in
  (enough (length (kept ps)) m -> fst (fst st) = None) /\ (~ enough (length (kept ps)) m -> fst (fst st) = Some E_NOMEM).
Proof.
  induction ps as [|p ps IH]; intros items n m Hn NE H; [congruence|]. rewrite size_cons in H.
  cbn [indexed fold_left]. cbv zeta. unfold a_parse_step at 2 4. cbn [p_cap].
  destruct (N.eqb_spec n 0); [congruence|]. cbn [andb].
  destruct ps as [|q ps].
  - rewrite (@size_nil (list N)) in H. destruct (N.eqb_spec (size items + 1) n); [|lia]. cbn [andb indexed fold_left].
    unfold kept. cbn [last removelast]. destruct (sv_empty p); cbn [length].
    + split; [reflexivity|]. intros X. destruct (X (enough_0 m)).
    + unfold a_string. destruct (ask m) as [b k] eqn:E. rewrite (ask_enough m b k 0 E). pose proof (enough_0 k).
      destruct b; cbn [fst]; split; try reflexivity; try tauto. intros [? _]. discriminate.
  - rewrite size_cons in H. destruct (N.eqb_spec (size items + 1) n); [lia|]. cbn [andb].
    rewrite kept_cons. cbn [length]. unfold a_string. destruct (ask m) as [b k] eqn:E. rewrite (ask_enough m b k _ E). destruct b.
    + unfold vpush. cbn [p_cap p_comps]. destruct (N.leb_spec n (size items)); [lia|].
      replace (size items + 1) with (size (items ++ [p])) by (rewrite size_app; reflexivity).
      assert (Z : size (items ++ [p]) + size (q :: ps) = n) by (rewrite size_app, !size_cons, (@size_nil (list N)); lia).
      destruct (IH (items ++ [p]) n k Hn ltac:(discriminate) Z) as [A B]. split; [intros [_ X]; auto|tauto].
    + rewrite err_stays. split; [intros [? _]; discriminate|reflexivity].
Qed.
Lemma kept_length d s ps cs : d <> [] -> splits d s ps -> components ps cs -> length (kept ps) = to_copy s cs.
Proof.
  intros Hd S C. pose proof (splits_nonempty _ _ _ S) as NE. rewrite (components_det _ _ _ C (components_kept ps NE)).
  destruct s as [|x s]; cbn [to_copy].
  - inversion S as [s' F E1 E2|p r qs F S' E1 E2]; [reflexivity|]. subst.
    destruct p; cbn in E1; [|discriminate]. destruct d; [congruence|discriminate].
  - destruct (kept ps) as [|y l] eqn:K; [|reflexivity]. exfalso. unfold kept in K. destruct (sv_empty (last ps [])) eqn:E; [|congruence].
    apply sv_empty_spec in E. destruct (exists_last NE) as (q & z & ->). rewrite removelast_last in K. subst q. rewrite last_last in E. subst z.
    inversion S as [s' F E1 E2|p r qs F S' E1 E2]. subst. inversion S'.
Qed.
Theorem C161_parse : forall fuel m d s ps cs, sv_ok s -> d <> [] -> (length s < fuel)%nat ->
  splits d s ps -> size ps < 2 ^ 16 -> components ps cs ->
  exists r, a_parse fuel m d s = Ret r /\ needs (1 + to_copy s cs) m (mkPath cs (size ps)) r.
Proof.
  intros fuel m d s ps cs Hs Hd Hf S L C.
  destruct (split3_spec fuel d s Hs Hd Hf) as (ps' & E & S'). assert (ps' = ps) as -> by (eapply splits_det; eauto).
  destruct (parse_spec fuel d s Hs Hd Hf) as (ps' & S2 & P). assert (ps' = ps) as -> by (eapply splits_det; eauto).
  destruct (P L) as (cs' & C' & P'). assert (cs' = cs) as -> by (eapply components_det; eauto).
  destruct (C96_parse fuel m d s _ P') as (r & R & G & _). exists r. split; [exact R|].
  pose proof (splits_nonempty _ _ _ S) as NE.
  assert (Z : 0 < size ps) by (destruct ps; [congruence|rewrite size_cons; lia]).
  unfold a_parse in R. rewrite E in R. cbn [bind fst] in R. change (N.of_nat (length ps)) with (size ps) in R. rewrite u16_small in R by exact L.
  set (st := fold_left a_parse_step (indexed 0 (size ps) ps) (None, path_none, m)) in *.
  assert (X : (enough (1 + to_copy s cs) m -> fst (fst st) = None) /\ (~ enough (1 + to_copy s cs) m -> fst (fst st) = Some E_NOMEM)).
  { rewrite <- (kept_length d s ps cs Hd S C). cbn [Nat.add]. destruct (ask m) as [b k] eqn:A. rewrite (ask_enough m b k _ A). destruct b.
    - replace st with (fold_left a_parse_step (indexed 0 (size ps) ps) (None, mkPath [] (size ps), k)).
      + destruct (parse_need ps [] (size ps) k ltac:(lia) NE ltac:(rewrite (@size_nil (list N)); lia)) as [X Y].
        split; [intros [_ W]; now apply X | intros W; apply Y; tauto].
      + unfold st. destruct ps as [|p ps]; [congruence|]. cbn [indexed fold_left]. f_equal. unfold a_parse_step. cbn [p_cap path_none].
        destruct (N.eqb_spec (size (p :: ps)) 0); [lia|]. cbn [andb negb]. rewrite N.eqb_refl. cbn [andb]. unfold a_vector. rewrite A. reflexivity.
    - split; [intros [? _]; discriminate|]. intros _. unfold st. destruct ps as [|p ps]; [congruence|]. cbn [indexed fold_left].
      unfold a_parse_step at 2. cbn [p_cap path_none]. destruct (N.eqb_spec (size (p :: ps)) 0); [lia|]. cbn [andb negb]. rewrite N.eqb_refl. cbn [andb].
      unfold a_vector. rewrite A. destruct ((0 + 1 =? size (p :: ps)) && sv_empty p); [apply err_stays|].
      destruct (a_string k p) as [[t|e] k'] eqn:Q; [apply err_stays|]. rewrite err_stays. unfold a_string in Q. destruct (ask k) as [[|] ?]; congruence. }
  destruct X as [X Y]. destruct st as [[err v] k]. cbn [fst] in X, Y. split; intros W.
  - rewrite (X W) in R. destruct G as [G|G]; [exact G|]. congruence.
  - rewrite (Y W) in R. congruence.
Qed.
Print Assumptions C161_parse.

(** Two texts and a path of two components need five requests if the path is copied and three if it is handed over;
    "/a/" has two components; the empty text has one, which needs no copy. *)
Example C161_ok :
  let p := mkPath [[98]; [99]] 2 in
  a_make [true; true; true; true; true; false] [AText [97]; APath p; AText [100]] = Ok (mkPath [[97]; [98]; [99]; [100]] 4) /\
  a_make [true; true; true; true; false] [AText [97]; APath p; AText [100]] = Err E_NOMEM /\
  a_make [true; true; true; false] [AText [97]; AMoved p; AText [100]] = Ok (mkPath [[97]; [98]; [99]; [100]] 4) /\
  a_parse 9 [true; true; true; false] [47] [47; 97; 47] = Ret (Ok (mkPath [[]; [97]] 3)) /\
  a_parse 9 [true; true; false] [47] [47; 97; 47] = Ret (Err E_NOMEM) /\
  a_parse 9 [true; false] [47] [] = Ret (Ok (mkPath [[]] 1)).
Proof. repeat split. Qed.
