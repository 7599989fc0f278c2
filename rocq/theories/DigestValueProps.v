(** C155: message digests are values. *)
From Verif Require Import Base BaseLemmas MemViewModel MemoryModel MemoryProofs ContainerModel ContainerSpec ContainerProofs ContainerValueModel
  ContainerAllSpec ContainerAllProofs ContainerAllProps ContainerValueAllProps StringModel StringProps HashModel HashProps DigestValueModel DigestValueSpec.
Local Arguments get : simpl never.

Definition sh (bs : list N) : shown N := mkShown Arr (N.of_nat (length bs)) (N.of_nat (length bs)) (map Some bs).
Definition good (l : list N) : Prop := bytes_ok l /\ N.of_nat (length l) < 2 ^ 61.
Definition dinv (w : world N) (vs : list (option (list N))) : Prop :=
  (exists log, linv w log /\ habs 1 (w_objs w) (map (option_map sh) vs)) /\ forall i l, get vs i = Some l -> good l.

Lemma get_sh vs i : get (map (option_map sh) vs) i = option_map sh (get vs i).
Proof. unfold get. change (@None (shown N)) with (option_map sh None) at 1. apply map_nth. Qed.
Lemma upd_sh vs i x : map (option_map sh) (upd vs i x) = upd (map (option_map sh) vs) i (option_map sh x).
Proof. revert i; induction vs as [|v vs IH]; intros [|i]; cbn; try reflexivity. now rewrite IH. Qed.
Lemma alike_same l l' : (if Nat.eqb (length l) (length l') then alike N.eqb (map Some l) (map Some l') else Some false) = Some (same_bytes l l').
Proof.
  revert l'; induction l as [|x l IH]; intros [|y l']; cbn [length Nat.eqb map alike same_bytes]; try reflexivity. specialize (IH l').
  destruct (x =? y); cbn [andb]; [exact IH|]. destruct Nat.eqb; reflexivity.
Qed.
Lemma same_refl l : same_bytes l l = true.
Proof. induction l; cbn; [reflexivity|]. now rewrite N.eqb_refl. Qed.
Lemma same_bytes_eq l l' : same_bytes l l' = true <-> l = l'.
Proof.
  revert l'; induction l as [|x l IH]; intros [|y l']; cbn; try (split; [discriminate|congruence]); [tauto|]. rewrite Bool.andb_true_iff, N.eqb_eq, IH. split; [intros []|intros [= ]]; subst; auto.
Qed.

Lemma array_step w vs o vs' a : dinv w vs -> vfits 1 o -> tells N.eqb 1 (map (option_map sh) vs) o = Some (map (option_map sh) vs', a) ->
  (forall i l, get vs' i = Some l -> good l) ->
  exists w', (let! p := vc_step N.eqb 1 w o in Ret (of_array p)) = Ret (w', snd (of_array (w', [], a))) /\ dinv w' vs'.
Proof.
  intros ((log & W & R) & G) F T G'. pose proof (vstep_all N.eqb 1 w _ log o ltac:(lia) R W F) as P. unfold vstepped in P. rewrite T in P.
  destruct P as (w' & ev & -> & W' & R'). cbn [bind of_array snd]. exists w'. split; [reflexivity|]. split; [exists (log ++ ev); auto|exact G'].
Qed.
Lemma on_step w vs i (f : cont N -> outcome dans) g : dinv w vs ->
  (forall c l, get vs i = Some l -> seen_as 1 (Some (Arr, c)) (Some (sh l)) -> f c = Ret (g l)) ->
  match get (w_objs w) i with Some (_, c) => let! a := f c in Ret (w, a) | None => Ret (w, DNone) end =
  Ret (w, match get vs i with Some l => g l | None => DNone end).
Proof.
  intros ((log & W & R) & G) H. pose proof (proj2 R i) as C. rewrite get_sh in C. destruct (get vs i) as [l|] eqn:E; cbn [option_map] in C.
  - destruct (get (w_objs w) i) as [[k c]|]; [|contradiction]. apply rel_seen in C; [|lia]. pose proof C as (K & _). cbn in K. subst k. rewrite (H c l eq_refl C). reflexivity.
  - destruct (get (w_objs w) i) as [[k c]|]; [contradiction|reflexivity].
Qed.
Lemma good_upd vs i x : (forall i l, get vs i = Some l -> good l) -> (forall l, x = Some l -> good l) -> forall j l, get (upd vs i x) j = Some l -> good l.
Proof. intros G H j l. rewrite get_upd. destruct andb; [apply H|apply G]. Qed.
Lemma good_app vs x : (forall i l, get vs i = Some l -> good l) -> (forall l, x = Some l -> good l) -> forall j l, get (vs ++ [x]) j = Some l -> good l.
Proof. intros G H j l. rewrite get_app. destruct Nat.eqb; [apply H|apply G]. Qed.

Lemma d_step_all w vs o : dinv w vs -> d_fits o ->
  exists w', d_step w o = Ret (w', snd (d_says vs o)) /\ dinv w' (fst (d_says vs o)).
Proof.
  intros D F. pose proof (proj2 D) as G. destruct o as [ok bs|i|i j|i|i|i|i k|i|i j|i l'|i ok alloc]; cbn [d_step d_says d_fits] in *.
  - destruct ok; [|exists w; auto]. cbn [fst snd]. destruct (array_step w vs (Plain (MakeArrOf (map Some bs))) (vs ++ [Some bs]) (Answered AOk)) as (w' & E & D'); auto.
    + cbn [vfits fits]. rewrite map_length. change (2 ^ 64) with 18446744073709551616. destruct F as (_ & F). change (2 ^ 61) with 2305843009213693952 in F. lia.
    + cbn [tells shows]. rewrite whole_map. cbn [option_map fst snd]. rewrite map_app, map_length, N.mul_1_r. reflexivity.
    + apply good_app; [exact G|]. intros l [= <-]. exact F.
    + exists w'. auto.
  - destruct (array_step w vs (Plain (MoveC i)) (fst (match get vs i with Some l => (upd vs i (Some []) ++ [Some l], DDone) | None => (vs, DDone) end)) (Answered AOk)) as (w' & E & D'); auto.
    + cbn [tells shows]. rewrite get_sh. destruct (get vs i) as [l|]; cbn [option_map fst snd]; [|reflexivity]. rewrite map_app, upd_sh. reflexivity.
    + destruct (get vs i) as [l|] eqn:E; cbn [fst]; [|exact G]. apply good_app; [|intros ? [= <-]; eauto]. apply good_upd; [exact G|]. intros ? [= <-]. split; [constructor|reflexivity].
    + exists w'. destruct (get vs i); auto.
  - destruct (array_step w vs (Plain (SwapC i j)) (fst (match get vs i, get vs j with Some l, Some l' => (upd (upd vs i (Some l')) j (Some l), DDone) | _, _ => (vs, DDone) end)) (Answered AOk)) as (w' & E & D'); auto.
    + cbn [tells shows]. rewrite !get_sh. destruct (get vs i) as [l|]; cbn [option_map fst snd]; [|reflexivity]. destruct (get vs j) as [l'|]; cbn [option_map fst snd]; [|reflexivity]. rewrite !upd_sh. reflexivity.
    + destruct (get vs i) as [l|] eqn:Ei; cbn [fst]; [|exact G]. destruct (get vs j) as [l'|] eqn:Ej; cbn [fst]; [|exact G]. apply good_upd; [apply good_upd; [exact G|]|]; intros ? [= <-]; eauto.
    + exists w'. destruct (get vs i), (get vs j); auto.
  - destruct (array_step w vs (Plain (DropC i)) (fst (match get vs i with Some l => (upd vs i None, DDone) | None => (vs, DDone) end)) (Answered AOk)) as (w' & E & D'); auto.
    + cbn [tells shows]. rewrite get_sh. destruct (get vs i) as [l|]; cbn [option_map fst snd]; [|reflexivity]. cbn [sh h_vals]. rewrite whole_map. cbn [option_map fst snd]. now rewrite upd_sh.
    + destruct (get vs i) as [l|] eqn:E; cbn [fst]; [|exact G]. apply good_upd; [exact G|]. discriminate.
    + exists w'. destruct (get vs i); auto.
  - rewrite (on_step w vs i _ (fun l => DNum (N.of_nat (length l))) D); [exists w; destruct (get vs i); auto|]. intros c l _ (_ & _ & E & _). unfold arr_size. rewrite E. reflexivity.
  - rewrite (on_step w vs i _ (fun l => DNum (8 * N.of_nat (length l))) D); [exists w; destruct (get vs i); auto|]. intros c l Gl (_ & _ & E & _). unfold arr_size, u64. rewrite E. cbn [sh h_size].
    destruct (G i l Gl) as (_ & B). change (2 ^ 61) with 2305843009213693952 in B. change (2 ^ 64) with 18446744073709551616. rewrite N.mod_small by lia. now rewrite N.mul_comm.
  - rewrite (on_step w vs i _ (fun l => match nth_error l (N.to_nat k) with Some b => DNum b | None => DRaised IndexOutOfRange end) D); [exists w; destruct (get vs i); auto|].
    intros c l Gl (_ & _ & E & _ & At & _). unfold arr_size. rewrite E, At. cbn [sh h_size h_vals]. rewrite nth_error_map. destruct (N.ltb_spec k (N.of_nat (length l))) as [L|L].
    + destruct (nth_error l (N.to_nat k)) eqn:X; [reflexivity|]. apply nth_error_None in X. lia.
    + assert (nth_error l (N.to_nat k) = None) as -> by (apply nth_error_None; lia). reflexivity.
  - destruct (array_step w vs (LookC i) vs (match get vs i with Some l => Saw (N.of_nat (length l)) l | None => NoSuch end)) as (w' & E & D'); auto.
    + cbn [tells]. rewrite get_sh. destruct (get vs i) as [l|]; cbn [option_map]; [|reflexivity]. cbn [sh h_vals h_size]. rewrite whole_map. repeat f_equal. clear. induction l as [|x l IH]; cbn; [reflexivity|now f_equal].
    + exists w'. destruct (get vs i); auto.
  - destruct (array_step w vs (EqualC i j) vs (match get vs i, get vs j with Some l, Some l' => Said (same_bytes l l') | _, _ => NoSuch end)) as (w' & E & D'); auto.
    + cbn [tells]. rewrite !get_sh. destruct (get vs i) as [l|] eqn:Ei; cbn [option_map]; [|reflexivity]. destruct (get vs j) as [l'|] eqn:Ej; cbn [option_map]; [|reflexivity]. cbn [sh h_kind is_vec Bool.eqb h_vals].
      destruct (Nat.eqb_spec i j) as [<-|]. { assert (l' = l) as -> by congruence. now rewrite same_refl. }
      rewrite !map_length. pose proof (alike_same l l') as Q. destruct Nat.eqb; [rewrite Q; reflexivity|]. injection Q as Q. rewrite <- Q. reflexivity.
    + exists w'. destruct (get vs i), (get vs j); auto.
  - destruct (array_step w vs (EqualList i l') vs (match get vs i with Some l => Said (same_bytes l l') | _ => NoSuch end)) as (w' & E & D'); auto.
    + cbn [tells]. rewrite get_sh. destruct (get vs i) as [l|] eqn:Ei; cbn [option_map]; [|reflexivity]. cbn [sh]. pose proof (alike_same l l') as Q. destruct (Nat.eqb_spec (length l) (length l')) as [X|X].
      * rewrite X, N.eqb_refl, Q. reflexivity.
      * destruct (N.eqb_spec (N.of_nat (length l)) (N.of_nat (length l'))); [lia|]. injection Q as Q. rewrite <- Q. reflexivity.
    + exists w'. destruct (get vs i); auto.
  - rewrite (on_step w vs i _ (fun _ => DStr []) D); [exists w; destruct (get vs i); auto|]. intros c l Gl (_ & _ & _ & _ & _ & C & _). rewrite (C l eq_refl). cbn [bind].
    destruct (proj1 (C50_refuted ok alloc l (proj1 (G i l Gl)))) as (s & -> & E). cbn [bind]. now rewrite E.
Qed.
Lemma dinv0 : dinv world0 [].
Proof. split; [exists []; split; [apply linv0|apply habs0]|]. intros [|i] l; discriminate. Qed.
Lemma d_run_all os : Forall d_fits os -> forall w vs, dinv w vs -> exists w', d_run w os = Ret (w', snd (d_tells vs os)) /\ dinv w' (fst (d_tells vs os)).
Proof.
  induction 1 as [|o os F _ IH]; intros w vs D; cbn [d_run d_tells]; [exists w; auto|].
  destruct (d_step_all w vs o D F) as (w1 & -> & D1). cbn [bind fst snd]. destruct (IH w1 _ D1) as (w2 & -> & D2). cbn [bind fst snd]. exists w2. auto.
Qed.

(** Every program with digests answers as the same operations on byte strings do, is never
    undefined, and its digests read as these byte strings at the end. *)
Theorem C155_values : forall os, Forall d_fits os ->
  exists w, d_run world0 os = Ret (w, snd (d_tells [] os)) /\
    forall i, match get (fst (d_tells [] os)) i with
              | Some l => exists c, get (w_objs w) i = Some (Arr, c) /\ arr_size c = N.of_nat (length l) /\ contents_of 1 c = Ret l
              | None => get (w_objs w) i = None
              end.
Proof.
  intros os F. destruct (d_run_all os F world0 [] dinv0) as (w & E & ((log & W & R) & G)). exists w. split; [exact E|]. intros i. pose proof (proj2 R i) as C. rewrite get_sh in C.
  destruct (get (fst (d_tells [] os)) i) as [l|]; cbn [option_map] in C.
  - destruct (get (w_objs w) i) as [[k c]|]; [|contradiction]. apply rel_seen in C; [|lia]. destruct C as (K & _ & En & _ & _ & C & _). cbn in K, En. subst k. exists c. split; [reflexivity|]. split; [exact En|]. now apply C.
  - destruct (get (w_objs w) i) as [[k c]|]; [contradiction|reflexivity].
Qed.
Print Assumptions C155_values.

(** Comparing tells exactly whether the bytes are the same, so it is an equivalence. *)
Theorem C155_equality : forall l l', same_bytes l l' = true <-> l = l'.
Proof. exact same_bytes_eq. Qed.
Print Assumptions C155_equality.

Example C155_ok : Forall d_fits [DMake true [1; 255]; DMake true [1]; DMake false [7]] /\
  d_tells [] [DMake true [1; 255]; DMake true [1]; DMake false [7]; DEqual 0 1; DSwap 0 1; DAt 0 1; DAt 1 1; DBits 1; DMove 1; DSize 1; DEqualList 2 [1; 255]; DText 2 true junk_heap; DDrop 0; DBytes 0] =
    ([None; Some []; Some [1; 255]],
     [DDone; DDone; DRaised InvalidState; DBool false; DDone; DRaised IndexOutOfRange; DNum 255; DNum 16; DDone; DNum 0; DBool true; DStr []; DDone; DNone]).
Proof. split; [repeat constructor; reflexivity|reflexivity]. Qed.
