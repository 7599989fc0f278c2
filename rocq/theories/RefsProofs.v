From Verif Require Import Base BaseLemmas MemViewModel MemoryModel MemoryProofs ContainerModel ContainerSpec ContainerProofs AliasModel AliasSpec AliasProofs RefsModel RefsSpec.
Local Arguments get : simpl never.

Definition nm {A} (x : option (kind * option (content A))) : option nat := match x with Some (_, Some c) => Some (k_name c) | _ => None end.
Definition okobj {A} (sz : N) (bl : list (option (buf A))) (o : option robj) (a : option (kind * option (content A))) : Prop :=
  match o, a with
  | None, None => True
  | Some o, Some (k, None) => o = mkRObj k None 0
  | Some o, Some (k, Some c) => ro_kind o = k /\ ro_block o = Some (k_name c) /\
      exists m es, get bl (k_name c) = Some m /\ holds sz Vec (mkCont m (ro_n o)) es /\ k_elems c = map snd es /\ k_cap c = b_bytes m / sz
  | _, _ => False
  end.
Record rel {A} (sz : N) (bl : list (option (buf A))) (objs : list (option robj)) (sobjs : list (option (kind * option (content A)))) : Prop := mkRel {
  rel_len : length objs = length sobjs;
  rel_obj : forall i, okobj sz bl (get objs i) (get sobjs i);
  rel_one : forall i j n, nm (get sobjs i) = Some n -> nm (get sobjs j) = Some n -> i = j;
  rel_own : forall b m, get bl b = Some m -> exists i, nm (get sobjs i) = Some b }.

Lemma get_lt {A} (l : list (option A)) i x : get l i = Some x -> (i < length l)%nat.
Proof. intros H. destruct (Nat.lt_ge_cases i (length l)) as [L|L]; [exact L|]. unfold get in H. rewrite nth_overflow in H by exact L. discriminate. Qed.
Lemma okobj_name {A} sz bl o (a : option (kind * option (content A))) n : okobj sz bl o a -> nm a = Some n -> (n < length bl)%nat.
Proof.
  destruct o as [o|], a as [(k & [c|])|]; cbn; try discriminate; try tauto. intros (_ & _ & m & es & G & _) E. injection E as <-. eapply get_lt; exact G.
Qed.
Lemma okobj_blocks {A} sz bl bl' o (a : option (kind * option (content A))) : (forall n, nm a = Some n -> get bl' n = get bl n) -> okobj sz bl o a -> okobj sz bl' o a.
Proof.
  destruct o as [o|], a as [(k & [c|])|]; cbn; try tauto. intros H (E1 & E2 & m & es & G & R). split; [exact E1|]. split; [exact E2|]. exists m, es. rewrite (H _ eq_refl). auto.
Qed.

(** The memory and the counter of one object change. *)
Lemma rel_put {A} sz bl objs (sobjs : list (option (kind * option (content A)))) i k c m' n' es' : rel sz bl objs sobjs -> get sobjs i = Some (k, Some c) ->
  holds sz Vec (mkCont m' n') es' -> b_bytes m' / sz = k_cap c ->
  rel sz (upd bl (k_name c) (Some m')) (upd objs i (Some (mkRObj k (Some (k_name c)) n'))) (upd sobjs i (Some (k, Some (mkContent (k_name c) (k_cap c) (map snd es'))))).
Proof.
  intros [R1 R2 R3 R4] G H B. pose proof (get_lt _ _ _ G) as L. pose proof (okobj_name sz bl (get objs i) (get sobjs i) (k_name c) (R2 i)) as NL. rewrite G in NL. specialize (NL eq_refl).
  assert (N1 : forall j, nm (get (upd sobjs i (Some (k, Some (mkContent (k_name c) (k_cap c) (map snd es'))))) j) = nm (get sobjs j)).
  { intros j. rewrite get_upd. destruct (Nat.eqb_spec i j) as [->|D]; cbn [andb]; [|reflexivity]. destruct (Nat.ltb_spec j (length sobjs)); [|lia]. now rewrite G. }
  split.
  - now rewrite !length_upd.
  - intros j. rewrite !get_upd. rewrite R1. destruct (Nat.eqb_spec i j) as [<-|D]; cbn [andb].
    + destruct (Nat.ltb_spec i (length sobjs)); [|lia]. cbn. split; [reflexivity|]. split; [reflexivity|]. exists m', es'. split; [|auto].
      rewrite get_upd, Nat.eqb_refl. destruct (Nat.ltb_spec (k_name c) (length bl)); [reflexivity|lia].
    + eapply okobj_blocks; [|exact (R2 j)]. intros n E. apply get_upd_other. intros <-. apply D. apply (R3 i j (k_name c)); [now rewrite G|exact E].
  - intros a b n. rewrite !N1. apply R3.
  - intros b m. rewrite get_upd. destruct (Nat.eqb_spec (k_name c) b) as [<-|D]; cbn [andb].
    + intros _. exists i. rewrite N1. now rewrite G.
    + intros E. destruct (R4 b m E) as (j & J). exists j. now rewrite N1.
Qed.

(** A content goes from one object to a new one. *)
Lemma rel_move {A} sz bl objs (sobjs : list (option (kind * option (content A)))) i k k' o c : rel sz bl objs sobjs -> get sobjs i = Some (k, c) -> get objs i = Some o ->
  rel sz bl (upd objs i (Some (mkRObj k None 0)) ++ [Some (mkRObj k' (ro_block o) (ro_n o))]) (upd sobjs i (Some (k, None)) ++ [Some (k', c)]).
Proof.
  intros [R1 R2 R3 R4] G Go. pose proof (get_lt _ _ _ G) as L.
  assert (N1 : forall j, nm (get (upd sobjs i (Some (k, None)) ++ [Some (k', c)]) j) =
    if Nat.eqb j (length sobjs) then nm (get sobjs i) else if Nat.eqb i j then None else nm (get sobjs j)).
  { intros j. rewrite get_app, length_upd. destruct (Nat.eqb j (length sobjs)); [rewrite G; reflexivity|].
    rewrite get_upd. destruct (Nat.eqb_spec i j) as [<-|D]; cbn [andb]; [|reflexivity]. destruct (Nat.ltb_spec i (length sobjs)); [reflexivity|lia]. }
  split.
  - rewrite !app_length, !length_upd. cbn. lia.
  - intros j. rewrite !get_app, !length_upd, R1. destruct (Nat.eqb j (length sobjs)).
    + pose proof (R2 i) as X. rewrite G, Go in X. destruct c as [c|]; cbn in *; [|now subst o]. destruct X as (X1 & X2 & X3). auto.
    + rewrite !get_upd, R1. destruct (Nat.eqb_spec i j) as [<-|D]; cbn [andb]; [|apply R2]. destruct (Nat.ltb_spec i (length sobjs)); [reflexivity|lia].
  - assert (OVER : forall n, nm (get sobjs (length sobjs)) = Some n -> False).
    { intros n X. unfold get in X. rewrite nth_overflow in X by lia. discriminate. }
    intros a b n. rewrite !N1. destruct (Nat.eqb_spec a (length sobjs)) as [->|A1], (Nat.eqb_spec b (length sobjs)) as [->|B1]; try reflexivity.
    + destruct (Nat.eqb_spec i b) as [<-|D]; [discriminate|]. intros X Y. exfalso. apply D. exact (R3 i b n X Y).
    + destruct (Nat.eqb_spec i a) as [<-|D]; [discriminate|]. intros X Y. exfalso. apply D. symmetry. exact (R3 a i n X Y).
    + destruct (Nat.eqb_spec i a) as [<-|D]; [discriminate|]. destruct (Nat.eqb_spec i b) as [<-|D']; [discriminate|]. apply R3.
  - intros b m E. destruct (R4 b m E) as (j & J). destruct (Nat.eq_dec i j) as [<-|D].
    + exists (length sobjs). rewrite N1, Nat.eqb_refl. exact J.
    + exists j. rewrite N1. destruct (Nat.eqb_spec j (length sobjs)) as [->|_].
      * unfold get in J. rewrite nth_overflow in J by lia. discriminate.
      * destruct (Nat.eqb_spec i j); [contradiction|exact J].
Qed.

(** Two objects exchange their contents. *)
Lemma rel_swap {A} sz bl objs (sobjs : list (option (kind * option (content A)))) i j x y o p : rel sz bl objs sobjs ->
  get sobjs i = Some x -> get sobjs j = Some y -> get objs i = Some o -> get objs j = Some p ->
  rel sz bl (upd (upd objs i (Some p)) j (Some o)) (upd (upd sobjs i (Some y)) j (Some x)).
Proof.
  intros [R1 R2 R3 R4] Gi Gj Oi Oj. pose proof (get_lt _ _ _ Gi) as Li. pose proof (get_lt _ _ _ Gj) as Lj.
  set (pi := fun a => if Nat.eqb a j then i else if Nat.eqb a i then j else a).
  assert (N1 : forall a, get (upd (upd sobjs i (Some y)) j (Some x)) a = get sobjs (pi a)).
  { intros a. unfold pi. rewrite !get_upd, length_upd. rewrite (Nat.eqb_sym j a), (Nat.eqb_sym i a). destruct (Nat.eqb_spec a j) as [->|]; cbn [andb].
    - destruct (Nat.ltb_spec j (length sobjs)); [now rewrite Gi|lia].
    - destruct (Nat.eqb_spec a i) as [->|]; cbn [andb]; [|reflexivity]. destruct (Nat.ltb_spec i (length sobjs)); [now rewrite Gj|lia]. }
  assert (N2 : forall a, get (upd (upd objs i (Some p)) j (Some o)) a = get objs (pi a)).
  { intros a. unfold pi. rewrite !get_upd, length_upd, R1. rewrite (Nat.eqb_sym j a), (Nat.eqb_sym i a). destruct (Nat.eqb_spec a j) as [->|]; cbn [andb].
    - destruct (Nat.ltb_spec j (length sobjs)); [now rewrite Oi|lia].
    - destruct (Nat.eqb_spec a i) as [->|]; cbn [andb]; [|reflexivity]. destruct (Nat.ltb_spec i (length sobjs)); [now rewrite Oj|lia]. }
  assert (PP : forall a, pi (pi a) = a).
  { intros a. unfold pi. destruct (Nat.eqb_spec a j) as [->|]; [|destruct (Nat.eqb_spec a i) as [->|]];
      repeat match goal with |- context [Nat.eqb ?u ?v] => destruct (Nat.eqb_spec u v); subst end; congruence. }
  split.
  - now rewrite !length_upd.
  - intros a. rewrite N1, N2. apply R2.
  - intros a b n. rewrite !N1. intros X Y. rewrite <- (PP a), <- (PP b). f_equal. exact (R3 _ _ n X Y).
  - intros b m E. destruct (R4 b m E) as (a & J). exists (pi a). now rewrite N1, PP.
Qed.

(** An object and its memory go away. *)
Lemma rel_drop {A} sz bl objs (sobjs : list (option (kind * option (content A)))) i k c o : rel sz bl objs sobjs -> get sobjs i = Some (k, c) -> get objs i = Some o ->
  rel sz (match ro_block o with None => bl | Some b => upd bl b None end) (upd objs i None) (upd sobjs i None).
Proof.
  intros [R1 R2 R3 R4] G Go. pose proof (get_lt _ _ _ G) as L. pose proof (R2 i) as X. rewrite G, Go in X.
  assert (N1 : forall j, get (upd sobjs i None) j = if Nat.eqb i j then None else get sobjs j).
  { intros j. rewrite get_upd. destruct (Nat.eqb_spec i j) as [<-|D]; cbn [andb]; [|reflexivity]. destruct (Nat.ltb_spec i (length sobjs)); [reflexivity|lia]. }
  assert (BL : forall n, nm (Some (k, c)) <> Some n -> get (match ro_block o with None => bl | Some b => upd bl b None end) n = get bl n).
  { intros n D. destruct c as [c|]; cbn in X; [|now subst o]. destruct X as (_ & -> & _). apply get_upd_other. cbn in D. congruence. }
  split.
  - now rewrite !length_upd.
  - intros j. rewrite N1, get_upd, R1. destruct (Nat.eqb_spec i j) as [<-|D]; cbn [andb].
    + destruct (Nat.ltb_spec i (length sobjs)); [exact Logic.I|lia].
    + eapply okobj_blocks; [|exact (R2 j)]. intros n E. apply BL. intros E'. apply D. apply (R3 i j n); [now rewrite G|exact E].
  - intros a b n. rewrite !N1. destruct (Nat.eqb i a); [discriminate|]. destruct (Nat.eqb i b); [discriminate|]. apply R3.
  - intros b m E. assert (E' : get bl b = Some m /\ nm (Some (k, c)) <> Some b).
    { destruct c as [c|]; cbn in X.
      - destruct X as (_ & Eb & _). rewrite Eb in E. cbn. rewrite get_upd in E. destruct (Nat.eqb_spec (k_name c) b) as [<-|D]; cbn [andb] in E.
        + destruct (Nat.ltb_spec (k_name c) (length bl)); [discriminate|]. apply get_lt in E. lia.
        + split; [exact E|congruence].
      - subst o. split; [exact E|discriminate]. }
    destruct E' as (E1 & E2). destruct (R4 b m E1) as (j & J). exists j. rewrite N1. destruct (Nat.eqb_spec i j) as [<-|]; [|exact J]. rewrite G in J. contradiction.
Qed.

(** A new object with new memory. *)
Lemma rel_make {A} sz bl objs (sobjs : list (option (kind * option (content A)))) bytes : 0 < sz -> bytes < 2 ^ 64 -> rel sz bl objs sobjs ->
  rel sz (bl ++ [Some (raw_buf sz bytes)]) (objs ++ [Some (mkRObj Vec (Some (length bl)) 0)]) (sobjs ++ [Some (Vec, Some (mkContent (length bl) (bytes / sz) []))]).
Proof.
  intros S B [R1 R2 R3 R4].
  assert (NL : forall j n, nm (get sobjs j) = Some n -> (n < length bl)%nat) by (intros j n E; eapply okobj_name; [apply R2|exact E]).
  split.
  - rewrite !app_length. cbn. lia.
  - intros j. rewrite !get_app, R1. destruct (Nat.eqb j (length sobjs)).
    + cbn. split; [reflexivity|]. split; [reflexivity|]. exists (raw_buf sz bytes), []. rewrite get_app, Nat.eqb_refl. split; [reflexivity|]. split; [now apply holds_raw|]. split; reflexivity.
    + eapply okobj_blocks; [|apply R2]. intros n E. rewrite get_app. destruct (Nat.eqb_spec n (length bl)) as [->|]; [|reflexivity]. apply NL in E. lia.
  - intros a b n. rewrite !get_app. destruct (Nat.eqb_spec a (length sobjs)) as [->|], (Nat.eqb_spec b (length sobjs)) as [->|]; try reflexivity; cbn [nm k_name].
    + intros E F. injection E as <-. apply NL in F. lia.
    + intros F E. injection E as <-. apply NL in F. lia.
    + apply R3.
  - intros b m. rewrite get_app. destruct (Nat.eqb_spec b (length bl)) as [->|].
    + intros _. exists (length sobjs). rewrite get_app, Nat.eqb_refl. reflexivity.
    + intros E. destruct (R4 b m E) as (j & J). exists j. rewrite get_app. destruct (Nat.eqb_spec j (length sobjs)) as [->|]; [|exact J].
      unfold get in J. rewrite nth_overflow in J by lia. discriminate.
Qed.

(** Names and contents. *)
Lemma lookup_some {A} (l : list (option (kind * option (content A)))) : (forall i j n, nm (get l i) = Some n -> nm (get l j) = Some n -> i = j) ->
  forall i k c, get l i = Some (k, Some c) -> lookup l (k_name c) = Some (k_elems c).
Proof.
  induction l as [|x l IH]; intros U i k c G; [destruct i; discriminate|].
  assert (U' : forall i j n, nm (get l i) = Some n -> nm (get l j) = Some n -> i = j).
  { intros a b n X Y. specialize (U (Datatypes.S a) (Datatypes.S b) n X Y). lia. }
  destruct i as [|i].
  - change (x = Some (k, Some c)) in G. subst x. cbn [lookup]. now rewrite Nat.eqb_refl.
  - change (get l i = Some (k, Some c)) in G. specialize (IH U' i k c G). cbn [lookup]. destruct x as [(k' & [c'|])|]; try exact IH. destruct (Nat.eqb_spec (k_name c') (k_name c)) as [E|]; [|exact IH].
    exfalso. assert (X : O = Datatypes.S i); [|discriminate]. apply (U O (Datatypes.S i) (k_name c)).
    + change (Some (k_name c') = Some (k_name c)). now rewrite E.
    + change (nm (get l i) = Some (k_name c)). now rewrite G.
Qed.
Lemma lookup_none {A} (l : list (option (kind * option (content A)))) n : (forall i, nm (get l i) <> Some n) -> lookup l n = None.
Proof.
  induction l as [|x l IH]; intros U; [reflexivity|]. assert (E : lookup l n = None) by (apply IH; intros i; exact (U (Datatypes.S i))).
  cbn [lookup]. destruct x as [(k & [c|])|]; try exact E. destruct (Nat.eqb_spec (k_name c) n) as [<-|]; [|exact E]. exfalso. exact (U O eq_refl).
Qed.
Lemma get_map {A B} (f : option A -> option B) l i : f None = None -> get (map f l) i = f (get l i).
Proof. intros E. unfold get. rewrite <- E at 1. apply map_nth. Qed.

(** What is at an address is what the reference shows. *)
Lemma address_spec {A} sz (w : rworld A) sobjs p : rel sz (rw_blocks w) (rw_objs w) sobjs ->
  match shown sobjs p with
  | Some x => exists i k c m n es e, get sobjs i = Some (k, Some c) /\ get (rw_objs w) i = Some (mkRObj k (Some (fst p)) n) /\ k_name c = fst p /\ get (rw_blocks w) (fst p) = Some m /\ holds sz Vec (mkCont m n) es /\
      k_elems c = map snd es /\ k_cap c = b_bytes m / sz /\ nth_error es (snd p) = Some e /\ snd e = x /\ at_address w p = Ret e
  | None => at_address w p = UB
  end.
Proof.
  intros [R1 R2 R3 R4]. unfold at_address, shown. destruct (get (rw_blocks w) (fst p)) as [m|] eqn:G.
  - destruct (R4 _ _ G) as (i & J). destruct (get sobjs i) as [(k & [c|])|] eqn:Gi; try discriminate. cbn in J. injection J as J.
    assert (LK : lookup sobjs (fst p) = Some (k_elems c)) by (rewrite <- J; exact (lookup_some _ R3 i k c Gi)). rewrite LK. pose proof (R2 i) as X. rewrite Gi in X. destruct (get (rw_objs w) i) as [o|] eqn:Go; cbn in X; [|contradiction].
    destruct X as (X1 & X2 & m' & es & G' & H & El & Ec). rewrite J, G in G'. injection G' as <-. rewrite El, nth_error_map.
    pose proof H as (r & B & _). cbn [c_buf] in B. destruct (nth_error es (snd p)) as [e|] eqn:Ne; cbn [option_map].
    + exists i, k, c, m, (ro_n o), es, e. split; [exact Gi|]. split; [destruct o; cbn in *; congruence|]. split; [exact J|]. split; [reflexivity|]. split; [exact H|]. split; [exact El|]. split; [exact Ec|].
      split; [exact Ne|]. split; [reflexivity|]. rewrite B, nth_error_app1 by (rewrite map_length; apply nth_error_Some; congruence). rewrite nth_error_map, Ne. reflexivity.
    + apply nth_error_None in Ne. rewrite B. rewrite nth_error_app2 by (rewrite map_length; exact Ne).
      destruct (nth_error (repeat None r) (snd p - length (map Some es))) as [x|] eqn:E; [|reflexivity]. apply nth_error_In, repeat_spec in E. now subst.
  - rewrite lookup_none; [reflexivity|]. intros i E. pose proof (R2 i) as X. destruct (get sobjs i) as [(k & [c|])|]; cbn in E; try discriminate. injection E as E.
    destruct (get (rw_objs w) i); cbn in X; [|contradiction]. destruct X as (_ & _ & m & es & G' & _). congruence.
Qed.

Lemma upd_same {A} (l : list (option A)) i x : get l i = Some x -> upd l i (Some x) = l.
Proof. revert i. induction l as [|y l IH]; intros [|i] H; cbn; [reflexivity|reflexivity| |]. - cbv in H. now subst. - f_equal. apply IH. exact H. Qed.
Lemma rewrite_is {A} (l : list (option (kind * option (content A)))) i k c p x : (forall i j n, nm (get l i) = Some n -> nm (get l j) = Some n -> i = j) ->
  get l i = Some (k, Some c) -> k_name c = fst p ->
  map (rewritten p x) l = upd l i (Some (k, Some (mkContent (k_name c) (k_cap c) (upd (k_elems c) (snd p) x)))).
Proof.
  intros U G E. apply nth_ext with (d := None) (d' := None); [now rewrite map_length, length_upd|]. intros j J. rewrite map_length in J.
  change (get (map (rewritten p x) l) j = get (upd l i (Some (k, Some (mkContent (k_name c) (k_cap c) (upd (k_elems c) (snd p) x))))) j).
  rewrite get_map by reflexivity. rewrite get_upd. destruct (Nat.eqb_spec i j) as [<-|D]; cbn [andb].
  - destruct (Nat.ltb_spec i (length l)); [|lia]. rewrite G. cbn [rewritten]. now rewrite E, Nat.eqb_refl.
  - destruct (get l j) as [(k' & [c'|])|] eqn:Gj; cbn [rewritten]; try reflexivity. destruct (Nat.eqb_spec (k_name c') (fst p)) as [F|]; [|reflexivity].
    exfalso. apply D. apply (U i j (fst p)); [rewrite G|rewrite Gj]; cbn; congruence.
Qed.
Lemma map_snd_upd {A} (es : list (nat * A)) i e x : nth_error es i = Some e -> map snd (upd es i (fst e, x)) = upd (map snd es) i x.
Proof. revert i. induction es as [|y es IH]; intros [|i] H; cbn in *; try discriminate; [reflexivity|]. f_equal. now apply IH. Qed.
Lemma map_some_upd {A} (es : list A) i e r : (i < length es)%nat -> upd (map Some es ++ r) i (Some e) = map Some (upd es i e) ++ r.
Proof. revert i. induction es as [|y es IH]; intros [|i] H; cbn in *; try lia; [reflexivity|]. f_equal. apply IH. lia. Qed.

Definition rrel {A} sz (w : rworld A) (s : swld A) : Prop :=
  rel sz (rw_blocks w) (rw_objs w) (s_objs s) /\ s_made s = length (rw_blocks w) /\ s_refs s = rw_refs w.

Lemma rstep_spec {A} sz (w : rworld A) s o : 0 < sz -> small o -> rrel sz w s ->
  match sstep sz s o with
  | Some (s', a) => exists w', rstep sz w o = Ret (w', a) /\ rrel sz w' s'
  | None => rstep sz w o = UB
  end.
Proof.
  intros S F (R & M & Q).
  assert (SAME : forall a : rans A, exists w', Ret (w, a) = Ret (w', a) /\ rrel sz w' s) by (intros a; exists w; split; [reflexivity|repeat split; try apply R; assumption]).
  assert (OBJ : forall i, match get (s_objs s) i with
    | None => get (rw_objs w) i = None
    | Some (k, None) => get (rw_objs w) i = Some (mkRObj k None 0)
    | Some (k, Some c) => exists n m es, get (rw_objs w) i = Some (mkRObj k (Some (k_name c)) n) /\ get (rw_blocks w) (k_name c) = Some m /\ holds sz Vec (mkCont m n) es /\ k_elems c = map snd es /\ k_cap c = b_bytes m / sz
    end).
  { intros i. pose proof (rel_obj _ _ _ _ R i) as X. destruct (get (s_objs s) i) as [(k & [c|])|], (get (rw_objs w) i) as [o'|]; cbn in X; try contradiction; try reflexivity; [|now subst].
    destruct X as (<- & X2 & m & es & X3). exists (ro_n o'), m, es. split; [destruct o'; cbn in *; congruence|exact X3]. }
  assert (NULL : @holds A sz Vec (mkCont no_buf 0) []) by now apply holds_none.
  destruct o as [bytes|i x|i|i|i|i j|i|i|i k|i k|q|q x]; cbn [sstep rstep].
  - (* make *) eexists. split; [reflexivity|]. split; [|split; [cbn; rewrite app_length; cbn; lia|exact Q]]. cbn [rw_blocks rw_objs s_objs]. rewrite M. now apply rel_make.
  - (* push *) specialize (OBJ i). destruct (get (s_objs s) i) as [(k & [c|])|] eqn:G.
    + destruct OBJ as (n & m & es & Go & Gb & H & El & Ec). rewrite Go. destruct k; [|apply SAME]. cbn [robj_cont ro_block ro_n]. rewrite Gb. cbn [bind elems_of cap_of change]. rewrite El, Ec, map_length.
      destruct (emplace_spec sz 0 (mkCont m n) es (Some x) S H) as [(C & E)|(C & c' & E & H' & BB)]; unfold vec_capacity in C; cbn [c_buf] in C.
      * destruct (N.ltb_spec (N.of_nat (length es)) (b_bytes m / sz)); [lia|]. rewrite E. cbn [bind]. unfold robj_put. cbn [ro_block ro_kind c_buf c_n]. rewrite (upd_same _ _ _ Gb), (upd_same _ _ _ Go).
        eexists. split; [reflexivity|]. repeat split; try apply R; assumption.
      * destruct (N.ltb_spec (N.of_nat (length es)) (b_bytes m / sz)); [|lia]. rewrite E. cbn [bind]. eexists. split; [reflexivity|]. unfold robj_put. cbn [ro_block ro_kind].
        split; [|split; [cbn; rewrite length_upd; exact M|exact Q]]. cbn [rw_blocks rw_objs s_objs]. replace (map snd es ++ [x]) with (map snd (es ++ [(O, x)])) by (now rewrite map_app).
        rewrite <- Ec. apply rel_put with (1 := R) (2 := G); [destruct c'; exact H'|]. rewrite BB. cbn [c_buf]. now symmetry.
    + rewrite OBJ. destruct k; [|apply SAME]. cbn [robj_cont ro_block ro_n elems_of cap_of length]. destruct (N.ltb_spec (N.of_nat 0) 0); [lia|]. cbn [bind].
      destruct (emplace_spec sz 0 (mkCont no_buf 0) [] (Some x) S NULL) as [(C & E)|(C & _)]; [|unfold vec_capacity in C; cbn in C; lia].
      rewrite E. cbn [bind]. unfold robj_put. cbn [ro_block ro_kind c_n]. rewrite (upd_same _ _ _ OBJ). eexists. split; [reflexivity|]. repeat split; try apply R; assumption.
    + rewrite OBJ. apply SAME.
  - (* pop *) specialize (OBJ i). destruct (get (s_objs s) i) as [(k & [c|])|] eqn:G.
    + destruct OBJ as (n & m & es & Go & Gb & H & El & Ec). rewrite Go. destruct k; [|apply SAME]. cbn [robj_cont ro_block ro_n]. rewrite Gb. cbn [bind elems_of change]. rewrite El.
      assert (P : exists c', (exists ev, vec_pop sz (mkCont m n) = Ret (c', ev)) /\ holds sz Vec c' (removelast es) /\ b_bytes (c_buf c') = b_bytes m).
      { destruct es as [|e es' _] using rev_ind; [rewrite (pop_empty sz _ H); exists (mkCont m n); split; [eauto|split; [exact H|reflexivity]]|].
        destruct (pop_spec sz _ es' e S H) as (c' & E & H' & BB). exists c'. rewrite removelast_last. split; [eauto|split; [exact H'|exact BB]]. }
      destruct P as (c' & (ev & E) & H' & BB). rewrite E. cbn [bind fst]. eexists. split; [reflexivity|]. unfold robj_put. cbn [ro_block ro_kind].
      split; [|split; [cbn; rewrite length_upd; exact M|exact Q]]. cbn [rw_blocks rw_objs s_objs].
      replace (removelast (map snd es)) with (map snd (removelast es)) by (destruct es as [|e es' _] using rev_ind; [reflexivity|now rewrite map_app, removelast_last; cbn [map]; rewrite removelast_last]).
      apply rel_put with (1 := R) (2 := G); [destruct c'; exact H'|]. now rewrite BB.
    + rewrite OBJ. destruct k; [|apply SAME]. cbn [robj_cont ro_block ro_n change bind]. rewrite (pop_empty sz _ NULL). cbn [bind fst]. unfold robj_put. cbn [ro_block ro_kind c_n]. rewrite (upd_same _ _ _ OBJ), (upd_same _ _ _ G).
      eexists. split; [reflexivity|]. repeat split; try apply R; assumption.
    + rewrite OBJ. apply SAME.
  - (* null *) specialize (OBJ i). destruct (get (s_objs s) i) as [(k & [c|])|] eqn:G.
    + destruct OBJ as (n & m & es & Go & Gb & H & El & Ec). rewrite Go. destruct k; [|apply SAME]. cbn [robj_cont ro_block ro_n]. rewrite Gb. cbn [bind change]. unfold vec_dispose. rewrite (destroy_spec sz Vec _ es H). cbn [bind fst snd c_buf].
      eexists. split; [reflexivity|]. unfold robj_put. cbn [ro_block ro_kind c_buf c_n]. split; [|split; [cbn; rewrite length_upd; exact M|exact Q]]. cbn [rw_blocks rw_objs s_objs].
      apply (rel_put sz _ _ _ i Vec c _ 0 [] R G); [|cbn [b_bytes]; now symmetry]. destruct H as (r & B & L & Lt & _). cbn [c_buf] in *.
      apply (holds_make sz Vec _ 0 [] (length (b_slots m))); cbn [b_slots b_bytes length map app]; auto. now rewrite repeat_length.
    + rewrite OBJ. destruct k; [|apply SAME]. cbn [robj_cont ro_block ro_n change bind]. unfold vec_dispose. rewrite (destroy_spec sz Vec _ [] NULL). cbn [bind fst snd]. unfold robj_put. cbn [ro_block ro_kind c_n].
      rewrite (upd_same _ _ _ OBJ), (upd_same _ _ _ G). eexists. split; [reflexivity|]. repeat split; try apply R; assumption.
    + rewrite OBJ. apply SAME.
  - (* move *) specialize (OBJ i). destruct (get (s_objs s) i) as [(k & c)|] eqn:G.
    + assert (Go : exists o, get (rw_objs w) i = Some o /\ ro_kind o = k) by (destruct c as [c|]; [destruct OBJ as (n & m & es & Go & _)|]; eauto).
      destruct Go as (o & Go & K). rewrite Go, K. eexists. split; [reflexivity|]. split; [|split; assumption]. cbn [with_objs rw_blocks rw_objs s_objs].
      replace (Some o) with (Some (mkRObj k (ro_block o) (ro_n o))) by (destruct o; cbn in *; congruence). now apply rel_move.
    + rewrite OBJ. apply SAME.
  - (* swap *) pose proof (OBJ i) as Oi. pose proof (OBJ j) as Oj. destruct (get (s_objs s) i) as [(k & c)|] eqn:Gi; [|rewrite Oi; apply SAME].
    assert (Go : exists o, get (rw_objs w) i = Some o /\ ro_kind o = k) by (destruct c as [c|]; [destruct Oi as (n & m & es & Go & _)|]; eauto). destruct Go as (o & Go & K). rewrite Go.
    destruct (get (s_objs s) j) as [(k' & c')|] eqn:Gj; [|rewrite Oj; destruct k; apply SAME].
    assert (Go' : exists o, get (rw_objs w) j = Some o /\ ro_kind o = k') by (destruct c' as [c'|]; [destruct Oj as (n & m & es & Go' & _)|]; eauto). destruct Go' as (o' & Go' & K'). rewrite Go', K, K'.
    destruct k, k'; cbn [is_vec Bool.eqb]; try apply SAME; (eexists; split; [reflexivity|]; split; [|split; assumption]; cbn [with_objs rw_blocks rw_objs s_objs]; now apply rel_swap).
  - (* toArray *) specialize (OBJ i). destruct (get (s_objs s) i) as [(k & c)|] eqn:G.
    + assert (Go : exists b n, get (rw_objs w) i = Some (mkRObj k b n)) by (destruct c as [c|]; [destruct OBJ as (n & m & es & Go & _)|]; eauto).
      destruct Go as (b & n & Go). rewrite Go. destruct k; [|apply SAME]. eexists. split; [reflexivity|]. split; [|split; assumption]. cbn [with_objs rw_blocks rw_objs s_objs].
      exact (rel_move sz _ _ _ i Vec Arr _ c R G Go).
    + rewrite OBJ. apply SAME.
  - (* drop *) specialize (OBJ i). destruct (get (s_objs s) i) as [(k & c)|] eqn:G.
    + assert (Go : exists o, get (rw_objs w) i = Some o) by (destruct c as [c|]; [destruct OBJ as (n & m & es & Go & _)|]; eauto). destruct Go as (o & Go). rewrite Go.
      assert (D : exists c p, robj_cont w o = Ret c /\ destroy_all sz c = Ret p).
      { destruct c as [c|].
        - destruct OBJ as (n & m & es & Go' & Gb & H & _). rewrite Go in Go'. injection Go' as ->. unfold robj_cont. cbn [ro_block ro_n]. rewrite Gb. eexists. eexists. split; [reflexivity|]. exact (destroy_spec sz Vec _ es H).
        - rewrite Go in OBJ. injection OBJ as ->. eexists. eexists. split; [reflexivity|]. exact (destroy_spec sz Vec _ [] NULL). }
      destruct D as (c1 & p & E1 & E2). rewrite E1. cbn [bind]. rewrite E2. cbn [bind]. eexists. split; [reflexivity|]. split; [|split].
      * cbn [with_objs release rw_blocks rw_objs s_objs]. now apply (rel_drop sz _ _ _ i k c o).
      * cbn [with_objs release rw_blocks s_made]. rewrite M. destruct (ro_block o); [now rewrite length_upd|reflexivity].
      * exact Q.
    + rewrite OBJ. apply SAME.
  - (* get *) specialize (OBJ i). destruct (get (s_objs s) i) as [(kd & [c|])|] eqn:G.
    + destruct OBJ as (n & m & es & Go & Gb & H & El & Ec). rewrite Go. cbn [robj_cont ro_block ro_n]. rewrite Gb. cbn [bind elems_of]. rewrite (at_spec sz Vec _ es k S H), El. destruct (nth_error (map snd es) (N.to_nat k)); apply SAME.
    + rewrite OBJ. cbn [robj_cont ro_block ro_n bind elems_of]. rewrite (at_spec sz Vec _ [] k S NULL). cbn [map]. destruct (nth_error [] (N.to_nat k)) eqn:E; [destruct (N.to_nat k); discriminate|apply SAME].
    + rewrite OBJ. apply SAME.
  - (* ref *) specialize (OBJ i). destruct (get (s_objs s) i) as [(kd & [c|])|] eqn:G.
    + destruct OBJ as (n & m & es & Go & Gb & H & El & Ec). rewrite Go. cbn [robj_cont ro_block ro_n]. rewrite Gb. cbn [bind]. rewrite El, map_length.
      pose proof (refer_spec sz _ es (Elem k) S H) as RF. cbn [meant] in RF. destruct (N.ltb_spec k (N.of_nat (length es))) as [C|C].
      * destruct (nth_error (map snd es) (N.to_nat k)) eqn:E; [|apply nth_error_None in E; rewrite map_length in E; lia]. destruct RF as (r & RF & _ & P). rewrite RF. destruct r as [y|p]; [discriminate|]. destruct P as (P & _). injection P as P.
        eexists. split; [reflexivity|]. split; [exact R|]. split; [exact M|]. cbn [rw_refs s_refs]. rewrite Q. repeat f_equal. lia.
      * destruct (nth_error (map snd es) (N.to_nat k)) eqn:E; [assert (N.to_nat k < length (map snd es))%nat by (apply nth_error_Some; congruence); rewrite map_length in *; lia|]. rewrite RF.
        eexists. split; [reflexivity|]. split; [exact R|]. split; [exact M|]. cbn [rw_refs s_refs]. now rewrite Q.
    + rewrite OBJ. cbn [robj_cont ro_block ro_n bind]. pose proof (refer_spec sz _ [] (Elem k) S NULL) as RF. cbn [meant map] in RF. destruct (nth_error [] (N.to_nat k)) eqn:E; [destruct (N.to_nat k); discriminate|]. rewrite RF.
      eexists. split; [reflexivity|]. split; [exact R|]. split; [exact M|]. cbn [rw_refs s_refs]. now rewrite Q.
    + rewrite OBJ. apply SAME.
  - (* read *) rewrite Q. destruct (get (rw_refs w) q) as [p|]; [|apply SAME]. pose proof (address_spec sz w (s_objs s) p R) as X. destruct (shown (s_objs s) p) as [x|].
    + destruct X as (i & k & c & m & n & es & e & _ & _ & _ & _ & _ & _ & _ & _ & <- & ->). cbn [bind]. apply SAME.
    + rewrite X. reflexivity.
  - (* write *) rewrite Q. destruct (get (rw_refs w) q) as [p|]; [|apply SAME]. pose proof (address_spec sz w (s_objs s) p R) as X. destruct (shown (s_objs s) p) as [y|].
    + destruct X as (i & k & c & m & n & es & e & Gi & Go & Nm & Gb & H & El & Ec & Ne & _ & ->). cbn [bind]. rewrite Gb. eexists. split; [reflexivity|]. split; [|split; [cbn; rewrite length_upd; exact M|reflexivity]].
      cbn [rw_blocks rw_objs s_objs]. rewrite (rewrite_is (s_objs s) i k c p x (rel_one _ _ _ _ R) Gi Nm). rewrite El, <- (map_snd_upd es (snd p) e x Ne).
      pose proof (rel_put sz _ _ _ i k c (mkBuf (b_bytes m) (upd (b_slots m) (snd p) (Some (fst e, x)))) n (upd es (snd p) (fst e, x)) R Gi) as P. rewrite Nm in P. rewrite (upd_same _ _ _ Go) in P. rewrite Nm. apply P.
      * pose proof H as (r & B & L & Lt & V & Vl & Va & K). cbn [c_buf] in *. specialize (K eq_refl). cbn [c_n] in K. apply (holds_make sz Vec _ _ _ r); cbn [b_slots b_bytes]; auto.
        -- rewrite B. apply map_some_upd. apply nth_error_Some. congruence.
        -- now rewrite length_upd.
        -- now rewrite length_upd.
      * cbn [b_bytes]. now symmetry.
    + rewrite X. reflexivity.
Qed.

Lemma rrel0 {A} sz : rrel sz (@rworld0 A) swld0.
Proof.
  split; [|split; reflexivity]. split; cbn; try reflexivity.
  - intros i. unfold get. destruct i; exact Logic.I.
  - intros [|i] [|j] n; discriminate.
  - intros [|b] m; discriminate.
Qed.
Lemma rrun_spec {A} sz ops : 0 < sz -> forall (w : rworld A) s, Forall small ops -> rrel sz w s ->
  match srun sz s ops with
  | Some (s', a) => exists w', rrun sz w ops = Ret (w', a) /\ rrel sz w' s'
  | None => rrun sz w ops = UB
  end.
Proof.
  intros S. induction ops as [|o ops IH]; intros w s F R; cbn [srun rrun]; [exists w; auto|]. inversion F as [|? ? F1 F2]; subst.
  pose proof (rstep_spec sz w s o S F1 R) as X. destruct (sstep sz s o) as [(s1 & a)|]; [|now rewrite X].
  destruct X as (w1 & -> & R1). cbn [bind fst snd]. specialize (IH w1 s1 F2 R1). destruct (srun sz s1 ops) as [(s2 & r)|]; [|now rewrite IH].
  destruct IH as (w2 & -> & R2). cbn [bind fst snd]. eauto.
Qed.
