From Verif Require Import Base BaseLemmas MemViewModel MemViewSpec MemViewProofs TypedModel TypedSpec.
From Verif Require ViewsProofs.
Ltac Zify.zify_post_hook ::= Z.div_mod_to_equations.

Lemma skipn_add {A} m : forall n (l : list A), skipn n (skipn m l) = skipn (m + n) l.
Proof. induction m as [|m IH]; intros n l; [reflexivity|]. destruct l; cbn [skipn plus]; [apply skipn_nil|apply IH]. Qed.
Lemma nth_error_ext {A} (l : list A) : forall m, (forall i, nth_error l i = nth_error m i) -> l = m.
Proof.
  induction l as [|x l IH]; intros [|y m] H; [reflexivity|specialize (H O); discriminate H|specialize (H O); discriminate H|].
  pose proof (H O) as E. injection E as ->. f_equal. apply IH. intros i. exact (H (S i)).
Qed.
Lemma nth_error_firstn {A} n : forall (l : list A) i, nth_error (firstn n l) i = if (i <? n)%nat then nth_error l i else None.
Proof.
  induction n as [|n IH]; intros l i; [now destruct i|]. destruct l as [|x l]; cbn [firstn]; [destruct i, (_ <? _)%nat; reflexivity|].
  destruct i as [|i]; [reflexivity|]. cbn [nth_error]. rewrite IH. reflexivity.
Qed.
Lemma nth_error_skip {A} n : forall (l : list A) i, nth_error (skipn n l) i = nth_error l (n + i).
Proof. induction n as [|n IH]; intros l i; [reflexivity|]. destruct l; cbn [skipn plus nth_error]; [now destruct i|apply IH]. Qed.

Lemma app_len {A} (l : list A) : forall m r t, l ++ r = m ++ t -> length l = length m -> l = m /\ r = t.
Proof.
  induction l as [|x l IH]; intros [|y m] r t E L; try discriminate L; [now split|]. injection E as -> E. destruct (IH m r t E) as [-> ->]; [now injection L|]. now split.
Qed.

(** ** Cutting bytes into elements *)
Section Pieces.
Variable sz : nat.
Hypothesis pos : (0 < sz)%nat.

Lemma pieces_nth fuel : forall bs i, (length bs <= fuel)%nat ->
  nth_error (pieces fuel sz bs) i = if ((i + 1) * sz <=? length bs)%nat then Some (firstn sz (skipn (i * sz) bs)) else None.
Proof.
  induction fuel as [|fuel IH]; intros bs i L; cbn [pieces].
  - destruct bs; [|cbn in L; lia]. rewrite (proj2 (Nat.leb_gt _ _)) by (cbn; nia). now destruct i.
  - destruct (Nat.leb_spec sz (length bs)) as [H|H].
    + destruct i as [|i]; cbn [nth_error].
      * rewrite (proj2 (Nat.leb_le _ _)) by lia. reflexivity.
      * rewrite IH by (rewrite skipn_length; lia). rewrite skipn_length, skipn_add. replace (S i * sz)%nat with (sz + i * sz)%nat by lia.
        destruct (Nat.leb_spec ((i + 1) * sz) (length bs - sz)), (Nat.leb_spec ((S i + 1) * sz) (length bs)); (reflexivity || nia).
    + rewrite (proj2 (Nat.leb_gt _ _)) by nia. now destruct i.
Qed.
Lemma pieces_width fuel : forall bs, Forall (fun x => length x = sz) (pieces fuel sz bs).
Proof.
  induction fuel as [|fuel IH]; intros bs; cbn [pieces]; [constructor|]. destruct (Nat.leb_spec sz (length bs)); constructor; [|apply IH].
  rewrite firstn_length. lia.
Qed.
Lemma pieces_concat fuel : forall bs, (length bs <= fuel)%nat -> exists tl, bs = concat (pieces fuel sz bs) ++ tl /\ (length tl < sz)%nat.
Proof.
  induction fuel as [|fuel IH]; intros bs L; cbn [pieces]; [destruct bs; [|cbn in L; lia]; now exists []|].
  destruct (Nat.leb_spec sz (length bs)) as [H|H].
  - destruct (IH (skipn sz bs)) as (tl & E & T); [rewrite skipn_length; lia|]. exists tl. split; [|exact T]. cbn [concat]. rewrite <- app_assoc, <- E.
    symmetry. apply firstn_skipn.
  - now exists bs.
Qed.
Lemma concat_width (xs : list (list N)) : Forall (fun x => length x = sz) xs -> length (concat xs) = (length xs * sz)%nat.
Proof. induction 1 as [|x xs H F IH]; [reflexivity|]. cbn [concat length]. rewrite app_length, IH, H. lia. Qed.
Lemma pieces_length bs : length (pieces (length bs) sz bs) = (length bs / sz)%nat.
Proof.
  destruct (pieces_concat (length bs) bs (le_n _)) as (tl & E & T). apply (f_equal (@length N)) in E. rewrite app_length, concat_width in E by apply pieces_width.
  apply Nat.div_unique with (length tl); [exact T|]. lia.
Qed.
Lemma pieces_range bs from to :
  pieces (length (firstn (to * sz - from * sz) (skipn (from * sz) bs))) sz (firstn (to * sz - from * sz) (skipn (from * sz) bs)) =
  firstn (to - from) (skipn from (pieces (length bs) sz bs)).
Proof.
  apply nth_error_ext. intros i. rewrite pieces_nth by trivial. rewrite nth_error_firstn, nth_error_skip, pieces_nth by trivial.
  rewrite firstn_length, skipn_length. 
  destruct (Nat.ltb_spec i (to - from)) as [L|L].
  - replace (Nat.min (to * sz - from * sz) (length bs - from * sz)) with (Nat.min (to * sz - from * sz) (length bs - from * sz)) by reflexivity.
    destruct (Nat.leb_spec ((i + 1) * sz) (Nat.min (to * sz - from * sz) (length bs - from * sz))) as [A|A],
             (Nat.leb_spec ((from + i + 1) * sz) (length bs)) as [B|B]; try nia; try reflexivity.
    f_equal. rewrite skipn_firstn_comm, firstn_firstn, skipn_add. f_equal; [nia|]. f_equal. lia.
  - rewrite (proj2 (Nat.leb_gt _ _)); [reflexivity|]. nia.
Qed.
End Pieces.

(** ** Reading and writing a decomposed memory *)
Lemma size_pos (x : list N) : x <> [] -> 0 < size x.
Proof. destruct x; [congruence|]. rewrite size_cons. lia. Qed.
Lemma load_mid pre x post : x <> [] -> load (pre ++ x ++ post) (Some (size pre)) (size x) = Ret x.
Proof.
  intros H. unfold load. pose proof (size_pos x H). destruct (N.eqb_spec (size x) 0); [lia|]. rewrite (proj2 (N.leb_le _ _)) by (rewrite !size_app; lia).
  f_equal. rewrite ndrop_skipn. unfold size at 2. rewrite Nnat.Nat2N.id, skipn_app, skipn_all, Nat.sub_diag. cbn [app skipn]. apply ntake_app_exact.
Qed.
Lemma put_mid pre x post y : length y = length x -> put_at (pre ++ x ++ post) (size pre) y = pre ++ y ++ post.
Proof.
  intros H. unfold ViewsSpec.put_at, size. rewrite Nnat.Nat2N.id, firstn_app, firstn_all, Nat.sub_diag, H. cbn [firstn]. rewrite app_nil_r. do 2 f_equal.
  rewrite app_assoc, skipn_app, skipn_all2 by (rewrite app_length; lia). rewrite app_length, Nat.sub_diag. reflexivity.
Qed.
Lemma store_mid pre x post y : x <> [] -> length y = length x -> store (pre ++ x ++ post) (Some (size pre)) y = Ret (pre ++ y ++ post).
Proof.
  intros H L. assert (E : size y = size x) by (unfold size; now rewrite L). unfold store. pose proof (size_pos x H). destruct (N.eqb_spec (size y) 0); [lia|].
  rewrite (proj2 (N.leb_le _ _)) by (rewrite !size_app; lia). f_equal. rewrite ViewsProofs.put_at_overwrite. now apply put_mid.
Qed.

Section Loops.
Variable k : tkind.
Hypothesis good : t_good k.
Let sz := N.to_nat (t_sz k).

Lemma width_pos : (0 < sz)%nat.
Proof. destruct good as ((A & _) & _). unfold sz. lia. Qed.
Lemma al_pos : t_al k <> 0.
Proof. destruct good as (_ & _ & e & _ & ->). apply N.pow_nonzero. lia. Qed.
Lemma not_nil (x : list N) : length x = sz -> x <> [].
Proof. pose proof width_pos as W. intros L ->. cbn in L. lia. Qed.
Lemma aligned_add a n : a mod t_al k = 0 -> n mod t_al k = 0 -> (a + n) mod t_al k = 0.
Proof. intros A B. rewrite N.add_mod, A, B by apply al_pos. reflexivity. Qed.
Lemma aligned_mul n : (t_sz k * n) mod t_al k = 0.
Proof. destruct good as (_ & M & _). rewrite N.mul_mod, M by apply al_pos. reflexivity. Qed.
Lemma aligned_u64 n : u64 n mod t_al k = n mod t_al k.
Proof.
  destruct good as (_ & _ & e & L & ->). unfold u64.
  assert (P : 2 ^ e <> 0) by (apply N.pow_nonzero; lia). assert (Q : 2 ^ 64 = 2 ^ e * 2 ^ (64 - e)) by (rewrite <- N.pow_add_r; f_equal; lia).
  assert (Z : 2 ^ 64 <> 0) by (apply N.pow_nonzero; lia).
  pose proof (N.div_mod n (2 ^ 64) Z) as D. set (q := n / 2 ^ 64) in *. set (r := n mod 2 ^ 64) in *.
  rewrite D, Q, <- N.mul_assoc, N.add_comm, N.mul_comm, N.mod_add by exact P. reflexivity.
Qed.

(** The position [p] stands before [xs] if there are any. *)
Definition stands (p : option N) (pre : list N) {A} (xs : list A) : Prop :=
  xs = [] \/ (p = Some (size pre) /\ size pre mod t_al k = 0).

Lemma stands_next p pre A (x : A) xs y : stands p pre (x :: xs) -> length y = sz -> stands (ptr_add p (t_sz k)) (pre ++ y) xs.
Proof.
  intros [H|(-> & M)] L; [discriminate H|]. right. rewrite size_app. replace (size y) with (t_sz k) by (unfold sz, size in *; lia). split; [reflexivity|].
  apply aligned_add; [exact M|]. apply good.
Qed.
Lemma t_load_mid pre x post : size pre mod t_al k = 0 -> length x = sz -> t_load k (pre ++ x ++ post) (Some (size pre)) = Ret x.
Proof.
  intros M L. unfold t_load. cbn [t_aligned]. rewrite M. cbn [N.eqb]. replace (t_sz k) with (size x) by (unfold sz, size in *; lia).
  apply load_mid. now apply not_nil.
Qed.
Lemma t_store_mid pre x post y : size pre mod t_al k = 0 -> length x = sz -> length y = sz ->
  t_store k (pre ++ x ++ post) (Some (size pre)) y = Ret (pre ++ y ++ post).
Proof.
  intros M L L'. unfold t_store. cbn [t_aligned]. rewrite M. replace (size y =? t_sz k) with true by (symmetry; apply N.eqb_eq; unfold sz, size in *; lia).
  cbn [N.eqb andb]. apply store_mid; [now apply not_nil|congruence].
Qed.

Lemma fill_spec f : (forall n, length (f n) = sz) -> forall xs i p pre post, Forall (fun x => length x = sz) xs -> stands p pre xs ->
  t_fill k f (length xs) i p (pre ++ concat xs ++ post) = Ret (pre ++ concat (map (fun n => f (i + N.of_nat n)) (seq 0 (length xs))) ++ post).
Proof.
  intros W. induction xs as [|x xs IH]; intros i p pre post F S; [reflexivity|]. inversion F as [|? ? L F']; subst. pose proof S as S0.
  destruct S as [S|(-> & M)]; [discriminate S|]. cbn [length t_fill concat seq map]. rewrite <- app_assoc, t_store_mid by trivial. cbn [bind].
  rewrite app_assoc. rewrite IH; [|exact F'|exact (stands_next _ pre _ x xs (f i) S0 (W i))]. f_equal. rewrite N.add_0_r, <- !app_assoc. do 4 f_equal.
  rewrite <- seq_shift, map_map. apply map_ext. intros n. f_equal. lia.
Qed.
Lemma each_spec f : (forall x, length x = sz -> length (f x) = sz) -> forall xs p pre post, Forall (fun x => length x = sz) xs -> stands p pre xs ->
  t_each k f (length xs) p (pre ++ concat xs ++ post) = Ret (pre ++ concat (map f xs) ++ post).
Proof.
  intros W. induction xs as [|x xs IH]; intros p pre post F S; [reflexivity|]. inversion F as [|? ? L F']; subst. pose proof S as S0.
  destruct S as [S|(-> & M)]; [discriminate S|]. cbn [length t_each concat map]. rewrite <- app_assoc, t_load_mid by trivial. cbn [bind].
  rewrite t_store_mid by auto. cbn [bind]. rewrite app_assoc. rewrite IH; [|exact F'|exact (stands_next _ pre _ x xs (f x) S0 (W x L))].
  now rewrite <- !app_assoc.
Qed.
Definition is_none {A} (o : option A) : bool := match o with None => true | Some _ => false end.
Lemma emplace_all_spec l : Forall (fun o => match o with Some bs => length bs = sz | None => True end) l ->
  forall xs p pre post, Forall (fun x => length x = sz) xs -> stands p pre xs -> length (t_made l) = length xs ->
  t_emplace_all k (pre ++ concat xs ++ post) p l = Ret (pre ++ concat (t_made l) ++ post, existsb is_none l).
Proof.
  induction 1 as [|o l W V IH]; intros xs p pre post F S E; [destruct xs; [reflexivity|discriminate E]|].
  destruct o as [bs|]; cbn [t_made length t_emplace_all] in *; [|destruct xs; [reflexivity|discriminate E]].
  destruct xs as [|x xs]; [discriminate E|]. inversion F as [|? ? L F']; subst. pose proof S as S0. destruct S as [S|(-> & M)]; [discriminate S|].
  cbn [concat existsb is_none]. rewrite <- app_assoc, t_store_mid by trivial. cbn [bind]. rewrite app_assoc.
  rewrite (IH xs); [|exact F'|exact (stands_next _ pre _ x xs bs S0 W)|now injection E]. now rewrite <- !app_assoc.
Qed.
Lemma find_spec bs : forall xs i p pre post, Forall (fun x => length x = sz) xs -> stands p pre xs ->
  exists r, t_find k bs (length xs) i p (pre ++ concat xs ++ post) = Ret r /\
    match r with
    | None => ~ In bs xs
    | Some n => exists l t, n = i + N.of_nat (length l) /\ xs = l ++ bs :: t /\ ~ In bs l
    end.
Proof.
  induction xs as [|x xs IH]; intros i p pre post F S; [exists None; split; [reflexivity|intros []]|]. inversion F as [|? ? L F']; subst. pose proof S as S0.
  destruct S as [S|(-> & M)]; [discriminate S|]. cbn [length t_find concat]. rewrite <- app_assoc, t_load_mid by trivial. cbn [bind].
  destruct (list_eqb bs x) eqn:E.
  - apply list_eqb_eq in E. subst x. eexists. split; [reflexivity|]. exists [], xs. split; [cbn; lia|]. split; [reflexivity|intros []].
  - assert (D : bs <> x) by (intros ->; rewrite (proj2 (list_eqb_eq x x) eq_refl) in E; discriminate E). rewrite app_assoc.
    destruct (IH (i + 1) (ptr_add (Some (size pre)) (t_sz k)) (pre ++ x) post F' (stands_next _ pre _ x xs x S0 L)) as (r & -> & H).
    exists r. split; [reflexivity|]. destruct r as [n|].
    + destruct H as (l & t & -> & -> & NI). exists (x :: l), t. split; [cbn [length]; lia|]. split; [reflexivity|]. intros [X|X]; [now apply D|now apply NI].
    + intros [X|X]; [now apply D|now apply H].
Qed.
Lemma same_spec mem : forall xs ys p q pre pre' post post', Forall (fun x => length x = sz) xs -> Forall (fun x => length x = sz) ys -> length xs = length ys ->
  mem = pre ++ concat xs ++ post -> mem = pre' ++ concat ys ++ post' -> stands p pre xs -> stands q pre' ys ->
  exists b, t_same k (length xs) p q mem = Ret b /\ (b = true <-> xs = ys).
Proof.
  induction xs as [|x xs IH]; intros [|y ys] p q pre pre' post post' F G E M M' S S'; try discriminate E; [exists true; split; [reflexivity|tauto]|].
  pose proof (Forall_inv F) as L. pose proof (Forall_inv_tail F) as F'. pose proof (Forall_inv G) as L'. pose proof (Forall_inv_tail G) as G'. cbv beta in L, L'.
  pose proof S as S0. pose proof S' as S0'.
  destruct S as [S|(-> & A)]; [discriminate S|]. destruct S' as [S'|(-> & A')]; [discriminate S'|]. cbn [length t_same].
  cbn [concat] in M, M'. rewrite <- !app_assoc in M, M'.
  assert (A1 : t_load k mem (Some (size pre)) = Ret x) by (rewrite M; now apply t_load_mid).
  assert (A2 : t_load k mem (Some (size pre')) = Ret y) by (rewrite M'; now apply t_load_mid).
  rewrite A1, A2. cbn [bind].
  destruct (list_eqb x y) eqn:Q.
  - apply list_eqb_eq in Q. subst y.
    destruct (IH ys (ptr_add (Some (size pre)) (t_sz k)) (ptr_add (Some (size pre')) (t_sz k)) (pre ++ x) (pre' ++ x) post post') as (b & B & H); auto.
    + now rewrite <- !app_assoc.
    + now rewrite <- !app_assoc.
    + exact (stands_next _ pre _ x xs x S0 L).
    + exact (stands_next _ pre' _ x ys x S0' L').
    + exists b. split; [exact B|]. rewrite H. split; [now intros ->|now intros X; injection X].
  - exists false. split; [reflexivity|]. split; [discriminate|]. intros X. injection X as X _. subst y. rewrite (proj2 (list_eqb_eq x x) eq_refl) in Q. discriminate Q.
Qed.
End Loops.

(** ** The states programs get into *)
Definition tplaced (k : tkind) (v : view) : Prop :=
  t_sz k <= v_size v -> match v_addr v with Some a => a mod t_al k = 0 | None => True end.
Definition tinv (w : tworld) : Prop :=
  N.of_nat (length (tw_mem w)) < 2 ^ 64 /\
  forall i k v, tw_vars w i = Some (k, v) -> valid (tw_mem w) v /\ t_good k /\ tplaced k v.

Lemma tset_same f i x : tset f i x i = x.
Proof. unfold tset. now rewrite Nat.eqb_refl. Qed.
Lemma tset_other f i x k : k <> i -> tset f i x k = f k.
Proof. intros H. unfold tset. now rewrite (proj2 (Nat.eqb_neq k i)). Qed.
Lemma good_const k : t_good k -> t_good (as_const k).
Proof. exact (fun H => H). Qed.
Lemma tinv_set w i k v : tinv w -> valid (tw_mem w) v -> t_good k -> tplaced k v -> tinv (mkTW (tw_mem w) (tset (tw_vars w) i (Some (k, v)))).
Proof.
  intros [B H] V G P. split; [exact B|]. cbn. intros j k' v'. unfold tset. destruct (Nat.eqb j i); [|apply H]. intros E; injection E as <- <-. auto.
Qed.
Lemma tinv_mem w m : tinv w -> length m = length (tw_mem w) -> tinv (mkTW m (tw_vars w)).
Proof.
  intros [B H] E. split; cbn; [now rewrite E|]. intros i k v X. destruct (H i k v X) as (V & G & P). split; [|now split].
  unfold valid, size in *. now rewrite E.
Qed.

Lemma contents_split mem v : valid mem v -> exists pre post, mem = pre ++ contents mem v ++ post /\
  size pre = match v_addr v with Some a => a | None => 0 end.
Proof.
  unfold valid, contents. destruct (v_addr v) as [a|]; intros V; [|now exists [], mem].
  exists (firstn (N.to_nat a) mem), (skipn (N.to_nat (v_size v)) (skipn (N.to_nat a) mem)). split.
  - now rewrite !firstn_skipn.
  - unfold size in *. rewrite firstn_length. lia.
Qed.

Section Parts.
Variables (w : tworld) (inv : tinv w) (i : nat) (k : tkind) (v : view).
Hypothesis var : tw_vars w i = Some (k, v).
Let sz := N.to_nat (t_sz k).

Lemma p_good : t_good k. Proof. now apply (proj2 inv i k v). Qed.
Lemma p_valid : valid (tw_mem w) v. Proof. now apply (proj2 inv i k v). Qed.
Lemma p_shown : t_shown w i = contents (tw_mem w) v. Proof. unfold t_shown. now rewrite var. Qed.
Lemma p_kind : t_kind w i = Some k. Proof. unfold t_kind. now rewrite var. Qed.
Lemma p_width : t_width w i = t_sz k. Proof. unfold t_width. now rewrite p_kind. Qed.
Lemma p_small : v_size v < 2 ^ 64.
Proof. pose proof p_valid as V. destruct inv as [B _]. unfold valid, size in V. destruct (v_addr v); [lia|]. rewrite V. reflexivity. Qed.
Lemma p_elems : elems w i = pieces (length (contents (tw_mem w) v)) sz (contents (tw_mem w) v).
Proof. unfold elems. now rewrite p_shown, p_width. Qed.
Lemma p_wide : Forall (fun x => length x = sz) (elems w i).
Proof. rewrite p_elems. apply pieces_width, (width_pos k p_good). Qed.
Lemma p_length : length (contents (tw_mem w) v) = N.to_nat (v_size v).
Proof. pose proof (size_contents _ _ p_valid) as E. unfold size in E. lia. Qed.
Lemma p_count : length (elems w i) = N.to_nat (t_count k v).
Proof.
  rewrite p_elems, pieces_length by apply (width_pos k p_good). rewrite p_length. unfold t_count, sz. symmetry. apply Nnat.N2Nat.inj_div.
Qed.
Lemma p_countN : t_count k v = N.of_nat (length (elems w i)).
Proof. rewrite p_count. now rewrite Nnat.N2Nat.id. Qed.
Lemma p_fits : t_sz k * t_count k v <= v_size v.
Proof. unfold t_count. apply N.mul_div_le. destruct p_good as ((A & _) & _). lia. Qed.
Lemma p_parts : exists pre post, tw_mem w = pre ++ concat (elems w i) ++ post /\ size pre = t_first w i /\
  stands k (t_begin v) pre (elems w i) /\ (elems w i <> [] -> v_addr v = Some (size pre)).
Proof.
  destruct (contents_split _ _ p_valid) as (pre & post & E & S).
  destruct (pieces_concat sz (width_pos k p_good) (length (contents (tw_mem w) v)) _ (le_n _)) as (tl & C & _). rewrite <- p_elems in C.
  exists pre, (tl ++ post). split; [rewrite E at 1; rewrite C at 1; now rewrite <- app_assoc|]. split; [unfold t_first; now rewrite var|].
  assert (X : elems w i <> [] -> v_addr v = Some (size pre) /\ size pre mod t_al k = 0 /\ v_size v <> 0).
  { intros NE. assert (L : t_sz k <= v_size v).
    { pose proof p_fits as F. rewrite p_countN in F. destruct (elems w i); [congruence|]. cbn [length] in F. nia. }
    pose proof (proj2 (proj2 (proj2 inv i k v var)) L) as P. pose proof p_valid as V. unfold valid in V. destruct p_good as ((Z & _) & _).
    destruct (v_addr v) as [a|]; [|lia]. rewrite S. split; [reflexivity|]. split; [exact P|lia]. }
  split; [|apply X]. destruct (elems w i) as [|x xs]; [now left|]. right. destruct X as (A & M & Z); [discriminate|]. unfold t_begin.
  destruct (N.eqb_spec (v_size v) 0); [congruence|]. now split.
Qed.
Lemma p_at n x : nth_error (elems w i) (N.to_nat n) = Some x -> exists pre post, tw_mem w = pre ++ x ++ post /\ size pre = t_first w i + n * t_width w i /\
  size pre mod t_al k = 0 /\ ptr_add (v_addr v) (t_sz k * n) = Some (size pre) /\ length x = sz /\ n < t_count k v.
Proof.
  intros H. destruct p_parts as (pre & post & E & S & T & A). pose proof p_wide as W. destruct (nth_error_split _ _ H) as (l & r & Q & L).
  assert (NL : (N.to_nat n < length (elems w i))%nat) by (apply nth_error_Some; congruence).
  assert (NE : elems w i <> []) by (rewrite Q; now destruct l). rewrite Q in E, W. apply Forall_app in W as [W1 W2]. inversion W2 as [|? ? W3 W4]; subst.
  assert (C : size (concat l) = t_sz k * n) by (unfold size; rewrite (concat_width sz (width_pos k p_good)) by exact W1; unfold sz; lia).
  exists (pre ++ concat l), (concat r ++ post). rewrite !size_app, C. split; [rewrite E, concat_app; cbn [concat]; now rewrite <- !app_assoc|].
  split; [rewrite S, p_width; lia|]. destruct T as [T|(_ & M)]; [contradiction|].
  split; [apply aligned_add; [exact p_good|exact M|apply aligned_mul, p_good]|]. rewrite (A NE). split; [reflexivity|]. split; [exact W3|].
  rewrite p_countN. lia.
Qed.
Lemma p_nth n : n < t_count k v -> exists x, nth_error (elems w i) (N.to_nat n) = Some x.
Proof.
  intros H. destruct (nth_error (elems w i) (N.to_nat n)) as [x|] eqn:E; [eauto|]. apply nth_error_None in E. rewrite p_count in E. lia.
Qed.
Lemma p_elem n : t_elem k v n = if n <? t_count k v then Ret (ptr_add (v_addr v) (t_sz k * n)) else Throws IndexOutOfRange.
Proof.
  unfold t_elem. destruct (N.leb_spec (t_count k v) n), (N.ltb_spec n (t_count k v)); try lia; [reflexivity|]. pose proof p_fits as F. pose proof p_small as B.
  assert (X : t_sz k * n + t_sz k <= v_size v) by nia. unfold u64. rewrite (N.mod_small (t_sz k * n)) by lia. rewrite N.mod_small by lia.
  destruct (N.ltb_spec (v_size v) (t_sz k * n + t_sz k)); [lia|reflexivity].
Qed.
End Parts.

(** ** One operation *)
Definition step_good (w : tworld) (o : top) (a : tans) (w' : tworld) : Prop :=
  t_step o w = Ret (a, w') /\ tinv w' /\
  (tw_mem w' = put_at (tw_mem w) (fst (t_puts w o)) (snd (t_puts w o))) /\
  (snd (t_puts w o) = [] \/ exists i k v, tw_vars w i = Some (k, v) /\ t_const k = false /\
     exists a, v_addr v = Some a /\ a <= fst (t_puts w o) /\ fst (t_puts w o) + size (snd (t_puts w o)) <= a + v_size v) /\
  t_says w o a /\
  (forall e, a = TRaised e -> forall k, tw_vars w' k = tw_vars w k) /\
  (forall k, ~ t_touches o k -> tw_vars w' k = tw_vars w k) /\
  (t_small w o -> match t_makes w o with
                  | Some (i, k, xs) => a = TDone /\ t_kind w' i = Some k /\ elems w' i = xs
                  | None => True
                  end).

Definition tcut (k : tkind) (bs : list N) : list (list N) := pieces (length bs) (N.to_nat (t_sz k)) bs.
Lemma made_elems w i k v : elems (mkTW (tw_mem w) (tset (tw_vars w) i (Some (k, v)))) i = tcut k (contents (tw_mem w) v).
Proof. unfold elems, t_shown, t_width, t_kind. cbn [tw_vars tw_mem]. rewrite tset_same. reflexivity. Qed.
Lemma elems_cut w i k v : tw_vars w i = Some (k, v) -> elems w i = tcut k (contents (tw_mem w) v).
Proof. intros E. unfold elems, t_shown, t_width, t_kind. rewrite E. reflexivity. Qed.

Lemma tgood_make w o i k v : tinv w -> valid (tw_mem w) v -> t_good k -> tplaced k v ->
  t_step o w = Ret (TDone, mkTW (tw_mem w) (tset (tw_vars w) i (Some (k, v)))) -> t_puts w o = (0, []) -> t_says w o TDone ->
  (forall j, j = i -> t_touches o j) ->
  (t_small w o -> match t_makes w o with Some (j, k', xs) => j = i /\ k' = k /\ xs = tcut k (contents (tw_mem w) v) | None => True end) ->
  exists a w', step_good w o a w'.
Proof.
  intros I V G P E Q Y T M. exists TDone. eexists. split; [exact E|]. split; [now apply tinv_set|]. rewrite Q. cbn [fst snd tw_mem tw_vars].
  split; [now rewrite ViewsProofs.put_at_nil|]. split; [now left|]. split; [exact Y|]. split; [discriminate|]. split.
  - intros j NT. apply tset_other. intros ->. now apply NT, T.
  - intros S. specialize (M S). destruct (t_makes w o) as [[[j k'] xs]|]; [|trivial]. destruct M as (-> & -> & ->). split; [reflexivity|].
    split; [unfold t_kind; cbn [tw_vars]; now rewrite tset_same|apply made_elems].
Qed.
Lemma tgood_keep w o a : tinv w -> t_step o w = Ret (a, w) -> t_puts w o = (0, []) -> t_says w o a -> t_makes w o = None -> exists a w', step_good w o a w'.
Proof.
  intros I E Q Y M. exists a, w. split; [exact E|]. split; [exact I|]. rewrite Q, M. cbn [fst snd]. split; [now rewrite ViewsProofs.put_at_nil|]. split; [now left|].
  split; [exact Y|]. now split; [|split].
Qed.
Lemma tgood_change w o a p bs : tinv w -> t_puts w o = (p, bs) -> t_step o w = Ret (a, mkTW (put_at (tw_mem w) p bs) (tw_vars w)) ->
  (bs = [] \/ exists i k v, tw_vars w i = Some (k, v) /\ t_const k = false /\ exists b, v_addr v = Some b /\ b <= p /\ p + size bs <= b + v_size v) ->
  t_says w o a -> t_makes w o = None -> exists a w', step_good w o a w'.
Proof.
  intros I Q E B Y M. exists a. eexists. split; [exact E|]. rewrite Q, M. cbn [fst snd tw_mem tw_vars]. split.
  - apply tinv_mem; [exact I|]. destruct B as [->|(i & k & v & X & _ & b & A & L1 & L2)]; [now rewrite ViewsProofs.put_at_nil|].
    apply ViewsProofs.length_put_at. pose proof (proj1 (proj2 I i k v X)) as V. unfold valid in V. rewrite A in V. lia.
  - split; [reflexivity|]. split; [exact B|]. split; [exact Y|]. now split; [|split].
Qed.

Lemma old_tvar w i : ~ t_new w i -> exists k v, tw_vars w i = Some (k, v).
Proof. unfold t_new. destruct (tw_vars w i) as [[k v]|]; [eauto|now intros []]. Qed.
Lemma mut_tvar w i : t_mutable w i -> exists k v, tw_vars w i = Some (k, v) /\ t_const k = false.
Proof. unfold t_mutable, t_kind. intros (k & E & C). destruct (tw_vars w i) as [[k' v]|]; [|discriminate E]. injection E as <-. eauto. Qed.
Lemma tkind_eqb_eq k j : tkind_eqb k j = true <-> k = j.
Proof.
  unfold tkind_eqb. rewrite !Bool.andb_true_iff, !N.eqb_eq, Bool.eqb_true_iff. destruct k, j; cbn. split; [intros ((-> & ->) & ->); reflexivity|].
  intros X; injection X as -> -> ->. auto.
Qed.
Lemma usable_tvar w i j : t_usable w i j -> exists k vi kj vj, tw_vars w i = Some (k, vi) /\ tw_vars w j = Some (kj, vj) /\ accepts k kj = true /\
  t_sz k = t_sz kj /\ t_al k = t_al kj /\ (t_const k = false -> t_const kj = false).
Proof.
  unfold t_usable, t_kind. intros (k & kj & E & F & U). destruct (tw_vars w i) as [[ki vi]|]; [|discriminate E]. destruct (tw_vars w j) as [[kj' vj]|]; [|discriminate F].
  injection E as <-. injection F as <-. exists ki, vi, kj', vj. split; [reflexivity|]. split; [reflexivity|]. unfold accepts. destruct U as [->| ->].
  - rewrite (proj2 (tkind_eqb_eq ki ki) eq_refl). auto.
  - cbn. rewrite (proj2 (tkind_eqb_eq (mkT _ _ true) (as_const kj')) eq_refl), Bool.orb_true_r. repeat split; auto. discriminate.
Qed.
Lemma none_valid mem : valid mem t_none.
Proof. reflexivity. Qed.
Lemma none_placed k : tplaced k t_none.
Proof. intros _. exact I. Qed.
Lemma tplaced_same k j v : t_sz k = t_sz j -> t_al k = t_al j -> tplaced j v -> tplaced k v.
Proof. unfold tplaced. intros -> ->. trivial. Qed.
Lemma u64_id n : n < 2 ^ 64 -> u64 n = n.
Proof. apply N.mod_small. Qed.
Lemma cut_nil k : tcut k [] = [].
Proof. reflexivity. Qed.
Lemma contents_range mem a n : a + n <= size mem -> contents mem (mkView (Some a) n) = range a (a + n) mem.
Proof. intros H. rewrite contents_alt, range_spec. cbn. f_equal. lia. Qed.

(** Slices. *)
Lemma t_slice_ok mem k c v from to : valid mem v -> t_good k -> tplaced k v -> exists v', t_slice k c v from to = Ret v' /\ valid mem v' /\ tplaced k v' /\
  (from * t_sz k < 2 ^ 64 -> to * t_sz k < 2 ^ 64 ->
   tcut k (contents mem v') = firstn (N.to_nat to - N.to_nat from) (skipn (N.to_nat from) (tcut k (contents mem v)))).
Proof.
  intros V G P. unfold t_slice. set (f := u64 (from * t_sz k)). set (t := u64 (to * t_sz k)).
  set (v' := if (c || t_const k)%bool then view_slice v f t else mview_slice v f t).
  assert (V' : valid mem v') by (unfold v'; destruct (_ || _)%bool; [now apply slice_valid|now apply mslice_valid]).
  exists v'. rewrite (ViewsProofs.ctor_ok mem) by exact V'. split; [reflexivity|]. split; [exact V'|]. split.
  - assert (Z : 0 < t_sz k) by apply G. intros L.
    assert (X : t_sz k <= v_size v /\ v_addr v' = ptr_add (v_addr v) f).
    { unfold v' in *. destruct (_ || _)%bool; unfold view_slice, mview_slice in *.
      - cbn [v_addr v_size] in *. split; [lia|]. f_equal. lia.
      - destruct (f =? t); cbn [v_addr v_size] in *; [lia|]. split; [lia|]. f_equal. lia. }
    destruct X as [L' ->]. specialize (P L'). destruct (v_addr v) as [a|]; [|exact I]. cbn. apply aligned_add; [exact G|exact P|].
    unfold f. rewrite aligned_u64 by exact G. rewrite N.mul_comm. now apply aligned_mul.
  - intros S1 S2. assert (C : contents mem v' = range f t (contents mem v)) by (unfold v'; destruct (_ || _)%bool; [now apply slice_contents|now apply mslice_contents]).
    rewrite C. unfold f, t. rewrite !u64_id by assumption. rewrite range_spec, ntake_firstn, ndrop_skipn. unfold tcut.
    rewrite <- (pieces_range (N.to_nat (t_sz k)) (width_pos k G)). rewrite Nnat.N2Nat.inj_sub, !Nnat.N2Nat.inj_mul. reflexivity.
Qed.

(** Looking. *)
Lemma emplace_ok w i k v n bs : tinv w -> tw_vars w i = Some (k, v) -> t_emplace k (tw_mem w) v n bs =
  if n <? t_count k v then t_store k (tw_mem w) (ptr_add (v_addr v) (t_sz k * n)) bs else Throws IndexOutOfRange.
Proof.
  intros I E. unfold t_emplace. destruct (N.leb_spec (t_count k v) n), (N.ltb_spec n (t_count k v)); try lia; [reflexivity|].
  pose proof (p_fits w I i k v E) as F. pose proof (p_small w I i k v E) as B. destruct (p_good w I i k v E) as ((Z & _) & _).
  assert (X : t_sz k * n + t_sz k <= v_size v) by nia. assert (Y : n + 1 < 2 ^ 64) by nia.
  rewrite (u64_id (n + 1)), !u64_id by lia. unfold mview_slice. destruct (N.eqb_spec (n * t_sz k) ((n + 1) * t_sz k)); [lia|]. cbn [v_size v_addr].
  destruct (N.ltb_spec (N.min (N.max ((n + 1) * t_sz k) (N.min (n * t_sz k) (v_size v))) (v_size v) - N.min (n * t_sz k) (v_size v)) (t_sz k)); [lia|].
  do 2 f_equal. lia.
Qed.
Lemma equals_ok w i j k kj v u : tinv w -> tw_vars w i = Some (k, v) -> tw_vars w j = Some (kj, u) -> t_sz k = t_sz kj -> t_al k = t_al kj ->
  exists b, t_equals k (tw_mem w) v u = Ret b /\ (b = true <-> elems w i = elems w j).
Proof.
  intros I E F S A. unfold t_equals. assert (CJ : t_count k u = t_count kj u) by (unfold t_count; now rewrite S).
  rewrite (p_countN w I i k v E), CJ, (p_countN w I j kj u F).
  destruct (N.eqb_spec (N.of_nat (length (elems w i))) (N.of_nat (length (elems w j)))) as [L|L]; cbn [negb].
  - destruct (ptr_eqb (v_addr v) (v_addr u)) eqn:Q.
    + exists true. split; [reflexivity|]. split; [intros _|trivial]. apply nth_error_ext. intros n.
      assert (PE : v_addr v = v_addr u) by (unfold ptr_eqb in Q; destruct (v_addr v), (v_addr u); try discriminate Q; [apply N.eqb_eq in Q; now subst|reflexivity]).
      destruct (p_parts w I i k v E) as (pre & post & M & _ & T & AD). destruct (p_parts w I j kj u F) as (pre' & post' & M' & _ & T' & AD').
      destruct (elems w i) as [|x xs] eqn:EI; [destruct (elems w j); [reflexivity|cbn in L; lia]|].
      destruct (elems w j) as [|y ys] eqn:EJ; [cbn in L; lia|]. 
      pose proof (AD ltac:(discriminate)) as A1. pose proof (AD' ltac:(discriminate)) as A2. rewrite PE, A2 in A1. injection A1 as A1.
      assert (LP : length pre' = length pre) by (unfold size in A1; lia). rewrite M in M'.
      assert (W1 : Forall (fun z => length z = N.to_nat (t_sz k)) (x :: xs)) by (rewrite <- EI; exact (p_wide w I i k v E)).
      assert (W2 : Forall (fun z => length z = N.to_nat (t_sz k)) (y :: ys)) by (rewrite <- EJ, S; exact (p_wide w I j kj u F)).
      destruct (app_len _ _ _ _ M' (eq_sym LP)) as [PP M'']. clear M'. rename M'' into M'.
      f_equal. clear - M' W1 W2 L. revert M' W1 W2 L. generalize (x :: xs), (y :: ys).
      intros l. induction l as [|a l IH]; intros [|b m] M W1 W2 L; cbn in L; [reflexivity|lia|lia|]. cbn [concat] in M. rewrite <- !app_assoc in M.
      inversion W1; inversion W2; subst. destruct (app_len _ _ _ _ M ltac:(congruence)) as [-> M2]. f_equal. apply IH; auto. lia.
    + destruct (p_parts w I i k v E) as (pre & post & M & _ & T & _). destruct (p_parts w I j kj u F) as (pre' & post' & M' & _ & T' & _).
      rewrite Nnat.Nat2N.id. eapply same_spec; [exact (p_good w I i k v E)|exact (p_wide w I i k v E)|rewrite S; exact (p_wide w I j kj u F)|lia|exact M|exact M'|exact T|].
      unfold stands in *. now rewrite A.
  - exists false. split; [reflexivity|]. split; [discriminate|]. intros X. rewrite X in L. contradiction.
Qed.

Local Arguments ViewsSpec.put_at : simpl never.
Local Arguments contents : simpl never.
Local Arguments valid : simpl never.
Local Arguments range : simpl never.
Local Arguments view_ctor : simpl never.
Local Arguments t_slice : simpl never.
Local Arguments N.mul : simpl never.
Local Arguments N.add : simpl never.

Lemma wide_repeat sz (bs : list N) n : length bs = sz -> Forall (fun x => length x = sz) (repeat bs n).
Proof. intros L. induction n; cbn; constructor; auto. Qed.
Lemma map_const {A B} (x : B) (l : list A) : map (fun _ => x) l = repeat x (length l).
Proof. induction l; cbn; [reflexivity|]. now f_equal. Qed.

(** The whole of variable [i] rewritten. *)
Lemma whole_change w i k v ys m : tinv w -> tw_vars w i = Some (k, v) -> Forall (fun x => length x = N.to_nat (t_sz k)) ys ->
  (length ys <= length (elems w i))%nat ->
  (forall pre post, tw_mem w = pre ++ concat (firstn (length ys) (elems w i)) ++ post -> stands k (t_begin v) pre (firstn (length ys) (elems w i)) ->
     m = Ret (pre ++ concat ys ++ post)) ->
  t_const k = false ->
  m = Ret (put_at (tw_mem w) (t_first w i) (concat ys)) /\
  (concat ys = [] \/ exists i' k v, tw_vars w i' = Some (k, v) /\ t_const k = false /\
     exists b, v_addr v = Some b /\ b <= t_first w i /\ t_first w i + size (concat ys) <= b + v_size v).
Proof.
  intros I E W L H C. destruct (p_parts w I i k v E) as (pre & post & M & S & T & A). pose proof (width_pos k (p_good w I i k v E)) as Z.
  pose proof (p_wide w I i k v E) as WE.
  rewrite <- (firstn_skipn (length ys) (elems w i)), concat_app, <- app_assoc in M.
  assert (T' : stands k (t_begin v) pre (firstn (length ys) (elems w i))).
  { destruct T as [T|T]; [|now right]. left. rewrite T. apply firstn_nil. }
  rewrite (H _ _ M T'). rewrite M, <- S. 
  assert (LC : length (concat ys) = length (concat (firstn (length ys) (elems w i)))).
  { rewrite !(concat_width _ Z); [|rewrite <- (firstn_skipn (length ys)) in WE; apply Forall_app in WE; apply WE|exact W]. rewrite firstn_length. nia. }
  split; [now rewrite put_mid|]. destruct ys as [|y ys]; [now left|]. right. exists i, k, v. split; [exact E|]. split; [exact C|]. exists (size pre).
  split; [apply A; destruct (elems w i); [cbn in L; lia|discriminate]|]. split; [lia|].
  pose proof (p_fits w I i k v E) as F. rewrite (p_countN w I i k v E) in F. replace (size (concat (y :: ys))) with (N.of_nat (length (y :: ys)) * t_sz k) by (unfold size; rewrite (concat_width _ Z) by exact W; lia). nia.
Qed.
(** One element rewritten. *)
Lemma one_change w i k v n x bs : tinv w -> tw_vars w i = Some (k, v) -> nth_error (elems w i) (N.to_nat n) = Some x -> length bs = N.to_nat (t_sz k) ->
  t_const k = false ->
  t_store k (tw_mem w) (ptr_add (v_addr v) (t_sz k * n)) bs = Ret (put_at (tw_mem w) (t_first w i + n * t_width w i) bs) /\
  exists i' k v, tw_vars w i' = Some (k, v) /\ t_const k = false /\
     exists b, v_addr v = Some b /\ b <= t_first w i + n * t_width w i /\ t_first w i + n * t_width w i + size bs <= b + v_size v.
Proof.
  intros I E H L C. destruct (p_at w I i k v E n x H) as (pre & post & M & S & A & P & LX & NC). pose proof (p_fits w I i k v E) as F.
  rewrite P, M, <- S. rewrite (t_store_mid k (p_good w I i k v E)) by trivial. rewrite put_mid by congruence. split; [reflexivity|].
  exists i, k, v. split; [exact E|]. split; [exact C|]. destruct (v_addr v) as [b|]; [|discriminate P]. cbn in P. injection P as P. exists b. split; [reflexivity|].
  split; [lia|]. unfold size at 2. rewrite L. nia.
Qed.

Ltac quick := first [exact Logic.I | assumption | reflexivity | apply none_placed | apply none_valid | solve [cbn; auto] | solve [intros ?; cbn; auto]].
Lemma step_spec w o : tinv w -> t_fair w o -> exists a w', step_good w o a w'.
Proof.
  intros I (Y & H & B). pose proof I as (SM & VS). destruct o; cbn [t_typed t_honest t_bounded] in Y, H, B.
  - destruct Y as [Nw G]. red in Nw. apply (tgood_make w _ i k t_none); try quick.
    + cbn. now rewrite Nw.
  - destruct Y as [Nw G]. red in Nw. destruct p as [a|].
    + destruct H as [A L]. assert (X : u64 (t_sz k * n) = t_sz k * n) by (apply u64_id; unfold size in *; lia).
      apply (tgood_make w _ i k (mkView (Some a) (t_sz k * n))); try quick.
      * cbn. rewrite Nw. unfold t_wrap. rewrite X. reflexivity.
      * intros _. cbn. rewrite contents_range by exact L. auto.
    + destruct (N.eqb_spec (u64 (t_sz k * n)) 0) as [Z|Z].
      * apply (tgood_make w _ i k t_none); try quick.
        -- cbn. rewrite Nw. unfold t_wrap, view_ctor. now rewrite Z.
        -- cbn. intros N0 S. rewrite u64_id in Z by exact S. destruct G as ((G & _) & _). nia.
        -- intros _. cbn. now destruct (n =? 0).
      * apply (tgood_keep w _ (TRaised AssertFailed)); try quick.
        -- cbn. rewrite Nw. unfold t_wrap, view_ctor. destruct (N.eqb_spec (u64 (t_sz k * n)) 0); [contradiction|reflexivity].
        -- cbn. destruct (N.eqb_spec n 0) as [->|]; [|reflexivity]. rewrite N.mul_0_r in Z. now contradiction Z.
  - destruct Y as [Nw G]. red in Nw. destruct p as [a|], q as [b|]; try contradiction.
    + destruct H as (n & -> & A & L). assert (Z : t_sz k <> 0) by (destruct G as ((G & _) & _); lia).
      apply (tgood_make w _ i k (mkView (Some a) (t_sz k * n))); try quick.
      * cbn. rewrite Nw. destruct (N.leb_spec a (a + t_sz k * n)); [|lia]. replace (a + t_sz k * n - a) with (n * t_sz k) by lia.
        rewrite N.mod_mul by exact Z. cbn. rewrite N.mul_comm. reflexivity.
      * intros _. cbn. rewrite contents_range by exact L. auto.
    + apply (tgood_make w _ i k t_none); try quick.
      * cbn. now rewrite Nw.
  - destruct Y as [Nw G]. red in Nw. destruct p as [a|].
    + destruct H as [A L]. apply (tgood_make w _ i k (mkView (Some a) n)); try quick.
      * cbn. now rewrite Nw.
      * intros _. cbn. rewrite contents_range by exact L. auto.
    + destruct (N.eqb_spec n 0) as [Z|Z].
      * subst n. apply (tgood_make w _ i k t_none); try quick.
        -- cbn. now rewrite Nw.
      * apply (tgood_keep w _ (TRaised AssertFailed)); try quick.
        -- cbn. rewrite Nw. unfold view_ctor. destruct (N.eqb_spec n 0); [contradiction|reflexivity].
        -- cbn. destruct (N.eqb_spec n 0); [contradiction|reflexivity].
        -- cbn. destruct (N.eqb_spec n 0); [contradiction|reflexivity].
  - destruct Y as [Nw O]. red in Nw. destruct (old_tvar w j O) as (k & v & E). destruct (VS _ _ _ E) as (V & G & P).
    apply (tgood_make w _ i k v); try quick.
    + cbn. now rewrite E, Nw.
    + intros _. cbn. rewrite (p_kind w j k v E). rewrite (elems_cut w j k v E). auto.
  - destruct Y as [Nw O]. red in Nw. destruct (old_tvar w j O) as (k & v & E). destruct (VS _ _ _ E) as (V & G & P).
    apply (tgood_make w _ i (as_const k) v); try quick.
    + cbn. now rewrite E, Nw.
    + intros _. cbn. rewrite (p_kind w j k v E). rewrite (elems_cut w j k v E). auto.
  - destruct Y as [Nw O]. red in Nw. destruct (old_tvar w j O) as (k & v & E). destruct (VS _ _ _ E) as (V & G & P).
    exists TDone. eexists. split; [cbn; rewrite E, Nw; reflexivity|]. cbn [t_puts fst snd tw_mem tw_vars].
    split; [apply (tinv_set (mkTW (tw_mem w) (tset (tw_vars w) j (Some (k, t_none))))); trivial; apply tinv_set; trivial; [apply none_valid|apply none_placed]|].
    split; [now rewrite ViewsProofs.put_at_nil|]. split; [now left|]. split; [exact Logic.I|]. split; [discriminate|]. split.
    + intros n NT. cbn in NT. rewrite !tset_other by tauto. reflexivity.
    + intros _. cbn. rewrite (p_kind w j k v E). split; [reflexivity|]. split; [unfold t_kind; cbn [tw_vars]; now rewrite tset_same|].
      rewrite (made_elems (mkTW (tw_mem w) (tset (tw_vars w) j (Some (k, t_none))))). now rewrite (elems_cut w j k v E).
  - destruct (usable_tvar w i j Y) as (k & vi & kj & vj & E & F & U & S & A & _). destruct (VS _ _ _ E) as (V & G & P). destruct (VS _ _ _ F) as (V' & G' & P').
    apply (tgood_make w _ i k vj); try quick.
    + now apply tplaced_same with kj.
    + cbn. now rewrite E, F, U.
  - destruct (usable_tvar w i j Y) as (k & vi & kj & vj & E & F & U & S & A & _). destruct (VS _ _ _ E) as (V & G & P). destruct (VS _ _ _ F) as (V' & G' & P').
    destruct (tkind_eqb k kj) eqn:K.
    + exists TDone. eexists. split; [cbn; rewrite E, F, K; reflexivity|]. cbn [t_puts fst snd tw_mem tw_vars].
      split; [apply (tinv_set (mkTW (tw_mem w) (tset (tw_vars w) i (Some (k, vj))))); trivial; [apply tinv_set; trivial; now apply tplaced_same with kj|now apply tplaced_same with k]|].
      split; [now rewrite ViewsProofs.put_at_nil|]. split; [now left|]. split; [reflexivity|]. split; [discriminate|]. split; [|now intros _].
      intros n NT. cbn in NT. rewrite !tset_other by tauto. reflexivity.
    + apply (tgood_make w _ i k vj); try quick.
      * now apply tplaced_same with kj.
      * cbn. now rewrite E, F, K, U.
  - destruct Y as [O KK]. destruct (old_tvar w i O) as (k & vi & E). rewrite (p_kind w i k vi E) in KK. unfold t_kind in KK.
    destruct (tw_vars w j) as [[kj vj]|] eqn:F; [|discriminate KK]. injection KK as <-. destruct (VS _ _ _ E) as (V & G & P). destruct (VS _ _ _ F) as (V' & G' & P').
    exists TDone. eexists. split; [cbn; rewrite E, F, (proj2 (tkind_eqb_eq k k) eq_refl); reflexivity|]. cbn [t_puts fst snd tw_mem tw_vars].
    split; [apply (tinv_set (mkTW (tw_mem w) (tset (tw_vars w) i (Some (k, vj))))); trivial; now apply tinv_set|].
    split; [now rewrite ViewsProofs.put_at_nil|]. split; [now left|]. split; [reflexivity|]. split; [discriminate|]. split; [|now intros _].
    intros n NT. cbn in NT. rewrite !tset_other by tauto. reflexivity.
  - destruct Y as [Nw O]. red in Nw. destruct (old_tvar w j O) as (k & v & E). destruct (VS _ _ _ E) as (V & G & P).
    destruct (t_slice_ok (tw_mem w) k c v from to V G P) as (v' & X & V' & P' & C).
    apply (tgood_make w _ i (if c then as_const k else k) v'); try quick.
    + now destruct c.
    + now destruct c.
    + cbn. now rewrite E, Nw, X.
    + cbn [t_small t_makes]. rewrite (p_width w j k v E), (p_kind w j k v E). intros [S1 S2]. split; [reflexivity|]. split; [reflexivity|].
      rewrite (elems_cut w j k v E). rewrite <- (C S1 S2). now destruct c.
  - destruct (old_tvar w i Y) as (k & v & E). apply (tgood_keep w _ (TWhere (v_addr v) (v_size v))); try quick; [cbn; now rewrite E|]. cbn. unfold t_window. now rewrite E.
  - destruct (old_tvar w i Y) as (k & v & E). cbn [t_says t_step].
    destruct (N.ltb_spec n (t_count k v)) as [L|L].
    + destruct (p_nth w I i k v E n L) as (x & NX). apply (tgood_keep w _ (TElem x)); try quick; [|cbn; now rewrite NX].
      cbn [t_step]. rewrite E, (p_elem w I i k v E). destruct (N.ltb_spec n (t_count k v)); [|lia]. cbn [bind].
      destruct (p_at w I i k v E n x NX) as (pre & post & M & S & A & Q & LX & _). rewrite Q, M. rewrite (t_load_mid k (p_good w I i k v E)) by trivial. reflexivity.
    + apply (tgood_keep w _ (TRaised IndexOutOfRange)); try quick.
      * cbn [t_step]. rewrite E, (p_elem w I i k v E). destruct (N.ltb_spec n (t_count k v)); [lia|]. reflexivity.
      * cbn [t_says]. assert (X : nth_error (elems w i) (N.to_nat n) = None) by (apply nth_error_None; rewrite (p_count w I i k v E); lia). now rewrite X.
  - destruct Y as [Mu Va]. destruct (mut_tvar w i Mu) as (k & v & E & C). unfold t_value in Va. rewrite (p_width w i k v E) in Va.
    pose proof (p_countN w I i k v E) as CN. destruct (N.ltb_spec n (t_count k v)) as [L|L].
    + destruct f as [bs|].
      * destruct (p_nth w I i k v E n L) as (x & NX). destruct (one_change w i k v n x bs I E NX ltac:(lia) C) as (ST & IN).
        apply (tgood_change w _ TDone (t_first w i + n * t_width w i) bs); try quick.
        -- cbn [t_puts]. rewrite <- CN. destruct (N.ltb_spec n (t_count k v)); [reflexivity|lia].
        -- cbn [t_step]. rewrite E, C. unfold t_set. rewrite (p_elem w I i k v E). destruct (N.ltb_spec n (t_count k v)); [|lia]. cbn [bind]. rewrite ST. reflexivity.
        -- cbn [t_says]. rewrite <- CN. destruct (N.ltb_spec n (t_count k v)); [reflexivity|lia].
      * apply (tgood_keep w _ (TRaised UserException)); try quick.
        -- cbn [t_step]. rewrite E, C. unfold t_set. rewrite (p_elem w I i k v E). destruct (N.ltb_spec n (t_count k v)); [reflexivity|lia].
        -- cbn [t_says]. rewrite <- CN. destruct (N.ltb_spec n (t_count k v)); [reflexivity|lia].
    + apply (tgood_keep w _ (TRaised IndexOutOfRange)); try quick.
      * cbn [t_step]. rewrite E, C. unfold t_set. rewrite (p_elem w I i k v E). destruct (N.ltb_spec n (t_count k v)); [lia|reflexivity].
      * cbn [t_puts]. rewrite <- CN. destruct f; [|reflexivity]. destruct (N.ltb_spec n (t_count k v)); [lia|reflexivity].
      * cbn [t_says]. rewrite <- CN. destruct (N.ltb_spec n (t_count k v)); [lia|reflexivity].
  - destruct Y as [Mu Va]. destruct (mut_tvar w i Mu) as (k & v & E & C). unfold t_value in Va. rewrite (p_width w i k v E) in Va.
    pose proof (p_countN w I i k v E) as CN. destruct (N.ltb_spec n (t_count k v)) as [L|L].
    + destruct (p_nth w I i k v E n L) as (x & NX). destruct (one_change w i k v n x bs I E NX ltac:(lia) C) as (ST & IN).
      apply (tgood_change w _ TDone (t_first w i + n * t_width w i) bs); try quick.
      * cbn [t_puts]. rewrite <- CN. destruct (N.ltb_spec n (t_count k v)); [reflexivity|lia].
      * cbn [t_step]. rewrite E, C, (emplace_ok w i k v n bs I E). destruct (N.ltb_spec n (t_count k v)); [|lia]. rewrite ST. reflexivity.
      * cbn [t_says]. rewrite <- CN. destruct (N.ltb_spec n (t_count k v)); [reflexivity|lia].
    + apply (tgood_keep w _ (TRaised IndexOutOfRange)); try quick.
      * cbn [t_step]. rewrite E, C, (emplace_ok w i k v n bs I E). destruct (N.ltb_spec n (t_count k v)); [lia|reflexivity].
      * cbn [t_puts]. rewrite <- CN. destruct (N.ltb_spec n (t_count k v)); [lia|reflexivity].
      * cbn [t_says]. rewrite <- CN. destruct (N.ltb_spec n (t_count k v)); [lia|reflexivity].
  - destruct Y as [Mu Va]. destruct (mut_tvar w i Mu) as (k & v & E & C). unfold t_value in Va. rewrite (p_width w i k v E) in Va.
    assert (Va' : Forall (fun o => match o with Some bs => length bs = N.to_nat (t_sz k) | None => True end) l).
    { clear - Va. induction Va as [|o l H F IH]; constructor; auto. destruct o; [lia|trivial]. }
    assert (ML : (length (t_made l) <= length l)%nat) by (clear; induction l as [|[b|] l IH]; cbn; lia).
    assert (MW : Forall (fun x => length x = N.to_nat (t_sz k)) (t_made l)) by (clear - Va'; induction Va' as [|[b|] l H F IH]; cbn; constructor; auto).
    destruct (whole_change w i k v (t_made l) (let! r := t_emplace_all k (tw_mem w) (t_begin v) l in Ret (fst r)) I E MW ltac:(lia)) as (ST & IN); [|exact C|].
    { intros pre post M S. rewrite M at 1. rewrite (emplace_all_spec k (p_good w I i k v E) l Va' (firstn (length (t_made l)) (elems w i))); trivial.
      - pose proof (p_wide w I i k v E) as WE. rewrite <- (firstn_skipn (length (t_made l))) in WE. apply Forall_app in WE. apply WE.
      - rewrite firstn_length. lia. }
    destruct (t_emplace_all k (tw_mem w) (t_begin v) l) as [[m b]| | | |] eqn:R; try discriminate ST. cbn [bind fst] in ST. injection ST as ->.
    assert (BN : b = existsb is_none l).
    { destruct (p_parts w I i k v E) as (pre & post & M & S & T & _). rewrite <- (firstn_skipn (length (t_made l)) (elems w i)), concat_app, <- app_assoc in M.
      rewrite M in R. rewrite (emplace_all_spec k (p_good w I i k v E) l Va' (firstn (length (t_made l)) (elems w i))) in R.
      - now injection R.
      - pose proof (p_wide w I i k v E) as WE. rewrite <- (firstn_skipn (length (t_made l))) in WE. apply Forall_app in WE. apply WE.
      - destruct T as [T|T]; [left; rewrite T; apply firstn_nil|now right].
      - rewrite firstn_length. lia. }
    apply (tgood_change w _ (if b then TRaised UserException else TDone) (t_first w i) (concat (t_made l))); try quick.
    + cbn [t_step]. rewrite E, C, R. reflexivity.
    + cbn [t_says]. rewrite BN. clear. destruct (existsb is_none l) eqn:X.
      * right. split; [reflexivity|]. apply existsb_exists in X as (o & O1 & O2). now destruct o.
      * left. split; [reflexivity|]. intros O. assert (existsb is_none l = true) by (apply existsb_exists; now exists None). congruence.
  - destruct Y as [Mu Va]. destruct (mut_tvar w i Mu) as (k & v & E & C). unfold t_value in Va. rewrite (p_width w i k v E) in Va.
    destruct (whole_change w i k v (repeat bs (length (elems w i))) (t_fill k (fun _ => bs) (N.to_nat (t_count k v)) 0 (t_begin v) (tw_mem w)) I E) as (ST & IN).
    + apply wide_repeat. lia.
    + rewrite repeat_length. lia.
    + rewrite repeat_length, firstn_all. intros pre post M S. rewrite M at 1. rewrite <- (p_count w I i k v E).
      rewrite (fill_spec k (p_good w I i k v E)); [|intros _; lia|exact (p_wide w I i k v E)|exact S]. rewrite map_const, seq_length. reflexivity.
    + exact C.
    + apply (tgood_change w _ TDone (t_first w i) (concat (repeat bs (length (elems w i))))); try quick. cbn [t_step]. rewrite E, C, ST. reflexivity.
  - destruct Y as [Mu Va]. destruct (mut_tvar w i Mu) as (k & v & E & C). unfold t_value in Va. rewrite (p_width w i k v E) in Va.
    destruct (whole_change w i k v (map (fun n => f (N.of_nat n)) (seq 0 (length (elems w i)))) (t_fill k f (N.to_nat (t_count k v)) 0 (t_begin v) (tw_mem w)) I E) as (ST & IN).
    + apply Forall_forall. intros x X. apply in_map_iff in X as (n & <- & _). specialize (Va (N.of_nat n)). lia.
    + rewrite map_length, seq_length. lia.
    + rewrite map_length, seq_length, firstn_all. intros pre post M S. rewrite M at 1. rewrite <- (p_count w I i k v E).
      rewrite (fill_spec k (p_good w I i k v E)); [|intros n; specialize (Va n); lia|exact (p_wide w I i k v E)|exact S]. reflexivity.
    + exact C.
    + eapply (tgood_change w _ TDone (t_first w i)); [exact I|reflexivity| |exact IN|reflexivity|reflexivity]. cbn [t_step]. rewrite E, C, ST. reflexivity.
  - destruct Y as [Mu Va]. destruct (mut_tvar w i Mu) as (k & v & E & C). unfold t_value in Va. rewrite (p_width w i k v E) in Va.
    assert (WF : forall x, length x = N.to_nat (t_sz k) -> length (f x) = N.to_nat (t_sz k)) by (intros x X; specialize (Va x ltac:(lia)); lia).
    destruct (whole_change w i k v (map f (elems w i)) (t_each k f (N.to_nat (t_count k v)) (t_begin v) (tw_mem w)) I E) as (ST & IN).
    + pose proof (p_wide w I i k v E) as WE. clear - WE WF. induction WE; cbn; constructor; auto.
    + rewrite map_length. lia.
    + rewrite map_length, firstn_all. intros pre post M S. rewrite M at 1. rewrite <- (p_count w I i k v E).
      now rewrite (each_spec k (p_good w I i k v E) f WF); [|exact (p_wide w I i k v E)|exact S].
    + exact C.
    + eapply (tgood_change w _ TDone (t_first w i)); [exact I|reflexivity| |exact IN|reflexivity|reflexivity]. cbn [t_step]. rewrite E, C, ST. reflexivity.
  - destruct Y as [O Va]. destruct (old_tvar w i O) as (k & v & E). destruct (p_parts w I i k v E) as (pre & post & M & _ & T & _).
    destruct (find_spec k (p_good w I i k v E) bs (elems w i) 0 (t_begin v) pre post (p_wide w I i k v E) T) as (r & R & X). rewrite <- M in R.
    apply (tgood_keep w _ (TIndex r)); try quick.
    + cbn [t_step]. rewrite E, <- (p_count w I i k v E), R. reflexivity.
    + cbn [t_says]. destruct r as [n|]; [right|left; now split]. destruct X as (l & t & -> & X). exists l, t. split; [reflexivity|exact X].
  - destruct Y as [O Va]. destruct (old_tvar w i O) as (k & v & E). destruct (p_parts w I i k v E) as (pre & post & M & _ & T & _).
    destruct (find_spec k (p_good w I i k v E) bs (elems w i) 0 (t_begin v) pre post (p_wide w I i k v E) T) as (r & R & X). rewrite <- M in R.
    apply (tgood_keep w _ (TFlag match r with Some _ => true | None => false end)); try quick.
    + cbn [t_step]. rewrite E, <- (p_count w I i k v E), R. reflexivity.
    + cbn [t_says]. eexists. split; [reflexivity|]. destruct r as [n|]; [|now split].
      destruct X as (l & t & _ & -> & _). split; [intros _; apply in_or_app; right; now left|trivial].
  - destruct (usable_tvar w i j Y) as (k & vi & kj & vj & E & F & U & S & A & _). destruct (equals_ok w i j k kj vi vj I E F S A) as (b & Q & X).
    apply (tgood_keep w _ (TFlag b)); try quick; [cbn [t_step]; rewrite E, F, U, Q; reflexivity|]. cbn [t_says]. eauto.
  - destruct (old_tvar w i Y) as (k & v & E). apply (tgood_keep w _ (TFlag (v_size v =? 0))); try quick; [cbn; now rewrite E|]. cbn. eexists. split; [reflexivity|].
    rewrite (p_shown w i k v E), N.eqb_eq. pose proof (p_length w I i k v E) as L. split; intros X; [|rewrite X in L; cbn in L; lia].
    apply length_zero_iff_nil. lia.
  - destruct (old_tvar w i Y) as (k & v & E). apply (tgood_keep w _ (TNum (t_count k v))); try quick; [cbn; now rewrite E|]. cbn. now rewrite (p_countN w I i k v E).
  - destruct (old_tvar w i Y) as (k & v & E). apply (tgood_keep w _ (TFlag (v_size v =? 0))); try quick; [cbn; now rewrite E|]. cbn. eexists. split; [reflexivity|].
    rewrite (p_shown w i k v E), N.eqb_eq. pose proof (p_length w I i k v E) as L. split; intros X; [|rewrite X in L; cbn in L; lia].
    apply length_zero_iff_nil. lia.
  - destruct (old_tvar w i Y) as (k & v & E). eapply tgood_keep; trivial; [cbn; rewrite E; reflexivity|]. cbn. eexists. split; [reflexivity|].
    unfold t_window. rewrite E. destruct (v_addr v); split; try easy; [eauto|]. intros (p & m & X). discriminate X.
Qed.

(** ** Programs *)
Lemma t_run_ok os : forall w, tinv w -> t_along t_fair os w -> exists xs w', t_run os w = Ret (xs, w') /\ tinv w' /\ length (tw_mem w') = length (tw_mem w).
Proof.
  induction os as [|o t IH]; intros w I A; cbn.
  - exists [], w. auto.
  - destruct A as [F A]. destruct (step_spec w o I F) as (a & w1 & E & I1 & M & P & _).
    destruct (IH w1 I1 (A _ _ E)) as (xs & w2 & E2 & I2 & L2).
    exists (a :: xs), w2. rewrite E. cbn. rewrite E2. split; [reflexivity|]. split; [exact I2|]. rewrite L2, M.
    destruct P as [->|(i & k & v & X & _ & b & B & L & H)]; [now rewrite ViewsProofs.put_at_nil|]. apply ViewsProofs.length_put_at.
    pose proof (proj1 (proj2 I i k v X)) as V. unfold valid in V. rewrite B in V. lia.
Qed.
Lemma tinv_start mem : N.of_nat (length mem) < 2 ^ 64 -> tinv (t_start mem).
Proof. intros H. split; [exact H|]. easy. Qed.
Lemma t_reachable_inv w : t_reachable w -> tinv w.
Proof.
  intros (mem & os & xs & B & A & E). destruct (t_run_ok os _ (tinv_start mem B) A) as (xs' & w' & E' & I & _).
  rewrite E in E'. injection E' as <- <-. exact I.
Qed.
Lemma t_run_app os1 : forall os2 w, t_run (os1 ++ os2) w =
  let! p := t_run os1 w in let! q := t_run os2 (snd p) in Ret (fst p ++ fst q, snd q).
Proof.
  induction os1 as [|o t IH]; intros os2 w; cbn.
  - destruct (t_run os2 w) as [[]| | | |]; reflexivity.
  - destruct (t_step o w) as [p| | | |]; cbn; try reflexivity. rewrite IH.
    destruct (t_run t (snd p)) as [q| | | |]; cbn; try reflexivity.
    destruct (t_run os2 (snd q)) as [r| | | |]; reflexivity.
Qed.
Lemma t_along_app P os1 : forall os2 w xs w1, t_run os1 w = Ret (xs, w1) ->
  t_along P os1 w -> t_along P os2 w1 -> t_along P (os1 ++ os2) w.
Proof.
  induction os1 as [|o t IH]; intros os2 w xs w1 E A1 A2; cbn in *.
  - now injection E as _ ->.
  - destruct A1 as [F A]. split; [exact F|]. intros a w' E1. rewrite E1 in E. cbn in E.
    destruct (t_run t w') as [q| | | |] eqn:E2; try easy. injection E as <- <-.
    apply (IH os2 w' (fst q) (snd q)); [now destruct q|exact (A _ _ E1)|exact A2].
Qed.
Lemma t_reachable_step w o a w' : t_reachable w -> t_fair w o -> t_step o w = Ret (a, w') -> t_reachable w'.
Proof.
  intros (mem & os & xs & B & A & E) F S. exists mem, (os ++ [o]), (xs ++ [a]).
  split; [exact B|]. split.
  - apply (t_along_app _ _ _ _ _ _ E A). now split.
  - rewrite t_run_app, E. cbn. rewrite S. reflexivity.
Qed.

(** Where the bytes of a window come from. *)
Notation has := ViewsProofs.has.
Definition tfrom (w : tworld) (o : top) (k : tkind) (x : N) : Prop :=
  (exists j kj vj, tw_vars w j = Some (kj, vj) /\ has vj x /\ (t_const k = false -> t_const kj = false)) \/
  (forall wr, (wr = true -> t_const k = false) -> t_given wr [o] x).
Lemma from_old w o j k kj v x : has v x -> tw_vars w j = Some (kj, v) -> (t_const k = false -> t_const kj = false) -> tfrom w o k x.
Proof. intros X E C. left. exists j, kj, v. auto. Qed.
Lemma none_has x : ~ has t_none x.
Proof. intros (a & A & _). discriminate A. Qed.
Lemma caught_made w r i k a w' : t_caught w (let! v := r in Ret (TDone, mkTW (tw_mem w) (tset (tw_vars w) i (Some (k, v))))) = Ret (a, w') ->
  w' = w \/ exists v, r = Ret v /\ w' = mkTW (tw_mem w) (tset (tw_vars w) i (Some (k, v))).
Proof. destruct r; cbn; intros E; try discriminate E; injection E as _ <-; eauto. Qed.
Lemma from_caught w o r i0 k0 a w' : t_step o w = Ret (a, w') ->
  t_step o w = t_caught w (let! v := r in Ret (TDone, mkTW (tw_mem w) (tset (tw_vars w) i0 (Some (k0, v))))) ->
  (forall v x, r = Ret v -> has v x -> tfrom w o k0 x) ->
  forall i k v x, tw_vars w' i = Some (k, v) -> has v x -> tfrom w o k x.
Proof.
  intros E Q H i k v x F X. rewrite Q in E. apply caught_made in E as [->|(v0 & R & ->)]; [eapply from_old; eauto|].
  cbn in F. unfold tset in F. destruct (Nat.eqb i i0); [injection F as <- <-; eauto|]. eapply from_old; eauto.
Qed.
Lemma from_same w o w' : (forall n, tw_vars w' n = tw_vars w n) -> forall i k v x, tw_vars w' i = Some (k, v) -> has v x -> tfrom w o k x.
Proof. intros H i k v x E X. rewrite H in E. eapply from_old; eauto. Qed.

Lemma tstep_from w o a w' : tinv w -> t_fair w o -> t_step o w = Ret (a, w') ->
  forall i k v x, tw_vars w' i = Some (k, v) -> has v x -> tfrom w o k x.
Proof.
  intros I F E. destruct (step_spec w o I F) as (a1 & w1 & E1 & _ & _ & _ & _ & _ & T & _). rewrite E in E1. injection E1 as <- <-.
  destruct F as (Y & H & _). destruct o; try solve [apply from_same; intros ?; apply T; intros []]; cbn [t_typed t_honest] in Y, H.
  - destruct Y as [Nw _]. red in Nw. apply (from_caught w _ (Ret t_none) i k a w' E); [cbn [t_step]; rewrite Nw; reflexivity|]. intros v x R X. injection R as <-. now apply none_has in X.
  - destruct Y as [Nw _]. red in Nw. apply (from_caught w _ (t_wrap k p n) i k a w' E); [cbn [t_step]; rewrite Nw; reflexivity|]. intros v x R X. destruct p as [b|].
    + unfold t_wrap, view_ctor in R. injection R as <-. destruct X as (b' & Q & X). cbn in Q, X. injection Q as <-. rewrite u64_id in X by (destruct I; lia).
      right. intros wr C. exists i, k, b. split; [exact C|]. left. exists n. split; [now left|exact X].
    + unfold t_wrap, view_ctor in R. destruct (_ =? _); [|discriminate R]. injection R as <-. destruct X as (b & Q & _). discriminate Q.
  - destruct Y as [Nw G]. red in Nw. apply (from_caught w _ (t_range k p q) i k a w' E); [cbn [t_step]; rewrite Nw; reflexivity|]. intros v x R X. destruct p as [b|], q as [c|]; try contradiction.
    + destruct H as (n & -> & _). cbn in R. destruct (N.leb_spec b (b + t_sz k * n)); [|lia]. destruct (_ =? _); [|discriminate R].
      unfold view_ctor in R. injection R as <-. destruct X as (b' & Q & X). cbn in Q, X. injection Q as <-.
      right. intros wr C. exists i, k, b. split; [exact C|]. right. left. exists (b + t_sz k * n). split; [now left|lia].
    + cbn in R. unfold view_ctor in R. injection R as <-. destruct X as (b & Q & _). discriminate Q.
  - destruct Y as [Nw _]. red in Nw. apply (from_caught w _ (view_ctor p n) i k a w' E); [cbn [t_step]; rewrite Nw; reflexivity|]. intros v x R X. unfold view_ctor in R. destruct p as [b|].
    + injection R as <-. destruct X as (b' & Q & X). cbn in Q, X. injection Q as <-.
      right. intros wr C. exists i, k, b. split; [exact C|]. right. right. exists n. split; [now left|exact X].
    + destruct (_ =? _); [|discriminate R]. injection R as <-. destruct X as (b & Q & _). discriminate Q.
  - destruct Y as [Nw O]. red in Nw. destruct (old_tvar w j O) as (k & v & Ej). apply (from_caught w _ (Ret v) i k a w' E); [cbn [t_step]; rewrite Ej, Nw; reflexivity|].
    intros v' x R X. injection R as <-. eapply from_old; eauto.
  - destruct Y as [Nw O]. red in Nw. destruct (old_tvar w j O) as (k & v & Ej). apply (from_caught w _ (Ret v) i (as_const k) a w' E); [cbn [t_step]; rewrite Ej, Nw; reflexivity|].
    intros v' x R X. injection R as <-. left. exists j, k, v. split; [exact Ej|]. split; [exact X|discriminate].
  - destruct Y as [Nw O]. red in Nw. destruct (old_tvar w j O) as (k & v & Ej). cbn in E. rewrite Ej, Nw in E. injection E as _ <-.
    intros n k' v' x. cbn. unfold tset. destruct (Nat.eqb n i); [|destruct (Nat.eqb n j)]; intros Q X.
    + injection Q as <- <-. eapply from_old; eauto.
    + injection Q as _ <-. now apply none_has in X.
    + eapply from_old; eauto.
  - destruct (usable_tvar w i j Y) as (k & vi & kj & vj & Ei & Ej & U & _ & _ & C). cbn in E. rewrite Ei, Ej, U in E. injection E as _ <-.
    intros n k' v' x. cbn. unfold tset. destruct (Nat.eqb n i); intros Q X; [injection Q as <- <-|]; eapply from_old; eauto.
  - destruct (usable_tvar w i j Y) as (k & vi & kj & vj & Ei & Ej & U & _ & _ & C). cbn in E. rewrite Ei, Ej, U in E. destruct (tkind_eqb k kj) eqn:K.
    + apply tkind_eqb_eq in K. subst kj. injection E as _ <-.
      intros n k' v' x. cbn. unfold tset. destruct (Nat.eqb n j); [|destruct (Nat.eqb n i)]; intros Q X; try (injection Q as <- <-); eapply from_old; eauto.
    + injection E as _ <-. intros n k' v' x. cbn. unfold tset. destruct (Nat.eqb n i); intros Q X; [injection Q as <- <-|]; eapply from_old; eauto.
  - destruct Y as [O KK]. destruct (old_tvar w i O) as (k & vi & Ei). rewrite (p_kind w i k vi Ei) in KK. unfold t_kind in KK.
    destruct (tw_vars w j) as [[kj vj]|] eqn:Ej; [|discriminate KK]. injection KK as <-. cbn in E. rewrite Ei, Ej, (proj2 (tkind_eqb_eq k k) eq_refl) in E. injection E as _ <-.
    intros n k' v' x. cbn. unfold tset. destruct (Nat.eqb n j); [|destruct (Nat.eqb n i)]; intros Q X; try (injection Q as <- <-); eapply from_old; eauto.
  - destruct Y as [Nw O]. red in Nw. destruct (old_tvar w j O) as (k & v & Ej). apply (from_caught w _ (t_slice k c v from to) i (if c then as_const k else k) a w' E); [cbn [t_step]; rewrite Ej, Nw; reflexivity|].
    intros v' x R X. left. exists j, k, v. split; [exact Ej|]. split; [|destruct c; [discriminate|trivial]].
    assert (NV : v_addr v = None -> v_size v = 0) by (intros Z; pose proof (proj1 (proj2 I j k v Ej)) as V; unfold valid in V; now rewrite Z in V).
    unfold t_slice in R. destruct (c || t_const k)%bool;
      match type of R with noexcept (view_ctor (v_addr ?s) (v_size ?s)) = _ => assert (v' = s) as -> end.
    1,3: unfold view_ctor in R; match type of R with context [v_addr ?s] => destruct s as [[b|] m] end; cbn in *;
      [now injection R|]; destruct (N.eqb_spec m 0); cbn in R; [subst; now injection R|discriminate R].
    + eapply ViewsProofs.subview_has; [|exact X]. now apply ViewsProofs.subview_slice.
    + eapply ViewsProofs.subview_has; [|exact X]. now apply ViewsProofs.subview_mslice.
Qed.

Lemma given_mono wr o os x : t_given wr [o] x \/ t_given wr os x -> t_given wr (o :: os) x.
Proof.
  intros [(i & k & a & C & H)|(i & k & a & C & H)]; exists i, k, a; (split; [exact C|]); destruct H as [(n & P & L)|[(n & P & L)|(n & P & L)]].
  1-3: destruct P as [P|[]]. 1: left. 2: right; left. 3: right; right. 1-3: exists n; split; [left; exact P|exact L].
  1: left. 2: right; left. 3: right; right. all: exists n; split; [now right|exact L].
Qed.
Lemma t_run_given os : forall w xs w' (G : bool -> N -> Prop), tinv w -> t_along t_fair os w -> t_run os w = Ret (xs, w') ->
  (forall wr x, G true x -> G wr x) ->
  (forall i k v x wr, tw_vars w i = Some (k, v) -> has v x -> (wr = true -> t_const k = false) -> G wr x) ->
  forall i k v x wr, tw_vars w' i = Some (k, v) -> has v x -> (wr = true -> t_const k = false) -> G wr x \/ t_given wr os x.
Proof.
  induction os as [|o t IH]; intros w xs w' G I A E GM HG i k v x wr Ei Hx C; cbn in *.
  - injection E as _ <-. left. eauto.
  - destruct A as [F A]. destruct (step_spec w o I F) as (a & w1 & E1 & I1 & _). rewrite E1 in E. cbn in E.
    destruct (t_run t w1) as [q| | | |] eqn:E2; try easy. injection E as _ <-.
    destruct (IH w1 (fst q) (snd q) (fun wr y => G wr y \/ t_given wr [o] y) I1 (A _ _ E1)
                 ltac:(now destruct q)) with (i := i) (k := k) (v := v) (x := x) (wr := wr) as [[H|H]|H]; auto using given_mono.
    + intros b y [H|(i0 & k0 & a0 & C0 & H)]; [left; auto|]. right. exists i0, k0, a0. split; auto.
    + intros i0 k0 v0 x0 wr0 Ei0 Hx0 C0. destruct (tstep_from w o a w1 I F E1 i0 k0 v0 x0 Ei0 Hx0) as [(j & kj & vj & Ej & Hj & Cj)|H]; [|right; auto].
      left. apply (HG j kj vj x0 wr0 Ej Hj). auto.
Qed.
Lemma t_run_readonly os : forall w xs w' (W : N -> Prop), tinv w -> t_along t_fair os w -> t_run os w = Ret (xs, w') ->
  (forall i k v x, tw_vars w i = Some (k, v) -> t_const k = false -> has v x -> W x) ->
  forall x, ~ W x -> ~ t_given true os x -> nth_error (tw_mem w') (N.to_nat x) = nth_error (tw_mem w) (N.to_nat x).
Proof.
  induction os as [|o t IH]; intros w xs w' W I A E HW x NW NG; cbn in *.
  - now injection E as _ <-.
  - destruct A as [F A]. destruct (step_spec w o I F) as (a & w1 & E1 & I1 & M & P & _). rewrite E1 in E. cbn in E.
    destruct (t_run t w1) as [q| | | |] eqn:E2; try easy. injection E as _ <-.
    rewrite (IH w1 (fst q) (snd q) (fun y => W y \/ t_given true [o] y) I1 (A _ _ E1) ltac:(now destruct q)).
    + rewrite M. destruct P as [->|(i & k & v & Ei & C & b & Eb & L1 & L2)]; [now rewrite ViewsProofs.put_at_nil|].
      pose proof (proj1 (proj2 I i k v Ei)) as V. unfold valid in V. rewrite Eb in V.
      rewrite ViewsProofs.nth_put_at by lia. destruct (_ && _)%bool eqn:H; [|reflexivity]. exfalso. apply NW.
      apply andb_true_iff in H as [H1 H2]. apply Nat.leb_le in H1. apply Nat.ltb_lt in H2.
      apply (HW i k v x Ei C). exists b. split; [exact Eb|]. unfold size in *. lia.
    + intros i0 k0 v0 x0 Ei0 C0 Hx0. destruct (tstep_from w o a w1 I F E1 i0 k0 v0 x0 Ei0 Hx0) as [(j & kj & vj & Ej & Hj & Cj)|H]; [|right; auto].
      left. apply (HW j kj vj x0 Ej); auto.
    + intros [H|H]; [auto|]. apply NG, given_mono. now left.
    + intros H. apply NG, given_mono. now right.
Qed.
Lemma t_along_cons (P : tworld -> top -> Prop) o t w : P w o -> (forall a w', t_step o w = Ret (a, w') -> t_along P t w') -> t_along P (o :: t) w.
Proof. intros H1 H2. split; assumption. Qed.
Lemma t_along_nil (P : tworld -> top -> Prop) w : t_along P [] w.
Proof. exact Logic.I. Qed.

(** ** Elements after a write *)
Lemma concat_inj sz (l : list (list N)) : forall m p q, concat l ++ p = concat m ++ q -> Forall (fun x => length x = sz) l -> Forall (fun x => length x = sz) m ->
  length l = length m -> l = m.
Proof.
  induction l as [|a l IH]; intros [|b m] p q M W1 W2 L; try discriminate L; [reflexivity|]. cbn [concat] in M. rewrite <- !app_assoc in M.
  inversion W1; inversion W2; subst. destruct (app_len _ _ _ _ M ltac:(congruence)) as [-> M2]. f_equal. apply (IH m p q); auto.
Qed.
Lemma elems_rewritten w w' i k v ys pre post : tinv w -> tinv w' -> tw_vars w i = Some (k, v) -> tw_vars w' i = Some (k, v) ->
  size pre = t_first w i -> tw_mem w' = pre ++ concat ys ++ post -> Forall (fun x => length x = N.to_nat (t_sz k)) ys -> length ys = length (elems w i) ->
  elems w' i = ys.
Proof.
  intros I I' E E' P M W L. destruct (p_parts w' I' i k v E') as (pre' & post' & M' & P' & _ & _). rewrite M in M'.
  assert (F : t_first w' i = t_first w i) by (unfold t_first; now rewrite E, E').
  destruct (app_len _ _ _ _ M') as [_ M2]; [rewrite F, <- P in P'; unfold size in P'; lia|].
  symmetry. apply (concat_inj (N.to_nat (t_sz k)) _ _ post post'); [exact M2|exact W|exact (p_wide w' I' i k v E')|].
  rewrite L, (p_count w I i k v E), (p_count w' I' i k v E'). reflexivity.
Qed.
Lemma replace_split {A} (l : list A) x y r : t_replace (length l) y (l ++ x :: r) = l ++ y :: r.
Proof. induction l; cbn; [reflexivity|]. now f_equal. Qed.
Lemma replace_beyond {A} (y : A) l : forall n, (length l <= n)%nat -> t_replace n y l = l.
Proof. induction l as [|x l IH]; intros [|n] L; cbn in *; try reflexivity; [lia|]. f_equal. apply IH. lia. Qed.

Lemma elems_after w o a w' : tinv w -> t_fair w o -> t_step o w = Ret (a, w') ->
  match t_after w o with Some (i, xs) => elems w' i = xs | None => True end.
Proof.
  intros I F E. destruct (step_spec w o I F) as (a1 & w1 & E1 & I1 & M & _ & _ & _ & T & _). rewrite E in E1. injection E1 as <- <-.
  destruct F as (Y & _ & B).
  assert (G : forall i k v ys, tw_vars w i = Some (k, v) -> ~ t_touches o i -> (length ys <= length (elems w i))%nat ->
    Forall (fun x => length x = N.to_nat (t_sz k)) ys -> t_puts w o = (t_first w i, concat ys) -> elems w' i = ys ++ skipn (length ys) (elems w i)).
  { intros i k v ys Ei NT L W Q. destruct (p_parts w I i k v Ei) as (pre & post & M0 & P & _ & _). pose proof (p_wide w I i k v Ei) as WE.
    rewrite <- (firstn_skipn (length ys) (elems w i)) in M0, WE. apply Forall_app in WE as [WE1 WE2]. rewrite concat_app, <- app_assoc in M0.
    apply (elems_rewritten w w' i k v _ pre post); trivial.
    - rewrite (T i NT). exact Ei.
    - rewrite M, Q, M0. cbn [fst snd]. rewrite <- P, put_mid, concat_app, <- app_assoc; [reflexivity|].
      rewrite !(concat_width _ (width_pos k (p_good w I i k v Ei))) by assumption. rewrite firstn_length. nia.
    - apply Forall_app. now split.
    - rewrite app_length, skipn_length. lia. }
  assert (G1 : forall i k v n bs, tw_vars w i = Some (k, v) -> ~ t_touches o i -> length bs = N.to_nat (t_sz k) ->
    t_puts w o = (if n <? N.of_nat (length (elems w i)) then (t_first w i + n * t_width w i, bs) else (0, [])) -> elems w' i = t_replace (N.to_nat n) bs (elems w i)).
  { intros i k v n bs Ei NT L Q. pose proof (T i NT) as Ei'. rewrite Ei in Ei'. destruct (N.ltb_spec n (N.of_nat (length (elems w i)))) as [Ln|Ln].
    - destruct (nth_error (elems w i) (N.to_nat n)) as [x|] eqn:NX; [|apply nth_error_None in NX; lia].
      destruct (nth_error_split _ _ NX) as (l & r & S & LL). destruct (p_parts w I i k v Ei) as (pre & post & M0 & P & _ & _). pose proof (p_wide w I i k v Ei) as WE.
      rewrite S in M0, WE. apply Forall_app in WE as [WE1 WE2]. inversion WE2 as [|? ? WE3 WE4]; subst. rewrite S, <- LL, replace_split.
      apply (elems_rewritten w w' i k v _ pre post); trivial.
      + rewrite M, Q, M0, !concat_app. cbn [fst snd concat]. rewrite <- !app_assoc. rewrite app_assoc.
        replace (t_first w i + n * t_width w i) with (size (pre ++ concat l)).
        * rewrite put_mid by congruence. now rewrite <- !app_assoc.
        * rewrite size_app, P, (p_width w i k v Ei). unfold size. rewrite (concat_width _ (width_pos k (p_good w I i k v Ei))) by assumption. lia.
      + apply Forall_app. split; [exact WE1|]. now constructor.
      + rewrite S, !app_length. reflexivity.
    - rewrite replace_beyond by lia. rewrite Q in M. cbn [fst snd] in M. rewrite ViewsProofs.put_at_nil in M.
      unfold elems, t_shown, t_width, t_kind. now rewrite Ei, Ei', M. }
  destruct o; cbn [t_after]; trivial; cbn [t_typed t_bounded] in Y, B.
  - destruct f as [bs|]; [|trivial]. destruct Y as [Mu Va]. destruct (mut_tvar w i Mu) as (k & v & Ei & _). unfold t_value in Va. rewrite (p_width w i k v Ei) in Va.
    apply (G1 i k v); auto; lia.
  - destruct Y as [Mu Va]. destruct (mut_tvar w i Mu) as (k & v & Ei & _). unfold t_value in Va. rewrite (p_width w i k v Ei) in Va.
    apply (G1 i k v); auto; lia.
  - destruct Y as [Mu Va]. destruct (mut_tvar w i Mu) as (k & v & Ei & _). unfold t_value in Va. rewrite (p_width w i k v Ei) in Va.
    assert (ML : (length (t_made l) <= length l)%nat) by (clear; induction l as [|[b|] l IH]; cbn; lia).
    apply (G i k v); auto; [lia|]. clear - Va. induction Va as [|[b|] l H F IH]; cbn; constructor; auto; lia.
  - destruct Y as [Mu Va]. destruct (mut_tvar w i Mu) as (k & v & Ei & _). unfold t_value in Va. rewrite (p_width w i k v Ei) in Va.
    rewrite (G i k v (repeat bs (length (elems w i)))); auto.
    + rewrite repeat_length, skipn_all. apply app_nil_r.
    + rewrite repeat_length. lia.
    + apply wide_repeat. lia.
  - destruct Y as [Mu Va]. destruct (mut_tvar w i Mu) as (k & v & Ei & _). unfold t_value in Va. rewrite (p_width w i k v Ei) in Va.
    rewrite (G i k v (map (fun n => f (N.of_nat n)) (seq 0 (length (elems w i))))); auto.
    + rewrite map_length, seq_length, skipn_all. apply app_nil_r.
    + rewrite map_length, seq_length. lia.
    + apply Forall_forall. intros x X. apply in_map_iff in X as (n & <- & _). specialize (Va (N.of_nat n)). lia.
  - destruct Y as [Mu Va]. destruct (mut_tvar w i Mu) as (k & v & Ei & _). unfold t_value in Va. rewrite (p_width w i k v Ei) in Va.
    rewrite (G i k v (map f (elems w i))); auto.
    + rewrite map_length, skipn_all. apply app_nil_r.
    + rewrite map_length. lia.
    + pose proof (p_wide w I i k v Ei) as WE. clear - WE Va. induction WE as [|x l H F IH]; cbn; constructor; auto. specialize (Va x ltac:(lia)). lia.
Qed.

Lemma contents_apart mem p bs v : valid mem v -> p + size bs <= size mem -> (forall x, has v x -> p <= x < p + size bs -> False) ->
  contents (put_at mem p bs) v = contents mem v.
Proof.
  intros V L H. unfold contents, valid in *. destruct (v_addr v) as [a|] eqn:A; [|reflexivity]. apply nth_error_ext. intros n.
  rewrite !nth_error_firstn, !nth_error_skip. destruct (Nat.ltb_spec n (N.to_nat (v_size v))) as [Ln|]; [|reflexivity].
  rewrite ViewsProofs.nth_put_at by exact L. destruct (_ && _)%bool eqn:X; [|reflexivity]. exfalso.
  apply andb_true_iff in X as [H1 H2]. apply Nat.leb_le in H1. apply Nat.ltb_lt in H2.
  apply (H (a + N.of_nat n)); [exists a; split; [exact A|lia]|]. unfold size. lia.
Qed.
Lemma puts_where w o : tinv w -> t_fair w o -> snd (t_puts w o) = [] \/ exists i k v a, t_writes o i /\ tw_vars w i = Some (k, v) /\ v_addr v = Some a /\
  a <= fst (t_puts w o) /\ fst (t_puts w o) + size (snd (t_puts w o)) <= a + v_size v.
Proof.
  intros I (Y & _ & B).
  assert (G : forall i k v ys, tw_vars w i = Some (k, v) -> t_writes o i -> (length ys <= length (elems w i))%nat ->
    Forall (fun x => length x = N.to_nat (t_sz k)) ys -> t_puts w o = (t_first w i, concat ys) -> snd (t_puts w o) = [] \/ exists i k v a, t_writes o i /\ tw_vars w i = Some (k, v) /\ v_addr v = Some a /\
  a <= fst (t_puts w o) /\ fst (t_puts w o) + size (snd (t_puts w o)) <= a + v_size v).
  { intros i k v ys Ei Wr L W ->. cbn [fst snd]. destruct ys as [|y ys]; [now left|]. right. exists i, k, v.
    destruct (p_parts w I i k v Ei) as (pre & post & _ & P & _ & A). exists (size pre). split; [exact Wr|]. split; [exact Ei|].
    split; [apply A; destruct (elems w i); [cbn in L; lia|discriminate]|]. rewrite P. split; [lia|]. pose proof (p_fits w I i k v Ei) as F. rewrite (p_countN w I i k v Ei) in F.
    replace (size (concat (y :: ys))) with (N.of_nat (length (y :: ys)) * t_sz k)
      by (unfold size; rewrite (concat_width _ (width_pos k (p_good w I i k v Ei))) by exact W; lia). nia. }
  assert (G1 : forall i k v n bs, tw_vars w i = Some (k, v) -> t_writes o i -> length bs = N.to_nat (t_sz k) ->
    t_puts w o = (if n <? N.of_nat (length (elems w i)) then (t_first w i + n * t_width w i, bs) else (0, [])) -> snd (t_puts w o) = [] \/ exists i k v a, t_writes o i /\ tw_vars w i = Some (k, v) /\ v_addr v = Some a /\
  a <= fst (t_puts w o) /\ fst (t_puts w o) + size (snd (t_puts w o)) <= a + v_size v).
  { intros i k v n bs Ei Wr L ->. destruct (N.ltb_spec n (N.of_nat (length (elems w i)))) as [Ln|Ln]; [|now left]. right. cbn [fst snd]. exists i, k, v.
    destruct (p_parts w I i k v Ei) as (pre & post & _ & P & _ & A). exists (size pre). split; [exact Wr|]. split; [exact Ei|].
    split; [apply A; destruct (elems w i); [cbn in Ln; lia|discriminate]|]. rewrite P. split; [lia|]. pose proof (p_fits w I i k v Ei) as F. rewrite (p_countN w I i k v Ei) in F.
    rewrite (p_width w i k v Ei). unfold size. rewrite L. nia. }
  destruct o; try (now left); cbn [t_typed t_bounded] in Y, B.
  - destruct f as [bs|]; [|now left]. destruct Y as [Mu Va]. destruct (mut_tvar w i Mu) as (k & v & Ei & _). unfold t_value in Va. rewrite (p_width w i k v Ei) in Va.
    apply (G1 i k v n bs); auto; [reflexivity|lia].
  - destruct Y as [Mu Va]. destruct (mut_tvar w i Mu) as (k & v & Ei & _). unfold t_value in Va. rewrite (p_width w i k v Ei) in Va.
    apply (G1 i k v n bs); auto; [reflexivity|lia].
  - destruct Y as [Mu Va]. destruct (mut_tvar w i Mu) as (k & v & Ei & _). unfold t_value in Va. rewrite (p_width w i k v Ei) in Va.
    assert (ML : (length (t_made l) <= length l)%nat) by (clear; induction l as [|[b|] l IH]; cbn; lia).
    apply (G i k v (t_made l)); auto; [reflexivity|lia|]. clear - Va. induction Va as [|[b|] l H F IH]; cbn; constructor; auto; lia.
  - destruct Y as [Mu Va]. destruct (mut_tvar w i Mu) as (k & v & Ei & _). unfold t_value in Va. rewrite (p_width w i k v Ei) in Va.
    apply (G i k v (repeat bs (length (elems w i)))); auto; [reflexivity|rewrite repeat_length; lia|]. apply wide_repeat. lia.
  - destruct Y as [Mu Va]. destruct (mut_tvar w i Mu) as (k & v & Ei & _). unfold t_value in Va. rewrite (p_width w i k v Ei) in Va.
    apply (G i k v (map (fun n => f (N.of_nat n)) (seq 0 (length (elems w i))))); auto; [reflexivity|rewrite map_length, seq_length; lia|].
    apply Forall_forall. intros x X. apply in_map_iff in X as (n & <- & _). specialize (Va (N.of_nat n)). lia.
  - destruct Y as [Mu Va]. destruct (mut_tvar w i Mu) as (k & v & Ei & _). unfold t_value in Va. rewrite (p_width w i k v Ei) in Va.
    apply (G i k v (map f (elems w i))); auto; [reflexivity|rewrite map_length; lia|].
    pose proof (p_wide w I i k v Ei) as WE. clear - WE Va. induction WE as [|x l H F IH]; cbn; constructor; auto. specialize (Va x ltac:(lia)). lia.
Qed.
Lemma others_keep w o a w' j : tinv w -> t_fair w o -> t_step o w = Ret (a, w') -> ~ t_touches o j -> (forall i, t_writes o i -> t_apart w i j) ->
  t_shown w' j = t_shown w j /\ elems w' j = elems w j.
Proof.
  intros I F E NT AP. destruct (step_spec w o I F) as (a1 & w1 & E1 & I1 & M & _ & _ & _ & T & _). rewrite E in E1. injection E1 as <- <-.
  pose proof (T j NT) as Ej. unfold elems, t_width, t_kind, t_shown. rewrite Ej. destruct (tw_vars w j) as [[kj vj]|] eqn:Ej0; [|now split].
  assert (C : contents (tw_mem w') vj = contents (tw_mem w) vj); [|rewrite C; now split]. rewrite M.
  destruct (puts_where w o I F) as [->|(i & k & v & b & Wr & Ei & Eb & L1 & L2)]; [now rewrite ViewsProofs.put_at_nil|].
  pose proof (proj1 (proj2 I i k v Ei)) as V. unfold valid in V. rewrite Eb in V. apply contents_apart.
  - exact (proj1 (proj2 I j kj vj Ej0)).
  - lia.
  - intros x (c & Ec & Hx) Hp. apply (AP i Wr b (v_size v) c (v_size vj) x); unfold t_window.
    + now rewrite Ei, Eb.
    + now rewrite Ej0, Ec.
    + lia.
Qed.
