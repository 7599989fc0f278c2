(** Lemmas about ArrayView. *)
From Verif Require Import Base BaseLemmas MemViewModel MemViewSpec ArrayViewModel ArrayViewSpec.

Lemma at_mult sz n : 0 < sz -> (sz * n) mod sz = 0.
Proof. intros H. rewrite N.mul_comm. apply N.mod_mul. lia. Qed.
Lemma div_mult sz n : 0 < sz -> sz * n / sz = n.
Proof. intros H. rewrite N.mul_comm. apply N.div_mul. lia. Qed.
Lemma nnth_mid {A} (pre : list A) x post : nnth (pre ++ x :: post) (size pre) = Some x.
Proof. rewrite nnth_app, N.ltb_irrefl, N.sub_diag. reflexivity. Qed.
Lemma overwrite_mid {A} (pre : list A) x y post : overwrite (pre ++ x :: post) (size pre) [y] = pre ++ y :: post.
Proof.
  unfold overwrite. rewrite ntake_app_exact. f_equal. cbn [app]. f_equal. change (size [y]) with 1. rewrite ndrop_app, ndrop_all by lia.
  replace (size pre + 1 - size pre) with 1 by lia. cbn. apply ndrop_0.
Qed.
Lemma load_at {A} sz (pre : list A) x post : 0 < sz -> cell_load sz (pre ++ x :: post) (Some (sz * size pre)) = Ret x.
Proof. intros H. unfold cell_load. rewrite at_mult, div_mult, nnth_mid by exact H. reflexivity. Qed.
Lemma store_at {A} sz (pre : list A) x y post : 0 < sz -> cell_store sz (pre ++ x :: post) (Some (sz * size pre)) y = Ret (pre ++ y :: post).
Proof. intros H. unfold cell_store. rewrite at_mult, div_mult, nnth_mid, overwrite_mid by exact H. reflexivity. Qed.

(** The pointer of a loop standing at [l] after [pre]. *)
Definition stands {A} sz (p : option N) (pre l : list A) : Prop := l <> [] -> p = Some (sz * size pre).
Lemma stands_begin {A} sz v (pre l post mem : list A) : 0 < sz -> shows sz v pre l post mem -> stands sz (av_begin v) pre l.
Proof.
  intros S (_ & E & P) H. unfold av_begin. destruct (v_size v =? 0) eqn:Z; [|now apply P].
  apply N.eqb_eq in Z. rewrite Z, N.div_0_l in E by lia. symmetry in E. now apply size_0_nil in E.
Qed.
Lemma stands_next {A} sz p (pre : list A) x l : stands sz p pre (x :: l) -> stands sz (ptr_add p sz) (pre ++ [x]) l.
Proof.
  intros H _. rewrite H by discriminate. cbn [ptr_add option_map]. rewrite size_app. change (size [x]) with 1. f_equal. lia.
Qed.
Lemma app_snoc {A} (pre : list A) x l : pre ++ x :: l = (pre ++ [x]) ++ l.
Proof. now rewrite <- app_assoc. Qed.
Lemma len_size {A} (l : list A) : N.to_nat (size l) = length l.
Proof. apply Nat2N.id. Qed.

Fixpoint imapi {A B} (i : N) (f : N -> A -> B) (l : list A) : list B :=
  match l with [] => [] | x :: l' => f i x :: imapi (i + 1) f l' end.
Lemma imap_imapi {A B} (f : N -> A -> B) (l : list A) : imap f l = imapi 0 f l.
Proof.
  unfold imap. change 0 with (N.of_nat 0). generalize 0%nat. induction l as [|x l IH]; intros k; cbn [length seq combine map imapi fst snd]; [reflexivity|].
  f_equal. rewrite IH. f_equal. lia.
Qed.
Lemma imapi_const {A B} (f : A -> B) (l : list A) i : imapi i (fun _ x => f x) l = map f l.
Proof. revert i. induction l as [|x l IH]; intros i; cbn; [reflexivity|]. f_equal. apply IH. Qed.
Lemma imapi_length {A B} (f : N -> A -> B) (l : list A) i : length (imapi i f l) = length l.
Proof. revert i. induction l as [|x l IH]; intros i; cbn; [reflexivity|]. now rewrite IH. Qed.

Section Loops.
Context {A : Type} (sz : N) (Hs : 0 < sz).

Lemma fill_loop_spec (f : N -> A) : forall l i p pre post, stands sz p pre l ->
  fill_loop sz (fun i => Some (f i)) (length l) i p (pre ++ l ++ post) = Ret (pre ++ imapi i (fun i _ => f i) l ++ post).
Proof.
  induction l as [|x l IH]; intros i p pre post H; cbn [length fill_loop imapi app]; [reflexivity|].
  pose proof (H ltac:(discriminate)) as E. rewrite E at 1. rewrite store_at by exact Hs. cbn [bind].
  rewrite app_snoc. rewrite IH; [now rewrite <- app_assoc|]. pose proof (stands_next sz p pre x l H) as Q. intros Hl. rewrite (Q Hl), !size_app. reflexivity.
Qed.
Lemma fill_loop_throws (f : N -> option A) : forall l i p pre post k, stands sz p pre l -> k < size l -> f (i + k) = None ->
  fill_loop sz f (length l) i p (pre ++ l ++ post) = Terminates.
Proof.
  induction l as [|x l IH]; intros i p pre post k H Hk F; cbn [length fill_loop app]; [cbn in Hk; lia|].
  destruct (N.eq_dec k 0) as [->|Nk]; [rewrite N.add_0_r in F; now rewrite F|].
  destruct (f i) as [y|]; [|reflexivity]. pose proof (H ltac:(discriminate)) as E. rewrite E at 1. rewrite store_at by exact Hs. cbn [bind].
  rewrite app_snoc. rewrite size_cons in Hk. apply (IH _ _ _ _ (k - 1)); [|lia|now replace (i + 1 + (k - 1)) with (i + k) by lia].
  pose proof (stands_next sz p pre x l H) as Q. intros Hl. rewrite (Q Hl), !size_app. reflexivity.
Qed.
Lemma each_loop_spec {St} (body : St -> N -> A -> St * A * bool) (keep : bool) : forall l i p pre post st, stands sz p pre l ->
  each_loop sz keep body (length l) i p (pre ++ l ++ post) st =
  let '(l', st', t) := visit body st i l in Ret (pre ++ (if keep then l' else l) ++ post, st', t).
Proof.
  induction l as [|x l IH]; intros i p pre post st H; cbn [length each_loop visit app]; [destruct keep; reflexivity|].
  pose proof (H ltac:(discriminate)) as E. pose proof (stands_next sz p pre x l H) as Q. rewrite E at 1. rewrite load_at by exact Hs. cbn [bind].
  destruct (body st i x) as [[st' x'] []].
  - destruct keep; cbn [bind]; [|reflexivity]. rewrite E, store_at by exact Hs. reflexivity.
  - assert (G : forall y, each_loop sz keep body (length l) (i + 1) (ptr_add p sz) (pre ++ y :: l ++ post) st' =
      let '(l', st'', t) := visit body st' (i + 1) l in Ret (pre ++ y :: (if keep then l' else l) ++ post, st'', t)).
    { intros y. rewrite app_snoc, IH; [|intros Hl; rewrite (Q Hl), !size_app; reflexivity].
      destruct (visit body st' (i + 1) l) as [[l' st''] t]. now rewrite <- app_assoc. }
    destruct keep; cbn [bind].
    + rewrite E at 1. rewrite store_at by exact Hs. cbn [bind]. rewrite G. destruct (visit body st' (i + 1) l) as [[l' st''] t]. reflexivity.
    + rewrite G. destruct (visit body st' (i + 1) l) as [[l' st''] t]. reflexivity.
Qed.
Lemma find_loop_spec (eqb : A -> A -> bool) x : forall (l : list A) i p pre post, stands sz p pre l ->
  exists o, find_loop sz eqb x (length l) i p (pre ++ l ++ post) = Ret o /\
    match o with
    | Some k => exists a y b, l = a ++ y :: b /\ k = i + size a /\ eqb x y = true /\ Forall (fun z => eqb x z = false) a
    | None => Forall (fun z => eqb x z = false) l
    end.
Proof.
  induction l as [|y l IH]; intros i p pre post H; cbn [length find_loop app]; [exists None; split; [reflexivity|constructor]|].
  pose proof (H ltac:(discriminate)) as E. assert (X : cell_load sz (pre ++ y :: l ++ post) p = Ret y) by (rewrite E; now apply load_at). rewrite X. cbn [bind].
  destruct (eqb x y) eqn:Q.
  - exists (Some i). split; [reflexivity|]. exists [], y, l. repeat split; auto. cbn. lia.
  - rewrite app_snoc. destruct (IH (i + 1) (ptr_add p sz) (pre ++ [y]) post) as (o & -> & F); [now apply stands_next|].
    exists o. split; [reflexivity|]. destruct o as [k|].
    + destruct F as (a & z & b & -> & -> & Ez & Fa). exists (y :: a), z, b. split; [reflexivity|]. split; [rewrite size_cons; lia|]. split; [exact Ez|]. now constructor.
    + now constructor.
Qed.
End Loops.

Lemma equal_loop_spec {A} sz (Hs : 0 < sz) (eqb : A -> A -> bool) mem : forall l l' p q pre post pre' post', length l = length l' ->
  stands sz p pre l -> stands sz q pre' l' -> mem = pre ++ l ++ post -> mem = pre' ++ l' ++ post' ->
  exists b, equal_loop sz eqb (length l) p q mem = Ret b /\ (b = true <-> Forall2 (fun x y => eqb x y = true) l l').
Proof.
  induction l as [|x l IH]; intros [|y l'] p q pre post pre' post' L H H' M M'; cbn [length] in L; try discriminate; cbn [length equal_loop].
  - exists true. split; [reflexivity|]. split; [constructor|reflexivity].
  - pose proof (H ltac:(discriminate)) as E. pose proof (H' ltac:(discriminate)) as E'.
    assert (X : cell_load sz mem p = Ret x) by (rewrite M, E; now apply load_at). assert (Y : cell_load sz mem q = Ret y) by (rewrite M', E'; now apply load_at).
    rewrite X, Y. cbn [bind]. destruct (eqb x y) eqn:Q; cbn [negb].
    + destruct (IH l' (ptr_add p sz) (ptr_add q sz) (pre ++ [x]) post (pre' ++ [y]) post') as (b & -> & Hb); try (now apply stands_next); [congruence| | |].
      * rewrite M. cbn [app]. now rewrite app_snoc.
      * rewrite M'. cbn [app]. now rewrite app_snoc.
      * exists b. split; [reflexivity|]. rewrite Hb. split; [intros F; now constructor|intros F; now inversion F].
    + exists false. split; [reflexivity|]. split; [discriminate|]. intros F. inversion F; subst; congruence.
Qed.

Lemma shows_count {A} sz v (pre l post mem : list A) : shows sz v pre l post mem -> N.to_nat (av_size sz v) = length l.
Proof. intros (_ & E & _). unfold av_size. rewrite E. apply len_size. Qed.

Lemma elem_spec {A} sz v (pre l post mem : list A) i : 0 < sz -> v_size v < 2 ^ 64 -> shows sz v pre l post mem ->
  av_elem sz v i = if size l <=? i then Throws IndexOutOfRange else Ret (Some (sz * (size pre + i))).
Proof.
  intros S B (M & E & P). unfold av_elem, av_size. rewrite E. destruct (N.leb_spec (size l) i) as [C|C]; [reflexivity|].
  assert (D : sz * (i + 1) <= v_size v).
  { apply N.le_trans with (sz * size l); [apply N.mul_le_mono_l; lia|]. rewrite <- E. apply N.mul_div_le. lia. }
  rewrite N.mul_add_distr_l, N.mul_1_r in D. unfold u64. rewrite (N.mod_small (sz * i)) by lia. rewrite N.mod_small by lia.
  destruct (N.ltb_spec (v_size v) (sz * i + sz)); [lia|]. rewrite P by (intros ->; cbn in C; lia). cbn [ptr_add option_map]. do 2 f_equal. lia.
Qed.
Lemma split_at {A} (l : list A) i : i < size l -> exists a x b, l = a ++ x :: b /\ size a = i /\ nnth l i = Some x /\ ntake i l = a /\ ndrop (i + 1) l = b.
Proof.
  intros H. destruct (nnth_lt_Some l i H) as (x & E). rewrite nnth_nth_error in E. destruct (nth_error_split l _ E) as (a & b & -> & L).
  assert (Sa : size a = i) by (unfold size; lia). exists a, x, b. split; [reflexivity|]. split; [exact Sa|]. split; [rewrite <- Sa; apply nnth_mid|]. split.
  - rewrite <- Sa. apply ntake_app_exact.
  - rewrite ndrop_app, ndrop_all by lia. replace (i + 1 - size a) with 1 by lia. cbn. apply ndrop_0.
Qed.
Lemma av_at_spec {A} sz v (pre l post mem : list A) i : 0 < sz -> v_size v < 2 ^ 64 -> shows sz v pre l post mem ->
  av_at sz mem v i = match nnth l i with Some x => Ret x | None => Throws IndexOutOfRange end.
Proof.
  intros S B H. unfold av_at. rewrite (elem_spec sz v pre l post mem i S B H). destruct (N.leb_spec (size l) i) as [C|C].
  - apply nnth_None in C. rewrite C. reflexivity.
  - destruct (split_at l i C) as (a & x & b & -> & Sa & -> & _). cbn [bind]. destruct H as (M & _). rewrite M. cbn [app]. rewrite <- app_assoc. cbn [app].
    rewrite app_assoc. replace (size pre + i) with (size (pre ++ a)) by (rewrite size_app; lia). now apply load_at.
Qed.
Lemma av_op_spec {A} sz v (pre l post mem : list A) o : 0 < sz -> v_size v < 2 ^ 64 -> shows sz v pre l post mem ->
  av_op sz mem v o = Ret (pre ++ fst (seq_op o l) ++ post, snd (seq_op o l)).
Proof.
  intros S B H. pose proof H as (M & _). pose proof (shows_count _ _ _ _ _ _ H) as C. pose proof (stands_begin _ _ _ _ _ _ S H) as T. destruct o; cbn [av_op seq_op].
  - unfold av_set. rewrite (elem_spec sz v pre l post mem i S B H). destruct (N.leb_spec (size l) i) as [D|D].
    + apply nnth_None in D. rewrite D. cbn [bind fst snd]. now rewrite M.
    + destruct (split_at l i D) as (a & x & b & El & Sa & Ex & Ea & Eb). rewrite Ex, Ea, Eb. cbn [bind]. destruct f as [y|]; [|cbn [fst snd]; now rewrite M].
      rewrite M, El. cbn [app]. rewrite <- app_assoc. cbn [app]. rewrite app_assoc. replace (size pre + i) with (size (pre ++ a)) by (rewrite size_app; lia).
      rewrite store_at by exact S. cbn [fst snd]. now rewrite <- !app_assoc.
  - unfold av_fill. rewrite C, M. rewrite (fill_loop_spec sz S (fun _ => x)) by exact T. cbn [bind fst snd]. rewrite (imapi_const (fun _ => x)). reflexivity.
  - unfold av_fill_with. rewrite C, M, (fill_loop_spec sz S f) by exact T. cbn [bind fst snd]. now rewrite imap_imapi.
  - unfold av_forEach. rewrite C, M, (each_loop_spec sz S) by exact T. assert (V : forall i, visit (fun (_ : unit) (_ : N) x => (tt, f x, false)) tt i l = (map f l, tt, false)).
    { clear. induction l as [|x l IH]; intros i; cbn [visit map]; [reflexivity|]. now rewrite IH. }
    rewrite V. reflexivity.
  - unfold av_forEach_index. rewrite C, M, (each_loop_spec sz S) by exact T. destruct (visit _ tt 0 l) as [[l' []] t]. reflexivity.
Qed.

Lemma slice_shows {A} const sz v (pre l post mem : list A) from to : 0 < sz -> v_size v < 2 ^ 64 -> from * sz < 2 ^ 64 -> to * sz < 2 ^ 64 ->
  shows sz v pre l post mem ->
  let a := N.min from (size l) in let b := N.min (N.max to a) (size l) in
  let v' := av_slice sz const v from to in
  v_size v' < 2 ^ 64 /\ shows sz v' (pre ++ ntake a l) (ntake (b - a) (ndrop a l)) (ndrop b l ++ post) mem.
Proof.
  intros S B Bf Bt (M & E & P) a b v'.
  assert (Hn : sz * size l <= v_size v < sz * size l + sz).
  { rewrite <- E. pose proof (N.mul_div_le (v_size v) sz ltac:(lia)). pose proof (N.mul_succ_div_gt (v_size v) sz ltac:(lia)). rewrite N.mul_succ_r in *. lia. }
  assert (Split : mem = (pre ++ ntake a l) ++ ntake (b - a) (ndrop a l) ++ ndrop b l ++ post).
  { rewrite M, <- app_assoc. f_equal. rewrite !app_assoc. f_equal. rewrite <- app_assoc. rewrite <- (ntake_ndrop a l) at 1. f_equal.
    rewrite <- (ntake_ndrop (b - a) (ndrop a l)) at 1. f_equal. rewrite ndrop_ndrop. f_equal. subst a b. lia. }
  assert (Sz : size (ntake (b - a) (ndrop a l)) = b - a) by (rewrite size_ntake, size_ndrop; subst a b; lia).
  assert (Sa : size (pre ++ ntake a l) = size pre + a) by (rewrite size_app, size_ntake; subst a; lia).
  assert (G : v_size v' < 2 ^ 64 /\ v_size v' / sz = b - a /\ (b - a <> 0 -> v_addr v' = ptr_add (v_addr v) (sz * a))).
  { assert (K : forall w, w = mkView (ptr_add (v_addr v) (N.min (from * sz) (v_size v))) (N.min (N.max (to * sz) (N.min (from * sz) (v_size v))) (v_size v) - N.min (from * sz) (v_size v)) ->
      v_size w < 2 ^ 64 /\ v_size w / sz = b - a /\ (b - a <> 0 -> v_addr w = ptr_add (v_addr v) (sz * a))).
    { intros w ->. cbn [v_size v_addr]. split; [lia|]. destruct (N.le_gt_cases from (size l)) as [F|F].
      - assert (Fs : sz * from <= sz * size l) by now apply N.mul_le_mono_l.
        assert (Ea : a = from) by (subst a; lia). rewrite (N.min_l (from * sz)) by lia. split; [|intros _; f_equal; rewrite Ea; lia].
        destruct (N.le_gt_cases to (size l)) as [T|T].
        + assert (Ts : sz * to <= sz * size l) by now apply N.mul_le_mono_l. rewrite N.min_l by lia.
          replace (N.max (to * sz) (from * sz) - from * sz) with (sz * (b - a)); [now apply div_mult|]. subst a b. rewrite N.mul_sub_distr_l. nia.
        + assert (Ts : sz * (size l + 1) <= sz * to) by (apply N.mul_le_mono_l; lia). rewrite N.min_r by nia. symmetry. apply N.div_unique with (v_size v - sz * size l); [lia|].
          replace (b - a) with (size l - from) by (subst a b; lia). rewrite N.mul_sub_distr_l. lia.
      - assert (Fs : sz * (size l + 1) <= sz * from) by (apply N.mul_le_mono_l; lia). rewrite (N.min_r (from * sz)) by nia.
        replace (N.min (N.max (to * sz) (v_size v)) (v_size v) - v_size v) with 0 by lia. rewrite N.div_0_l by lia. subst a b. split; [lia|]. intros X. lia. }
    unfold v', av_slice. unfold u64. rewrite !N.mod_small by assumption. destruct const; [apply K; unfold view_slice; now rewrite (N.min_comm (v_size v))|].
    unfold mview_slice. destruct (from * sz =? to * sz) eqn:Q; [|apply K; reflexivity]. apply N.eqb_eq in Q. cbn [v_size v_addr].
    assert (from = to) by (apply N.mul_cancel_r in Q; lia). subst to. rewrite N.div_0_l by lia. subst a b. split; [lia|]. split; [lia|]. intros X. lia. }
  destruct G as (G1 & G2 & G3). split; [exact G1|]. split; [exact Split|]. split; [now rewrite Sz|]. intros X. assert (Y : b - a <> 0) by (intros Z; apply X, size_0_nil; congruence).
  rewrite (G3 Y), Sa. rewrite P; [cbn [ptr_add option_map]; f_equal; lia|]. intros ->. cbn in *. subst a b. lia.
Qed.

Lemma seq_op_length {A} o (l : list A) : length (fst (seq_op o l)) = length l.
Proof.
  destruct o; cbn [seq_op fst]; rewrite ?map_length; try reflexivity.
  - destruct (nnth l i) eqn:E; [|reflexivity]. destruct f; [|reflexivity]. cbn [fst]. apply nnth_Some_lt in E. rewrite app_length. cbn [length].
    pose proof (size_ntake i l). pose proof (size_ndrop (i + 1) l). unfold size in *. lia.
  - now rewrite imap_imapi, imapi_length.
Qed.
Lemma inside_range_length {A B} from to (f : list A -> list A * B) l : (forall m, length (fst (f m)) = length m) -> length (fst (inside_range from to f l)) = length l.
Proof.
  intros H. unfold inside_range. cbn [fst]. rewrite !app_length, H. set (a := N.min from (size l)). set (b := N.min (N.max to a) (size l)).
  pose proof (size_ntake a l). pose proof (size_ndrop b l). pose proof (size_ntake (b - a) (ndrop a l)). pose proof (size_ndrop a l). unfold size in *. subst a b. lia.
Qed.
Lemma seq_op_in_length {A} path o : forall l : list A, length (fst (seq_op_in path o l)) = length l.
Proof. induction path as [|[from to] path IH]; intros l; cbn [seq_op_in]; [apply seq_op_length|]. now apply inside_range_length. Qed.

Lemma sliced_spec {A} sz o : 0 < sz -> forall path v (pre l post mem : list A), v_size v < 2 ^ 64 ->
  Forall (fun r => fst r * sz < 2 ^ 64 /\ snd r * sz < 2 ^ 64) path -> shows sz v pre l post mem ->
  av_op sz mem (sliced sz v path) o = Ret (pre ++ fst (seq_op_in path o l) ++ post, snd (seq_op_in path o l)).
Proof.
  intros S. induction path as [|[from to] path IH]; intros v pre l post mem B F H; [now apply av_op_spec|].
  inversion F as [|? ? (F1 & F2) Ft]; subst. cbn [fst snd] in F1, F2.
  pose proof (slice_shows false sz v pre l post mem from to S B F1 F2 H) as (B' & H'). unfold sliced. cbn [fold_left fst snd]. fold (sliced sz (av_slice sz false v from to) path).
  rewrite (IH _ _ _ _ _ B' Ft H'). cbn [seq_op_in]. unfold inside_range. cbn [fst snd]. now rewrite <- !app_assoc.
Qed.
Lemma av_run_spec {A} sz : 0 < sz -> forall ops v (pre l post mem : list A), v_size v < 2 ^ 64 ->
  Forall (fun p => Forall (fun r => fst r * sz < 2 ^ 64 /\ snd r * sz < 2 ^ 64) (fst p)) ops -> shows sz v pre l post mem ->
  exists mem', av_run sz mem v ops = Ret (mem', snd (seq_run l ops)) /\ shows sz v pre (fst (seq_run l ops)) post mem'.
Proof.
  intros S. induction ops as [|[path o] ops IH]; intros v pre l post mem B F H; cbn [av_run seq_run]; [eexists; split; [reflexivity|exact H]|].
  inversion F as [|? ? F1 Ft]; subst. cbn [fst] in F1. rewrite (sliced_spec sz o S path v pre l post mem B F1 H). cbn [bind fst snd].
  destruct H as (M & E & P). pose proof (seq_op_in_length path o l) as Le.
  destruct (IH v pre (fst (seq_op_in path o l)) post (pre ++ fst (seq_op_in path o l) ++ post) B Ft) as (mem' & -> & H').
  - split; [reflexivity|]. split; [unfold size; rewrite Le; exact E|]. intros X. apply P. intros ->. destruct (fst (seq_op_in path o [])); [now apply X|discriminate].
  - cbn [bind fst snd]. exists mem'. split; [reflexivity|exact H'].
Qed.
