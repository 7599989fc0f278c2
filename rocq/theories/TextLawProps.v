(** C105 to C108: laws between operations that are modelled separately. *)
From Verif Require Import Base BaseLemmas MemViewModel ByteIOModel ByteIOSpec ByteIOProofs Base16Model Base16Spec Base16Proofs
  Base64Model Base64Spec Base64Proofs Base64Props Base16Props LexSpec UUIDModel UUIDSpec UUIDProofs UUIDProps
  StringSpec StringViewModel StringViewProofs StringViewProps StringModel StringProofs StringProps TextLawSpec.

(** ** C105: splitting and joining *)
Lemma glue_sizes d ps : Forall (fun p => size p <= size (glue d ps)) ps.
Proof.
  induction ps as [|p [|q ps] IH]; constructor; auto; cbn [glue]; try lia.
  - rewrite !size_app. lia.
  - eapply Forall_impl; [|exact IH]. intros r H. change (size r <= size (p ++ d ++ glue d (q :: ps))). rewrite !size_app. cbn beta in H. lia.
Qed.
Lemma splits_count d s ps : splits d s ps -> (length ps <= S (length s))%nat \/ d = [].
Proof.
  intros H. destruct d as [|x d]; [now right|left]. apply splits_length in H. rewrite size_cons in H. unfold size in H.
  destruct (length ps) as [|n]; [lia|]. replace (N.of_nat (S n) - 1) with (N.of_nat n) in H by lia. nia.
Qed.
Theorem C105_join_split : forall alloc fuel d s, heap_ok alloc -> sv_ok s -> sv_ok d -> d <> [] -> (length s < fuel)%nat ->
  exists ps n, sv_split fuel d s = Ret (ps, n) /\
    match alloc (size s) with
    | Err e => str_join alloc d ps = Ret (Err e)
    | Ok _ => exists st, str_join alloc d ps = Ret (Ok st) /\ str_view st = s
    end.
Proof.
  intros alloc fuel d s H Hs Hd D F. destruct (C22_split_partial d s fuel Hs D F) as (ps & S & E & _).
  exists ps. eexists. split; [exact E|]. pose proof (splits_glue d s ps S) as G. unfold sv_ok in Hs.
  destruct (splits_count d s ps S) as [L|]; [|contradiction].
  assert (size ps < 2 ^ 64) by (unfold size in *; lia).
  assert (Forall sv_ok ps). { eapply Forall_impl; [|apply (glue_sizes d)]. intros p Hp. cbn beta in Hp. rewrite G in Hp. unfold sv_ok. lia. }
  pose proof (C26_join_partial alloc d ps H (splits_nonempty d s ps S) Hd ltac:(assumption) ltac:(assumption)) as J. rewrite G in J. specialize (J Hs).
  destruct (alloc (size s)); [|exact J]. destruct J as (st & J1 & J2 & _). eauto.
Qed.
Print Assumptions C105_join_split.
Theorem C105_join_split_char : forall alloc c s, heap_ok alloc -> sv_ok s ->
  exists ps n, sv_split_char c s = Ret (ps, n) /\
    match alloc (size s) with
    | Err e => str_join alloc [c] ps = Ret (Err e)
    | Ok _ => exists st, str_join alloc [c] ps = Ret (Ok st) /\ str_view st = s
    end.
Proof.
  intros alloc c s H Hs. destruct (C22_split_char_partial c s Hs) as (ps & S & E).
  destruct (C105_join_split alloc (Datatypes.S (length s)) [c] s H Hs) as (qs & n & E' & J); [unfold sv_ok; reflexivity|discriminate|lia|].
  destruct (C22_split_partial [c] s (Datatypes.S (length s)) Hs ltac:(discriminate) ltac:(lia)) as (rs & S' & E'' & _).
  rewrite E' in E''. injection E'' as -> _. rewrite (splits_det [c] s rs ps ltac:(discriminate) S' S) in J. eauto.
Qed.
Print Assumptions C105_join_split_char.

Lemma occurs_before d p r i : d <> [] -> i < size p -> (occurs d (p ++ d ++ r) i <-> occurs d (p ++ removelast d) i).
Proof.
  intros D L. pose proof (size_pos d D) as SD.
  assert (ED : d = removelast d ++ [last d 0]) by now apply app_removelast_last.
  assert (SR : size (removelast d) + 1 = size d). { rewrite ED at 2. now rewrite size_app, size_cons, (@size_nil N). }
  rewrite !occurs_alt, !size_app. replace (p ++ d ++ r) with ((p ++ removelast d) ++ [last d 0] ++ r).
  2:{ rewrite <- app_assoc, (app_assoc (removelast d)), <- ED. reflexivity. }
  rewrite ndrop_app, ntake_app, size_ndrop, size_app.
  replace (size d - (size p + size (removelast d) - i)) with 0 by lia. rewrite ntake_0, app_nil_r. split; intros (_ & E); (split; [lia|exact E]).
Qed.
Lemma separable_splits d ps : d <> [] -> ps <> [] -> (splits d (glue d ps) ps <-> separable d ps).
Proof.
  intros D. pose proof (size_pos d D) as SD. induction ps as [|p [|q ps] IH]; [contradiction| |]; intros _.
  - cbn [glue]. unfold separable. cbn [removelast last In]. split.
    + intros H. inversion H as [s X|p' r ps' X Y]; subst; [tauto|]. now apply splits_nonempty in Y.
    + intros (_ & H). now constructor.
  - specialize (IH ltac:(discriminate)). change (glue d (p :: q :: ps)) with (p ++ d ++ glue d (q :: ps)). remember (q :: ps) as t eqn:Et.
    assert (P : (forall i, i < N.of_nat (length p) -> ~ occurs d (p ++ d ++ glue d t) i) <-> (forall i, ~ occurs d (p ++ removelast d) i)).
    { fold (size p). split; intros H i.
      - intros O. assert (i < size p).
        { apply occurs_alt in O as (L & _). rewrite size_app in L. assert (size (removelast d) + 1 = size d); [|lia].
          rewrite (app_removelast_last 0 D) at 2. now rewrite size_app, size_cons, (@size_nil N). }
        apply (H i); [assumption|]. now apply occurs_before.
      - intros L O. apply (H i). now apply occurs_before in O. }
    assert (SP : separable d (p :: t) <-> (forall i, ~ occurs d (p ++ removelast d) i) /\ separable d t).
    { subst t. unfold separable. change (removelast (p :: q :: ps)) with (p :: removelast (q :: ps)). change (last (p :: q :: ps) []) with (last (q :: ps) []).
      cbn [In]. split; [intros (A & B)|intros (A & B & C)]; repeat split; auto. intros p' [<-|X]; auto. }
    rewrite SP, <- IH, <- P. split.
    + intros H. remember (p ++ d ++ glue d t) as s. remember (p :: t) as u. destruct H as [s H|p' r ps' H H'].
      * injection Hequ as Hs Ht. subst t. discriminate.
      * injection Hequ as -> ->. apply app_inv_head in Heqs. apply app_inv_head in Heqs. subst r. split; [exact H|exact H'].
    + intros (A & B). now constructor.
Qed.
Lemma join_ok alloc d ps b : heap_ok alloc -> ps <> [] -> sv_ok d -> d <> [] -> size (glue d ps) < 2 ^ 16 ->
  alloc (size (glue d ps)) = Ok b -> exists st, str_join alloc d ps = Ret (Ok st) /\ str_view st = glue d ps.
Proof.
  intros H NE Hd D L A.
  assert (Forall sv_ok ps). { eapply Forall_impl; [|apply (glue_sizes d)]. intros p Hp. cbn beta in Hp. unfold sv_ok. lia. }
  assert (K : (length ps - 1 <= length (glue d ps))%nat).
  { clear - D. induction ps as [|p [|q ps] IH]; cbn [length]; try lia. change (glue d (p :: q :: ps)) with (p ++ d ++ glue d (q :: ps)).
    rewrite !app_length. cbn [length] in IH. destruct d; [contradiction|]. cbn [length]. lia. }
  assert (size ps < 2 ^ 64) by (unfold size in *; lia).
  pose proof (C26_join_partial alloc d ps H NE Hd ltac:(assumption) ltac:(assumption) L) as J. rewrite A in J. destruct J as (st & J1 & J2 & _). eauto.
Qed.
Theorem C105_split_join : forall alloc fuel d ps b, heap_ok alloc -> ps <> [] -> sv_ok d -> d <> [] -> size (glue d ps) < 2 ^ 16 ->
  alloc (size (glue d ps)) = Ok b -> (length (glue d ps) < fuel)%nat ->
  exists st qs n, str_join alloc d ps = Ret (Ok st) /\ sv_split fuel d (str_view st) = Ret (qs, n) /\ (qs = ps <-> separable d ps).
Proof.
  intros alloc fuel d ps b H NE Hd D L A F. destruct (join_ok alloc d ps b H NE Hd D L A) as (st & J1 & J2).
  destruct (C22_split_partial d (glue d ps) fuel L D F) as (qs & S & E & _).
  exists st, qs, (N.of_nat (length qs) mod 2 ^ 16). split; [exact J1|]. rewrite J2. split; [exact E|].
  rewrite <- (separable_splits d ps D NE). split; [now intros <-|]. intros S'. exact (splits_det d _ qs ps D S S').
Qed.
Print Assumptions C105_split_join.
Lemma separable_char c ps : ps <> [] -> (separable [c] ps <-> Forall (fun p => ~ In c p) ps).
Proof.
  assert (O : forall p, (forall i, ~ occurs [c] p i) <-> ~ In c p).
  { intros p. split.
    - intros H X. apply in_split in X as (a & b & ->). apply (H (N.of_nat (length a))). exists a, b. split; reflexivity.
    - intros H i (a & b & -> & _). apply H, in_or_app. right. now left. }
  intros NE. rewrite (app_removelast_last [] NE) at 2. rewrite Forall_app. unfold separable. cbn [removelast]. rewrite Forall_forall. split.
  - intros (A & B). split; [|constructor; [now apply O|constructor]]. intros p X. apply O. intros i. specialize (A p X i). now rewrite app_nil_r in A.
  - intros (A & B). inversion B; subst. split; [|now apply O]. intros p X. rewrite app_nil_r. apply O, A, X.
Qed.
(** With one separating character: exactly when no piece contains it. *)
Theorem C105_split_join_char : forall alloc c ps b, heap_ok alloc -> ps <> [] -> size (glue [c] ps) < 2 ^ 16 ->
  alloc (size (glue [c] ps)) = Ok b ->
  exists st qs n, str_join alloc [c] ps = Ret (Ok st) /\ sv_split_char c (str_view st) = Ret (qs, n) /\ (qs = ps <-> Forall (fun p => ~ In c p) ps).
Proof.
  intros alloc c ps b H NE L A. destruct (join_ok alloc [c] ps b H NE ltac:(unfold sv_ok; reflexivity) ltac:(discriminate) L A) as (st & J1 & J2).
  destruct (C22_split_char_partial c (glue [c] ps) L) as (qs & S & E).
  exists st, qs. eexists. split; [exact J1|]. rewrite J2. split; [exact E|].
  rewrite <- (separable_char c ps NE), <- (separable_splits [c] ps ltac:(discriminate) NE). split; [now intros <-|]. intros S'. exact (splits_det [c] _ qs ps ltac:(discriminate) S S').
Qed.
Print Assumptions C105_split_join_char.
(** Two pieces without the separator that cannot be told apart again. *)
Example C105_overlap : (forall i, ~ occurs [97; 97] [97] i) /\ (forall i, ~ occurs [97; 97] [98] i) /\ glue [97; 97] [[97]; [98]] = [97; 97; 97; 98] /\
  sv_split 5 [97; 97] [97; 97; 97; 98] = Ret ([[]; [97; 98]], 2).
Proof. repeat split; try (intros i O; apply occurs_alt in O as (L & _); rewrite !size_cons, (@size_nil N) in L; lia). Qed.
Example C105_case : separable [44; 32] [[97]; [44]; [98; 32]] /\ glue [44; 32] [[97]; [44]; [98; 32]] = [97; 44; 32; 44; 44; 32; 98; 32] /\
  sv_split 9 [44; 32] [97; 44; 32; 44; 44; 32; 98; 32] = Ret ([[97]; [44]; [98; 32]], 3).
Proof.
  split; [|split; reflexivity]. apply separable_splits; try discriminate. destruct (C22_split_partial [44; 32] [97; 44; 32; 44; 44; 32; 98; 32] 9) as (ps & S & E & _); try discriminate.
  - unfold sv_ok. reflexivity.
  - cbn. lia.
  - change (sv_split 9 [44; 32] [97; 44; 32; 44; 44; 32; 98; 32]) with (Ret ([[97]; [44]; [98; 32]], 3) : outcome (list (list N) * N)) in E. injection E as <-. exact S.
Qed.

(** ** C106: replacing *)
(** Replacing a text by itself changes nothing. *)
Theorem C106_self : forall fuel alloc s what, heap_ok alloc -> sv_ok s -> sv_ok what -> what <> [] -> (length s < fuel)%nat ->
  match alloc (size s) with
  | Err _ => str_replace fuel alloc s what what = Throws InvalidState
  | Ok _ => exists st, str_replace fuel alloc s what what = Ret (Ok st) /\ str_view st = s
  end.
Proof.
  intros fuel alloc s what H Hs Hw W F. destruct (C28_replace fuel alloc s what what H Hs Hw W F) as (ps & S & R).
  rewrite (splits_glue _ _ _ S) in R. specialize (R Hs). destruct (alloc (size s)); [|exact R]. destruct R as (st & R1 & R2 & _). eauto.
Qed.
Print Assumptions C106_self.
(** Nor does replacing what is not there. *)
Theorem C106_absent : forall fuel alloc s what by_, heap_ok alloc -> sv_ok s -> sv_ok by_ -> what <> [] -> (length s < fuel)%nat ->
  (forall i, ~ occurs what s i) ->
  match alloc (size s) with
  | Err _ => str_replace fuel alloc s what by_ = Throws InvalidState
  | Ok _ => exists st, str_replace fuel alloc s what by_ = Ret (Ok st) /\ str_view st = s
  end.
Proof.
  intros fuel alloc s what by_ H Hs Hb W F NO. destruct (C28_replace fuel alloc s what by_ H Hs Hb W F) as (ps & S & R).
  rewrite (splits_det what s ps [s] W S (splits_last what s NO)) in R. cbn [glue] in R. specialize (R Hs).
  destruct (alloc (size s)); [|exact R]. destruct R as (st & R1 & R2 & _). eauto.
Qed.
Print Assumptions C106_absent.
(** The length changes by the difference, once for every occurrence replaced. *)
Lemma glue_size d ps : ps <> [] -> size (glue d ps) = size (concat ps) + size d * (N.of_nat (length ps) - 1).
Proof.
  induction ps as [|p [|q ps] IH]; [contradiction| |]; intros _.
  - cbn [glue concat length]. rewrite app_nil_r. lia.
  - change (glue d (p :: q :: ps)) with (p ++ d ++ glue d (q :: ps)). change (concat (p :: q :: ps)) with (p ++ concat (q :: ps)). rewrite !size_app, IH by discriminate.
    cbn [length]. lia.
Qed.
Theorem C106_length : forall fuel alloc s what by_ b, heap_ok alloc -> sv_ok s -> sv_ok by_ -> what <> [] -> (length s < fuel)%nat ->
  exists n, (exists ps, splits what s ps /\ length ps = S n) /\
    (forall len, len + N.of_nat n * size what = size s + N.of_nat n * size by_ -> len < 2 ^ 16 -> alloc len = Ok b ->
       exists st, str_replace fuel alloc s what by_ = Ret (Ok st) /\ size (str_view st) = len).
Proof.
  intros fuel alloc s what by_ b H Hs Hb W F. destruct (C28_replace fuel alloc s what by_ H Hs Hb W F) as (ps & S & R).
  pose proof (splits_nonempty _ _ _ S) as NE. exists (length ps - 1)%nat. split; [exists ps; split; [exact S|]; destruct ps; [contradiction|cbn; lia]|].
  intros len E L A. pose proof (glue_size what ps NE) as G1. rewrite (splits_glue _ _ _ S) in G1. pose proof (glue_size by_ ps NE) as G2.
  replace (N.of_nat (length ps) - 1) with (N.of_nat (length ps - 1)) in * by lia.
  assert (size (glue by_ ps) = len) as EL by nia. rewrite EL, A in R. destruct (R L) as (st & R1 & R2 & _). exists st. split; [exact R1|]. now rewrite R2.
Qed.
Print Assumptions C106_length.
(** Replacing by one character that the string does not contain, and back, restores it. *)
Theorem C106_back : forall fuel alloc s what c, heap_ok alloc -> (forall n, n < 2 ^ 16 -> exists b, alloc n = Ok b) ->
  sv_ok s -> sv_ok what -> what <> [] -> ~ In c s -> (length s < fuel)%nat ->
  exists st st', str_replace fuel alloc s what [c] = Ret (Ok st) /\ str_replace fuel alloc (str_view st) [c] what = Ret (Ok st') /\ str_view st' = s.
Proof.
  intros fuel alloc s what c H AV Hs Hw W NC F.
  destruct (C28_replace fuel alloc s what [c] H Hs ltac:(unfold sv_ok; reflexivity) W F) as (ps & S & R).
  pose proof (splits_nonempty _ _ _ S) as NE. pose proof (splits_glue _ _ _ S) as G. pose proof (size_pos what W) as PW.
  assert (LE : size (glue [c] ps) <= size s). { rewrite <- G, !glue_size by exact NE. rewrite size_cons, (@size_nil N). nia. }
  unfold sv_ok in Hs. specialize (R ltac:(lia)). destruct (AV (size (glue [c] ps)) ltac:(lia)) as (b1 & A1). rewrite A1 in R.
  destruct R as (st & R1 & R2 & _). exists st. rewrite R2.
  destruct (C28_replace fuel alloc (glue [c] ps) [c] what H ltac:(unfold sv_ok; lia) Hw ltac:(discriminate) ltac:(unfold size in *; lia)) as (qs & S2 & R').
  assert (SP : splits [c] (glue [c] ps) ps).
  { apply separable_splits; [discriminate|exact NE|]. apply separable_char; [exact NE|]. apply Forall_forall. intros p X Y. apply NC. rewrite <- G. clear - X Y.
    induction ps as [|q [|r ps] IH]; [destruct X| |]; cbn [glue].
    - destruct X as [<-|[]]. exact Y.
    - destruct X as [<-|X]; [apply in_or_app; now left|]. apply in_or_app. right. apply in_or_app. right. now apply IH. }
  rewrite (splits_det [c] _ qs ps ltac:(discriminate) S2 SP), G in R'. specialize (R' Hs). destruct (AV (size s) Hs) as (b2 & A2). rewrite A2 in R'.
  destruct R' as (st' & R3 & R4 & _). eauto.
Qed.
Print Assumptions C106_back.
(** A longer text that the string does not contain need not do: "aba" becomes "aaaa", and that
    becomes "bb" again. *)
Example C106_back_long : (forall i, ~ occurs [97; 97] [97; 98; 97] i) /\
  (match str_replace 9 junk_heap [97; 98; 97] [98] [97; 97] with Ret (Ok st) => str_view st | _ => [] end) = [97; 97; 97; 97] /\
  (match str_replace 9 junk_heap [97; 97; 97; 97] [97; 97] [98] with Ret (Ok st) => str_view st | _ => [] end) = [98; 98].
Proof.
  split; [|split; reflexivity]. intros i O. apply occurs_alt in O as (L & E). rewrite !size_cons, (@size_nil N) in *.
  assert (i = 0 \/ i = 1) as [->| ->] by lia; vm_compute in E; discriminate.
Qed.
(** Replacing one character by another with either function gives the same. *)
Lemma splits_char_map a b s ps : splits [a] s ps -> glue [b] ps = map (fun x => if x =? a then b else x) s.
Proof.
  assert (M : forall p, (forall i, i < N.of_nat (length p) -> forall r, ~ occurs [a] (p ++ r) i) -> map (fun x => if x =? a then b else x) p = p).
  { intros p H. rewrite <- (map_id p) at 2. apply map_ext_in. intros x X. destruct (N.eqb_spec x a) as [->|]; [|reflexivity]. exfalso.
    apply in_split in X as (u & v & ->). apply (H (N.of_nat (length u))) with (r := []); [rewrite app_length; cbn [length]; lia|].
    exists u, v. rewrite app_nil_r. split; reflexivity. }
  induction 1 as [s H|p r ps H H' IH].
  - cbn [glue]. symmetry. rewrite <- (map_id s) at 2. apply map_ext_in. intros x X. destruct (N.eqb_spec x a) as [->|]; [|reflexivity]. exfalso.
    apply in_split in X as (u & v & ->). apply (H (N.of_nat (length u))). exists u, v. split; reflexivity.
  - rewrite !map_app. cbn [map]. rewrite N.eqb_refl. rewrite M.
    + destruct ps as [|q ps]; [now apply splits_nonempty in H'|]. change (glue [b] (p :: q :: ps)) with (p ++ [b] ++ glue [b] (q :: ps)). now rewrite IH.
    + intros i L r' O. apply (H i L). apply occurs_char. apply occurs_char in O. revert O. rewrite !nnth_app. destruct (N.ltb_spec i (size p)); [auto|].
      unfold size in *. lia.
Qed.
Theorem C106_agree : forall fuel alloc s a b bl, heap_ok alloc -> sv_ok s -> a < 128 -> (length s < fuel)%nat -> alloc (size s) = Ok bl ->
  exists st st', str_replace fuel alloc s [a] [b] = Ret (Ok st) /\ str_replace_char alloc s a b = Ret (Ok st') /\ str_view st = str_view st'.
Proof.
  intros fuel alloc s a b bl H Hs Ha F A.
  destruct (C28_replace fuel alloc s [a] [b] H Hs ltac:(unfold sv_ok; reflexivity) ltac:(discriminate) F) as (ps & S & R).
  pose proof (splits_char_map a b s ps S) as M. pose proof (C28_replace_char_partial alloc s a b H Hs Ha) as C. rewrite A in C. destruct C as (st' & C1 & C2).
  rewrite M in R. assert (SM : size (map (fun x => if x =? a then b else x) s) = size s) by (unfold size; now rewrite map_length). rewrite SM, A in R.
  destruct (R Hs) as (st & R1 & R2 & _). exists st, st'. split; [exact R1|]. split; [exact C1|]. congruence.
Qed.
Print Assumptions C106_agree.
(** After replacing a character there is none of it left; replacing again changes nothing. *)
Theorem C106_char_gone : forall alloc s a b bl, heap_ok alloc -> sv_ok s -> a < 128 -> a <> b -> alloc (size s) = Ok bl ->
  exists st st', str_replace_char alloc s a b = Ret (Ok st) /\ ~ In a (str_view st) /\
    str_replace_char alloc (str_view st) a b = Ret (Ok st') /\ str_view st' = str_view st.
Proof.
  intros alloc s a b bl H Hs Ha AB A. pose proof (C28_replace_char_partial alloc s a b H Hs Ha) as C. rewrite A in C. destruct C as (st & C1 & C2).
  set (f := fun x => if x =? a then b else x) in *.
  assert (SM : size (map f s) = size s) by (unfold size; now rewrite map_length).
  assert (NI : ~ In a (map f s)). { intros X. apply in_map_iff in X as (x & E & _). unfold f in E. destruct (N.eqb_spec x a); congruence. }
  pose proof (C28_replace_char_partial alloc (map f s) a b H ltac:(unfold sv_ok in *; now rewrite SM) Ha) as C'. rewrite SM, A in C'. destruct C' as (st' & C3 & C4).
  exists st, st'. rewrite C2. repeat split; auto. rewrite C4. rewrite <- (map_id (map f s)) at 2. apply map_ext_in. intros x X.
  destruct (N.eqb_spec x a) as [->|]; [contradiction|reflexivity].
Qed.
Print Assumptions C106_char_gone.
(** Replacing one character by another and back restores the string exactly when it did not
    contain the other. *)
Theorem C106_char_back : forall alloc s a b bl, heap_ok alloc -> sv_ok s -> a < 128 -> b < 128 -> a <> b -> alloc (size s) = Ok bl ->
  exists st st', str_replace_char alloc s a b = Ret (Ok st) /\ str_replace_char alloc (str_view st) b a = Ret (Ok st') /\
    (str_view st' = s <-> ~ In b s).
Proof.
  intros alloc s a b bl H Hs Ha Hb AB A. pose proof (C28_replace_char_partial alloc s a b H Hs Ha) as C. rewrite A in C. destruct C as (st & C1 & C2).
  set (f := fun x => if x =? a then b else x) in *.
  assert (SM : size (map f s) = size s) by (unfold size; now rewrite map_length).
  pose proof (C28_replace_char_partial alloc (map f s) b a H ltac:(unfold sv_ok in *; now rewrite SM) Hb) as C'. rewrite SM, A in C'. destruct C' as (st' & C3 & C4).
  exists st, st'. rewrite C2. split; [exact C1|]. split; [exact C3|]. rewrite C4, map_map. split.
  - intros E X. apply in_split in X as (u & v & ->). rewrite map_app in E. cbn [map] in E. apply (f_equal (fun l => nth (length u) l 0)) in E.
    rewrite !app_nth2, map_length, Nat.sub_diag in E by (rewrite ?map_length; lia). cbn [nth] in E. unfold f in E.
    destruct (N.eqb_spec b a); [congruence|]. rewrite N.eqb_refl in E. congruence.
  - intros NI. rewrite <- (map_id s) at 2. apply map_ext_in. intros x X. unfold f. destruct (N.eqb_spec x a) as [->|]; [now rewrite N.eqb_refl|].
    destruct (N.eqb_spec x b) as [->|]; [contradiction|reflexivity].
Qed.
Print Assumptions C106_char_back.
Example C106_case :
  (match str_replace 9 junk_heap [97; 98; 97; 98] [97; 98] [45] with Ret (Ok st) => str_view st | _ => [] end) = [45; 45] /\
  (match str_replace 9 junk_heap [45; 45] [45] [97; 98] with Ret (Ok st) => str_view st | _ => [] end) = [97; 98; 97; 98] /\
  ~ In 45 [97; 98; 97; 98].
Proof. repeat split. cbn. intuition discriminate. Qed.

(** ** C107: encoding in pieces *)
Definition in_two (enc : writer -> list N -> outcome (result unit * writer)) (w : writer) (a b : list N) : outcome (result unit * writer) :=
  let! p := enc w a in match p with (Ok _, w') => enc w' b | (Err e, w') => Ret (Err e, w') end.
Theorem C107_base16_encode : forall w a b, in_two b16_encode w a b = b16_encode w (a ++ b).
Proof.
  intros w a b. revert w. unfold in_two. induction a as [|x a IH]; intros w; [reflexivity|]. cbn [app b16_encode].
  destruct (b16_pair x) as [two| | | |]; cbn [bind]; try reflexivity. destruct (w_write w two) as [[[u|e] w']| | | |]; cbn [bind]; try reflexivity. apply IH.
Qed.
Print Assumptions C107_base16_encode.
Lemma decode_loop_app a b : forall w, size a mod 2 = 0 -> in_two b16_decode_loop w a b = b16_decode_loop w (a ++ b).
Proof.
  unfold in_two. induction a as [|x|x y a IH] using pair_ind; intros w E; [reflexivity|rewrite size_cons, (@size_nil N) in E; discriminate|].
  cbn [app b16_decode_loop]. destruct (charToBin x) as [[h|e1]| | | |]; cbn [bind]; try reflexivity;
    destruct (charToBin y) as [[l|e2]| | | |]; cbn [bind]; try reflexivity.
  destruct (w_write w _) as [[[u|e] w']| | | |]; cbn [bind]; try reflexivity. apply IH. rewrite !size_cons in E. lia.
Qed.
Theorem C107_base16_decode : forall w a b, size a mod 2 = 0 -> size b mod 2 = 0 -> in_two b16_decode w a b = b16_decode w (a ++ b).
Proof.
  intros w a b A B. unfold b16_decode. rewrite size_app. replace ((size a + size b) mod 2) with 0 by lia. cbn [N.eqb negb]. rewrite <- decode_loop_app by exact A.
  unfold in_two. rewrite A. cbn [N.eqb negb]. destruct (b16_decode_loop w a) as [[[u|e] w']| | | |]; cbn [bind]; try reflexivity. now rewrite B.
Qed.
Print Assumptions C107_base16_decode.
Theorem C107_base64_encode : forall url w a b, size a mod 3 = 0 -> in_two (b64_encode url) w a b = b64_encode url w (a ++ b).
Proof.
  intros url w a b. revert w. unfold in_two, b64_encode. generalize (alphabet_of url) as al. intros al.
  induction a as [|x|x y|x y z a IH] using triple_ind; intros w E.
  - reflexivity.
  - rewrite size_cons, (@size_nil N) in E. discriminate.
  - rewrite !size_cons, (@size_nil N) in E. discriminate.
  - cbn [app base64encode]. repeat (match goal with |- context [at_ al ?i] => destruct (at_ al i) end; cbn [bind]; try reflexivity).
    destruct (w_write w _) as [[[u|e] w']| | | |]; cbn [bind]; try reflexivity. apply IH. rewrite !size_cons in E. lia.
Qed.
Print Assumptions C107_base64_encode.
(** Otherwise the text is a different one. *)
Lemma b64_char_pad url v : b64_char url v <> 61.
Proof. unfold b64_char. destruct (N.ltb_spec v 26); [lia|]. destruct (N.ltb_spec v 52); [lia|]. destruct (N.ltb_spec v 62); [lia|]. destruct (v =? 62), url; discriminate. Qed.
Theorem C107_base64_text : forall url a b, b64_text url a ++ b64_text url b = b64_text url (a ++ b) <-> size a mod 3 = 0 \/ b = [].
Proof.
  intros url a b. destruct b as [|y b].
  - rewrite app_nil_r. change (b64_text url []) with (@nil N). rewrite app_nil_r. tauto.
  - assert (X : (size a mod 3 = 0 \/ y :: b = []) <-> size a mod 3 = 0) by (split; [intros [H|H]; [exact H|discriminate]|tauto]). rewrite X. clear X.
    induction a as [|x|x z|x z t a IH] using triple_ind.
    + split; reflexivity.
    + split; [|intros H; rewrite size_cons, (@size_nil N) in H; discriminate]. intros H. exfalso.
      apply (f_equal (fun l => nth 2 l 0)) in H. destruct b as [|t b].
      * rewrite !b64_text_eq, sx1 in H. cbn [app] in H. rewrite sx2 in H. cbn in H. symmetry in H. exact (b64_char_pad _ _ H).
      * cbn [app] in H. rewrite b64_text3, b64_text_eq, sx1 in H. cbn [map app nth] in H. cbn in H. symmetry in H. exact (b64_char_pad _ _ H).
    + split; [|intros H; rewrite !size_cons, (@size_nil N) in H; discriminate]. intros H. exfalso.
      apply (f_equal (fun l => nth 3 l 0)) in H. cbn [app] in H. rewrite b64_text3, b64_text_eq, sx2 in H. cbn in H. symmetry in H. exact (b64_char_pad _ _ H).
    + cbn [app]. rewrite !b64_text3, <- !app_assoc. rewrite !size_cons. replace ((size a + 1 + 1 + 1) mod 3) with (size a mod 3) by lia. rewrite <- IH. split.
      * intros H. now apply app_inv_head in H.
      * now intros ->.
Qed.
Print Assumptions C107_base64_text.
(** In either case, with room in the destination, the two texts follow each other there. *)
Theorem C107_base16_written : forall w a b, writer_ok w -> bytes_ok (a ++ b) -> w_pos w + size (hex_text a) + size (hex_text b) <= w_lim w ->
  in_two b16_encode w a b = Ret (Ok tt, appended w (hex_text a ++ hex_text b)).
Proof.
  intros w a b I F L. apply Forall_app in F as [Fa Fb]. rewrite !size_hex_text in L. unfold in_two.
  rewrite (b16_encode_ok a w I Fa) by lia. cbn [bind]. change (winv w) in I. pose proof I as (H1 & H2 & H3).
  rewrite b16_encode_ok; [|apply append_inv; [exact I|rewrite size_hex_text; lia]|exact Fb|cbn [append w_pos w_lim]; rewrite size_hex_text; lia].
  rewrite append_app by (rewrite !size_hex_text; lia). reflexivity.
Qed.
Print Assumptions C107_base16_written.
Theorem C107_base64_written : forall url w a b, writer_ok w -> bytes_ok (a ++ b) ->
  w_pos w + size (b64_text url a) + size (b64_text url b) <= w_lim w ->
  in_two (b64_encode url) w a b = Ret (Ok tt, appended w (b64_text url a ++ b64_text url b)).
Proof.
  intros url w a b I F L. apply Forall_app in F as [Fa Fb]. unfold in_two.
  rewrite (b64_encode_ok url a w I Fa) by lia. cbn [bind]. change (winv w) in I. pose proof I as (H1 & H2 & H3).
  rewrite b64_encode_ok; [|apply append_inv; [exact I|lia]|exact Fb|cbn [append w_pos w_lim]; lia].
  rewrite append_app by lia. reflexivity.
Qed.
Print Assumptions C107_base64_written.
Theorem C107_base64_only : forall url w a b, writer_ok w -> bytes_ok (a ++ b) ->
  w_pos w + size (b64_text url a) + size (b64_text url b) <= w_lim w ->
  in_two (b64_encode url) w a b = b64_encode url w (a ++ b) <-> size a mod 3 = 0 \/ b = [].
Proof.
  intros url w a b I F L. rewrite C107_base64_written by assumption.
  assert (R : w_pos w + size (b64_text url (a ++ b)) <= w_lim w).
  { rewrite !size_b64_text in *. rewrite size_app. lia. }
  rewrite b64_encode_ok by assumption. rewrite <- (C107_base64_text url). split; [|intros ->; reflexivity].
  intros E. assert (E' : appended w (b64_text url a ++ b64_text url b) = append w (b64_text url (a ++ b))) by congruence. clear E. pose proof (append_written w (b64_text url a ++ b64_text url b) I) as X.
  pose proof (append_written w (b64_text url (a ++ b)) I R) as Y. rewrite size_app in X. specialize (X ltac:(lia)).
  change (append w (b64_text url a ++ b64_text url b)) with (appended w (b64_text url a ++ b64_text url b)) in X. rewrite E', Y in X.
  symmetry. exact (app_inv_head _ _ _ X).
Qed.
Print Assumptions C107_base64_only.
Example C107_case : in_two (b64_encode false) (writer_make (repeat 0 8)) [1; 2; 3] [4] = Ret (Ok tt, mkWriter 8 8 [65; 81; 73; 68; 66; 65; 61; 61]) /\
  in_two b16_encode (writer_make (repeat 0 6)) [1; 2] [255] = Ret (Ok tt, mkWriter 6 6 [48; 49; 48; 50; 102; 102]).
Proof. split; vm_compute; reflexivity. Qed.

Example C107_written_case : writer_ok (writer_make (repeat 0 8)) /\ bytes_ok ([1] ++ [4]) /\
  in_two (b64_encode false) (writer_make (repeat 0 8)) [1] [4] = Ret (Ok tt, mkWriter 8 8 [65; 81; 61; 61; 66; 65; 61; 61]) /\
  b64_encode false (writer_make (repeat 0 8)) ([1] ++ [4]) = Ret (Ok tt, mkWriter 4 8 [65; 81; 81; 61; 0; 0; 0; 0]).
Proof. repeat split; try (vm_compute; reflexivity || discriminate). repeat constructor. Qed.

(** ** C108: UUIDs are ordered as their texts *)
Lemma lex_lt_cons x y l m : lex_lt (x :: l) (y :: m) <-> x < y \/ (x = y /\ lex_lt l m).
Proof.
  unfold lex_lt. split.
  - intros ([|k] & E & H); cbn in *; [now left|]. injection E as -> E. right. split; [reflexivity|]. exists k. auto.
  - intros [H|(-> & k & E & H)]; [exists 0%nat; cbn; auto|]. exists (S k). cbn. rewrite E. auto.
Qed.
Lemma lex_lt_nil : ~ lex_lt [] [].
Proof. intros (k & _ & H). destruct k; exact H. Qed.
Lemma lex_lt_app_head p l m : lex_lt (p ++ l) (p ++ m) <-> lex_lt l m.
Proof. induction p as [|x p IH]; [reflexivity|]. cbn [app]. rewrite lex_lt_cons, IH. split; [intros [H|(_ & H)]; [lia|exact H]|right; auto]. Qed.
Lemma lex_lt_app a b l m : length a = length b -> lex_lt (a ++ l) (b ++ m) <-> lex_lt a b \/ (a = b /\ lex_lt l m).
Proof.
  revert b; induction a as [|x a IH]; intros [|y b] L; try discriminate.
  - cbn [app]. split; [right; auto|intros [H|(_ & H)]; [now apply lex_lt_nil in H|exact H]].
  - cbn [app]. rewrite !lex_lt_cons, IH by (cbn in L; lia). split; [intros [H|(-> & [H|(-> & H)])]; auto|intros [[H|(-> & H)]|(E & H)]; auto]. injection E as -> ->. auto.
Qed.
Lemma hex_digit_mono a b : a < 16 -> b < 16 -> (hex_digit a < hex_digit b <-> a < b).
Proof. intros A B. unfold hex_digit. destruct (N.ltb_spec a 10), (N.ltb_spec b 10); lia. Qed.
Lemma hex_digit_inj a b : a < 16 -> b < 16 -> hex_digit a = hex_digit b -> a = b.
Proof. intros A B. unfold hex_digit. destruct (N.ltb_spec a 10), (N.ltb_spec b 10); lia. Qed.
Lemma hex_text_mono u v : length u = length v -> bytes_ok u -> bytes_ok v -> (lex_lt (hex_text u) (hex_text v) <-> lex_lt u v).
Proof.
  revert v; induction u as [|x u IH]; intros [|y v] L U V; try discriminate; [reflexivity|]. inversion U as [|? ? X U']; inversion V as [|? ? Y V']; subst. unfold is_byte in *.
  change (hex_text (x :: u)) with (hex_digit (x / 16) :: hex_digit (x mod 16) :: hex_text u).
  change (hex_text (y :: v)) with (hex_digit (y / 16) :: hex_digit (y mod 16) :: hex_text v).
  rewrite !lex_lt_cons, IH by (cbn in L; auto; lia).
  assert (x / 16 < 16 /\ y / 16 < 16) as (A & B) by lia. assert (x mod 16 < 16 /\ y mod 16 < 16) as (C & D) by lia.
  pose proof (hex_digit_mono _ _ A B) as M1. pose proof (hex_digit_mono _ _ C D) as M2. pose proof (hex_digit_inj _ _ A B) as I1. pose proof (hex_digit_inj _ _ C D) as I2.
  split.
  - intros [H|(E & [H|(E' & H)])].
    + left. apply M1 in H. lia.
    + left. apply I1 in E. apply M2 in H. lia.
    + right. split; [apply I1 in E; apply I2 in E'; lia|exact H].
  - intros [H|(-> & H)]; [|auto]. destruct (N.lt_ge_cases (x / 16) (y / 16)); [left; now apply M1|]. right.
    assert (x / 16 = y / 16) as E by lia. split; [now rewrite E|]. left. apply M2. lia.
Qed.
Lemma hex_text_inj u v : bytes_ok u -> bytes_ok v -> hex_text u = hex_text v -> u = v.
Proof. intros U V E. pose proof (hex_value_text u U) as A. rewrite E, hex_value_text in A by exact V. congruence. Qed.
Lemma length_hex u : length (hex_text u) = (2 * length u)%nat.
Proof. pose proof (size_hex_text u) as H. unfold size in H. lia. Qed.
Lemma uuid_parts u : is_uuid u -> u = section u 0 4 ++ section u 4 2 ++ section u 6 2 ++ section u 8 2 ++ section u 10 6.
Proof.
  intros (L & _). pose proof (section_join u 8 2 6) as A. pose proof (section_join u 6 2 8) as B. pose proof (section_join u 4 2 10) as C. pose proof (section_join u 0 4 12) as D.
  change (8 + 2) with 10 in A. change (2 + 6) with 8 in A. change (6 + 2) with 8 in B. change (2 + 8) with 10 in B. change (4 + 2) with 6 in C. change (2 + 10) with 12 in C. change (0 + 4) with 4 in D. change (4 + 12) with 16 in D.
  rewrite A, B, C, D.
  unfold section. cbn [N.to_nat skipn]. symmetry. apply firstn_all2. rewrite L. cbn. lia.
Qed.
Theorem C108_text_order : forall u v, is_uuid u -> is_uuid v ->
  (uuid_lt u v = true <-> lex_lt (uuid_text u) (uuid_text v)) /\ (uuid_eq u v = true <-> uuid_text u = uuid_text v).
Proof.
  intros u v Hu Hv. pose proof (uuid_parts u Hu) as Pu. pose proof (uuid_parts v Hv) as Pv. pose proof Hu as (Lu & Bu). pose proof Hv as (Lv & Bv).
  assert (Z : forall a n, a + n <= 16 -> length (section u a n) = length (section v a n)).
  { intros a n H. pose proof (size_section u a n ltac:(unfold size; lia)). pose proof (size_section v a n ltac:(unfold size; lia)). unfold size in *. lia. }
  assert (Y : forall a n, a + n <= 16 -> length (hex_text (section u a n)) = length (hex_text (section v a n))) by (intros a n H; rewrite !length_hex, (Z a n H); reflexivity).
  assert (M : forall a n, a + n <= 16 -> (lex_lt (hex_text (section u a n)) (hex_text (section v a n)) <-> lex_lt (section u a n) (section v a n))).
  { intros a n H. apply hex_text_mono; [now apply Z|now apply bytes_ok_section|now apply bytes_ok_section]. }
  assert (J : forall a n, hex_text (section u a n) = hex_text (section v a n) <-> section u a n = section v a n).
  { intros a n. split; [apply hex_text_inj; now apply bytes_ok_section|now intros ->]. }
  split.
  - rewrite uuid_lt_spec by congruence. rewrite Pu at 1. rewrite Pv at 1. unfold uuid_text.
    rewrite !lex_lt_app by (rewrite ?Z, ?Y by lia; reflexivity).
    assert (X : forall P : Prop, (lex_lt [45] [45] \/ [45] = [45] /\ P) <-> P).
    { intros P. split; [intros [H|(_ & H)]; [|exact H]|auto]. apply lex_lt_cons in H as [H|(_ & H)]; [lia|now apply lex_lt_nil in H]. }
    rewrite !X, !M, !J by lia. reflexivity.
  - rewrite uuid_eq_spec by congruence. split; [now intros ->|]. intros E. pose proof (parse_text u [] Hu) as A. rewrite E, (parse_text v [] Hv) in A. injection A as A.
    revert A. clear. revert v. induction u as [|x u IH]; intros [|y v] H; try discriminate; [reflexivity|]. cbn in H. injection H as -> H. f_equal. now apply IH.
Qed.
Print Assumptions C108_text_order.
(** The same for the strings that toString gives and StringView::compareTo. *)
Theorem C108_compare : forall u v g g', is_uuid u -> is_uuid v -> length g = 36%nat -> length g' = 36%nat ->
  exists t t' z, uuid_toString u g = Ret t /\ uuid_toString v g' = Ret t' /\ sv_compareTo t t' = Ret z /\
    ((z < 0)%Z <-> uuid_lt u v = true) /\ (z = 0%Z <-> uuid_eq u v = true) /\ ((0 < z)%Z <-> uuid_lt v u = true).
Proof.
  intros u v g g' Hu Hv G G'. exists (uuid_text u), (uuid_text v).
  assert (T : forall x b, is_uuid x -> length b = 36%nat -> uuid_toString x b = Ret (uuid_text x) /\ length (uuid_text x) = 36%nat /\ Forall (fun c => c <> 0) (uuid_text x)).
  { intros x b Hx B. destruct (C16_to_string x b Hx) as (E & L); [unfold size; lia|unfold size; lia|]. split; [unfold uuid_toString; now rewrite E|]. split; [exact L|].
    destruct Hx as (_ & Bx). unfold uuid_text. 
    assert (X : forall a n, Forall (fun c => c <> 0) (hex_text (section x a n))).
    { intros a n. pose proof (bytes_ok_section x a n Bx) as Y. induction Y as [|y l Hy Y IH]; [constructor|].
      change (hex_text (y :: l)) with (hex_digit (y / 16) :: hex_digit (y mod 16) :: hex_text l). unfold hex_digit. constructor; [|constructor; [|exact IH]].
      - destruct (N.ltb_spec (y / 16) 10); lia.
      - destruct (N.ltb_spec (y mod 16) 10); lia. }
    repeat (apply Forall_app; split); auto; repeat constructor; discriminate. }
  destruct (T u g Hu G) as (E1 & L1 & Z1). destruct (T v g' Hv G') as (E2 & L2 & _).
  destruct (C20_same_length_lexicographic_partial (uuid_text u) (uuid_text v)) as (z & E & A & B & C); [congruence|exact Z1|].
  exists z. split; [exact E1|]. split; [exact E2|]. split; [exact E|].
  destruct (C108_text_order u v Hu Hv) as (O1 & O2). destruct (C108_text_order v u Hv Hu) as (O3 & _). now rewrite O1, O2, O3.
Qed.
Print Assumptions C108_compare.
(** All six comparisons are those of the texts. *)
Theorem C108_operators : forall u v g g', is_uuid u -> is_uuid v -> length g = 36%nat -> length g' = 36%nat ->
  exists t t' z, uuid_toString u g = Ret t /\ uuid_toString v g' = Ret t' /\ sv_compareTo t t' = Ret z /\
    uuid_lt u v = (z <? 0)%Z /\ uuid_le u v = (z <=? 0)%Z /\ uuid_eq u v = (z =? 0)%Z /\
    uuid_ne u v = negb (z =? 0)%Z /\ uuid_ge u v = (0 <=? z)%Z /\ uuid_gt u v = (0 <? z)%Z.
Proof.
  intros u v g g' Hu Hv G G'. destruct (C108_compare u v g g' Hu Hv G G') as (t & t' & z & E1 & E2 & E & A & B & C).
  exists t, t', z. repeat (split; [assumption|]). unfold uuid_le, uuid_ge, uuid_gt, uuid_ne.
  destruct (uuid_lt u v), (uuid_eq u v), (uuid_lt v u); cbn [negb];
    destruct (Z.ltb_spec z 0), (Z.leb_spec z 0), (Z.eqb_spec z 0), (Z.leb_spec 0 z), (Z.ltb_spec 0 z); cbn [negb];
    try (repeat split; reflexivity); exfalso; intuition (lia || discriminate).
Qed.
Print Assumptions C108_operators.
Example C108_case : let u := repeat 9 16 in let v := repeat 9 15 ++ [160] in uuid_lt u v = true /\
  sv_compareTo (uuid_text u) (uuid_text v) = Ret (-1)%Z.
Proof. split; vm_compute; reflexivity. Qed.
