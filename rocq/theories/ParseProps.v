(** C125, C126: exactly which texts are taken for a UUID or a version, and which value they give. *)
From Verif Require Import Base BaseLemmas Base16Model Base16Spec Base16Proofs UUIDModel UUIDSpec UUIDProofs.
From Verif Require Import StringSpec StringModel StringViewModel StringProps.
From Verif Require Import FmtModel FmtSpec FmtProofs VersionModel VersionSpec VersionProofs VersionProps ParseSpec ParseProofs.

(** ** C125 *)
(** A text is parsed into a UUID that depends on nothing but the text if and only if it has
    36 characters, four of them dashes and the others sixteen pairs of hexadecimal digits not
    separated by a dash.  The UUID has the values of the pairs, in order. *)
Theorem C125_determined : forall t u, (forall after, uuid_parse t after = Ret (Ok (map Some u))) <->
  length t = 36%nat /\ exists ts, Forall token_ok ts /\ row_text ts = t /\ row_bytes ts = u /\ length u = 16%nat.
Proof.
  intros t u. split.
  - intros H. specialize (H []). assert (L : length t = 36%nat).
    { unfold uuid_parse in H. destruct (N.eqb_spec (size t) 36) as [E|E]; [unfold size in E; lia|discriminate]. }
    split; [exact L|]. rewrite parse_36 in H by exact L. rewrite app_nil_r in H.
    destruct (loop_cases 37 t 0 [] ltac:(lia) ltac:(lia) ltac:(cbn; lia)) as [(ts & rest & F & E & O & B & K)|[(ts & a & b & rest & _ & _ & _ & _ & _ & _ & _ & _ & O)|O]]; rewrite O in H; cbn [bind] in H; try discriminate.
    injection H as H. cbn [app] in H. unfold stored in H.
    assert (S : size (row_text ts) + size rest = 36) by (rewrite <- size_app, <- E; unfold size; lia).
    assert (Rn : rest = []).
    { apply size_0_nil. destruct K as [K|(ts' & a & b & -> & K)]; [lia|]. rewrite row_text_app, size_app in S. change (size (row_text [Pair a b])) with 2 in S. lia. }
    subst rest. rewrite app_nil_r in E. exists ts. split; [exact F|]. split; [auto|].
    assert (LB : length (row_bytes ts) = 16%nat).
    { assert (length (row_bytes ts) <= 16)%nat by (unfold size in B; cbn in B; lia).
      destruct (16 - length (row_bytes ts))%nat as [|k] eqn:Q; [lia|]. exfalso.
      assert (In None (map Some u)) by (rewrite <- H; apply in_or_app; right; now left). apply in_map_iff in H1 as (x & X & _). discriminate. }
    rewrite LB, Nat.sub_diag, app_nil_r in H. assert (G : forall a b : list N, map Some a = map Some b -> a = b).
    { induction a as [|x a IH]; intros [|y b] Y; try discriminate; [reflexivity|]. injection Y as -> Y. f_equal. auto. }
    apply G in H. subst u. auto.
  - intros (L & ts & F & <- & <- & B) after. rewrite parse_36 by exact L.
    rewrite loop_row; [|exact F|unfold size; lia|unfold size; cbn; lia]. rewrite loop_end by (unfold size; lia). cbn [bind app]. unfold stored. rewrite B. cbn [Nat.sub repeat]. now rewrite app_nil_r.
Qed.
Print Assumptions C125_determined.
(** All texts that are accepted: rows of tokens that fill the 36 characters, or overrun them
    by one character of the memory behind.  With fewer than sixteen pairs the remaining bytes
    of the UUID are indeterminate. *)
Theorem C125_accepted : forall t after r, uuid_parse t after = Ret (Ok r) <->
  length t = 36%nat /\ exists ts, Forall token_ok ts /\ (length (row_bytes ts) <= 16)%nat /\ r = stored (row_bytes ts) /\
    (row_text ts = t \/ exists ts' a b rest, ts = ts' ++ [Pair a b] /\ after = b :: rest /\ row_text ts' ++ [a] = t).
Proof.
  intros t after r. split.
  - intros H. assert (L : length t = 36%nat).
    { unfold uuid_parse in H. destruct (N.eqb_spec (size t) 36) as [E|E]; [unfold size in E; lia|discriminate]. }
    split; [exact L|]. rewrite parse_36 in H by exact L.
    destruct (loop_cases (S (length (t ++ after))) (t ++ after) 0 [] ltac:(lia) ltac:(lia) ltac:(cbn; lia)) as [(ts & rest & F & E & O & B & K)|[(ts & a & b & rest & _ & _ & _ & _ & _ & _ & _ & _ & O)|O]]; rewrite O in H; cbn [bind] in H; try discriminate.
    injection H as <-. cbn [app]. exists ts. split; [exact F|]. split; [unfold size in B; cbn in B; lia|]. split; [reflexivity|].
    assert (CUT : forall (a b c d : list N), a ++ b = c ++ d -> length a = length c -> a = c /\ b = d).
    { induction a as [|x a IH]; intros b [|y c] d E1 E2; try discriminate; [auto|]. injection E1 as -> E1. injection E2 as E2. destruct (IH _ _ _ E1 E2). split; congruence. }
    destruct K as [K|(ts' & a & b & -> & K)].
    + left. symmetry in E. apply CUT in E as (E & _); [exact E|]. unfold size in K. lia.
    + right. exists ts', a, b, rest. split; [reflexivity|]. rewrite row_text_app in E. cbn [row_text flat_map token_text app] in E.
      rewrite <- app_assoc in E. cbn [app] in E. replace (row_text ts' ++ a :: b :: rest) with ((row_text ts' ++ [a]) ++ b :: rest) in E by now rewrite <- app_assoc.
      apply CUT in E as (E1 & E2); [auto|]. rewrite app_length. unfold size in K. cbn [length]. lia.
  - intros (L & ts & F & B & -> & [<-|(ts' & a & b & rest & -> & -> & <-)]); rewrite parse_36 by exact L.
    + rewrite loop_row; [|exact F|unfold size; lia|unfold size; cbn; lia]. rewrite loop_end by (unfold size; lia). reflexivity.
    + apply Forall_app in F as (F & F'). rewrite <- app_assoc. cbn [app]. rewrite row_bytes_app, app_length in *. cbn [length] in L.
      assert (T : token_ok (Pair a b)) by now inversion F'. destruct (token_inv _ T) as [X|(a' & b' & h & l & X & Ea & Eb & TB)]; [discriminate|]. injection X as <- <-.
      assert (RB : row_bytes [Pair a b] = [16 * h + l]) by (unfold row_bytes; cbn [flat_map]; now rewrite TB). rewrite RB in *. cbn [length] in B.
      rewrite loop_row; [|exact F|unfold size; lia|unfold size; cbn; lia]. rewrite (loop_pair _ _ _ _ _ _ _ Ea Eb) by (unfold size; cbn [length app]; lia).
      rewrite loop_end by (unfold size; lia). reflexivity.
Qed.
Print Assumptions C125_accepted.
(** All texts that are refused: another length, or, after a row of tokens, two 7-bit
    characters (the second possibly behind the text) that are no pair of digits. *)
Theorem C125_refused : forall t after e, uuid_parse t after = Ret (Err e) <->
  (length t <> 36%nat /\ e = E_NODATA) \/
  (length t = 36%nat /\ e = E_ILSEQ /\ exists ts a b rest, Forall token_ok ts /\ t ++ after = row_text ts ++ a :: b :: rest /\
     (length (row_text ts) < 36)%nat /\ (length (row_bytes ts) <= 16)%nat /\ a <> 45 /\ a < 128 /\ b < 128 /\ ~ token_ok (Pair a b)).
Proof.
  intros t after e. destruct (Nat.eq_dec (length t) 36) as [L|L].
  2:{ unfold uuid_parse. destruct (N.eqb_spec (size t) 36) as [E|E]; [unfold size in E; lia|]. cbn [negb]. split.
      - intros H. injection H as <-. auto.
      - intros [(_ & ->)|(X & _)]; [reflexivity|congruence]. }
  rewrite parse_36 by exact L. split.
  - intros H. right. split; [exact L|].
    destruct (loop_cases (S (length (t ++ after))) (t ++ after) 0 [] ltac:(lia) ltac:(lia) ltac:(cbn; lia)) as [(ts & rest & F & E & O & B & K)|[(ts & a & b & rest & F & E & Li & B & C1 & C2 & C3 & C4 & O)|O]]; rewrite O in H; cbn [bind] in H; try discriminate.
    injection H as <-. split; [reflexivity|]. exists ts, a, b, rest. unfold size in Li, B. cbn in Li, B. repeat (split; [first [assumption|lia]|]). assumption.
  - intros [(X & _)|(_ & -> & ts & a & b & rest & F & -> & Li & B & C1 & C2 & C3 & C4)]; [congruence|].
    rewrite loop_row; [|exact F|unfold size; lia|unfold size; cbn; lia]. cbn [uuid_parse_loop]. destruct (N.ltb_spec (0 + size (row_text ts)) 36) as [|X]; [|unfold size in X; lia].
    destruct (N.eqb_spec a 45); [congruence|]. rewrite !charToBin_spec by assumption. cbn [token_ok] in C4.
    destruct (digit_value a); destruct (digit_value b); cbn [bind]; try reflexivity. exfalso. apply C4. split; discriminate.
Qed.
Print Assumptions C125_refused.
(** Whatever is neither accepted nor refused is undefined behaviour. *)
Theorem C125_otherwise : forall t after, uuid_parse t after = UB \/ exists r, uuid_parse t after = Ret r.
Proof.
  intros t after. destruct (Nat.eq_dec (length t) 36) as [L|L].
  - rewrite parse_36 by exact L.
    destruct (loop_cases (S (length (t ++ after))) (t ++ after) 0 [] ltac:(lia) ltac:(lia) ltac:(cbn; lia)) as [(ts & rest & F & E & O & B & K)|[(ts & a & b & rest & F & E & Li & B & C1 & C2 & C3 & C4 & O)|O]]; rewrite O; cbn [bind]; eauto.
  - right. unfold uuid_parse. destruct (N.eqb_spec (size t) 36) as [E|E]; [unfold size in E; lia|]. cbn [negb]. eauto.
Qed.
Print Assumptions C125_otherwise.
(** "aa-aa-..." : dashes between pairs elsewhere than RFC 4122 puts them are accepted. *)
Example C125_ok : let ts := [Pair 97 65; Dash; Dash; Pair 48 49; Dash; Dash] ++ repeat (Pair 102 70) 14 in
  Forall token_ok ts /\ length (row_text ts) = 36%nat /\ row_bytes ts = 170 :: 1 :: repeat 255 14 /\
  uuid_parse (row_text ts) [] = Ret (Ok (map Some (170 :: 1 :: repeat 255 14))).
Proof. cbv zeta. split; [|split; [reflexivity|split; reflexivity]]. cbn [app repeat]. repeat constructor; discriminate. Qed.

(** ** C126 *)
(** Every text begins with exactly one number in this sense. *)
Theorem C126_reads : forall s, exists v rest, reads s v rest /\ forall v' rest', reads s v' rest' -> v' = v /\ rest' = rest.
Proof.
  intros s. destruct (reads_total s) as (v & r & R). exists v, r. split; [exact R|]. intros v' r' R'. destruct (reads_unique s v r v' r' R R') as (-> & ->). auto.
Qed.
Print Assumptions C126_reads.
(** A text with a zero byte behind it is a version if and only if it has two dots, and at
    most one plus sign follows the number read after the second dot.  The version is made of
    the numbers that begin the three parts, modulo 2^32, and of the tags. *)
Theorem C126_accepted : forall alloc s rest v, heap_total alloc -> sv_ok s ->
  (ver_parse alloc s (0 :: rest) = Ret (Ok v) <->
   exists x y z a b c ra rb rc pre build, dotted s x y z /\ reads x a ra /\ reads y b rb /\ reads z c rc /\ tags rc pre build /\
     v = mkVersion (a mod 2 ^ 32) (b mod 2 ^ 32) (c mod 2 ^ 32) pre build).
Proof.
  intros alloc s rest v T L. split.
  - intros H. destruct (dotted_or_few s) as [(x & y & z & D)|C]; [|rewrite C66_reject_partial in H by (try assumption; apply T); discriminate].
    destruct (reads_total x) as (a & ra & Ra). destruct (reads_total y) as (b & rb & Rb). destruct (reads_total z) as (c & rc & Rc).
    rewrite (parse_dotted alloc s x y z rest a b c ra rb rc L D Ra Rb Rc) in H.
    assert (Lr : sv_ok rc).
    { destruct (reads_suffix _ _ _ Rc) as (q & Q). destruct D as (D & _). unfold sv_ok in *. rewrite D, Q, !size_app, !size_cons, !size_app, !size_cons, !size_app in L. lia. }
    destruct (tags_or_many rc) as [(pre & build & G)|G].
    + exists x, y, z, a, b, c, ra, rb, rc, pre, build. repeat (split; [assumption|]).
      rewrite sv_empty_nil in H. destruct rc as [|k rc'].
      * injection H as <-. destruct G as [(_ & (p & q & E & _) & ->)|(p & E & _)]; [|destruct p; discriminate].
        symmetry in E. apply app_eq_nil in E as (_ & E). apply app_eq_nil in E as (-> & _). reflexivity.
      * destruct (tags_parsed alloc _ pre build T Lr G) as (ps & n & i & E1 & E2 & Li). rewrite E1 in H. cbn [bind fst] in H. rewrite E2 in H. cbn [bind] in H.
        destruct (Nat.ltb_spec 2 i); [lia|]. injection H as <-. reflexivity.
    + exfalso. rewrite sv_empty_nil in H. destruct rc as [|k rc']; [cbn in G; lia|].
      destruct (tags_many alloc _ T Lr G) as (ps & n & i & p & q & E1 & E2 & Li). rewrite E1 in H. cbn [bind fst] in H. rewrite E2 in H. cbn [bind] in H.
      destruct (Nat.ltb_spec 2 i); [discriminate|lia].
  - intros (x & y & z & a & b & c & ra & rb & rc & pre & build & D & Ra & Rb & Rc & G & ->).
    rewrite (parse_dotted alloc s x y z rest a b c ra rb rc L D Ra Rb Rc).
    assert (Lr : sv_ok rc).
    { destruct (reads_suffix _ _ _ Rc) as (q & Q). destruct D as (D & _). unfold sv_ok in *. rewrite D, Q, !size_app, !size_cons, !size_app, !size_cons, !size_app in L. lia. }
    rewrite sv_empty_nil. destruct rc as [|k rc'].
    + destruct G as [(_ & (p & q & E & _) & ->)|(p & E & _)]; [|destruct p; discriminate].
      symmetry in E. apply app_eq_nil in E as (_ & E). apply app_eq_nil in E as (-> & _). reflexivity.
    + destruct (tags_parsed alloc _ pre build T Lr G) as (ps & n & i & E1 & E2 & Li). rewrite E1. cbn [bind fst]. rewrite E2. cbn [bind].
      destruct (Nat.ltb_spec 2 i); [lia|]. reflexivity.
Qed.
Print Assumptions C126_accepted.
(** All other texts are refused as invalid. *)
Theorem C126_refused : forall alloc s rest, heap_total alloc -> sv_ok s ->
  (forall v, ver_parse alloc s (0 :: rest) <> Ret (Ok v)) <-> ver_parse alloc s (0 :: rest) = Ret (Err E_InvalidInput).
Proof.
  intros alloc s rest T L. split; [|intros -> v; discriminate]. intros H.
  destruct (dotted_or_few s) as [(x & y & z & D)|C]; [|apply C66_reject_partial; try assumption; apply T].
  destruct (reads_total x) as (a & ra & Ra). destruct (reads_total y) as (b & rb & Rb). destruct (reads_total z) as (c & rc & Rc).
  destruct (tags_or_many rc) as [(pre & build & G)|G].
  - exfalso. eapply H. apply C126_accepted; [exact T|exact L|]. exists x, y, z, a, b, c, ra, rb, rc, pre, build. repeat (split; [eassumption|]). reflexivity.
  - rewrite (parse_dotted alloc s x y z rest a b c ra rb rc L D Ra Rb Rc).
    assert (Lr : sv_ok rc).
    { destruct (reads_suffix _ _ _ Rc) as (q & Q). destruct D as (D & _). unfold sv_ok in *. rewrite D, Q, !size_app, !size_cons, !size_app, !size_cons, !size_app in L. lia. }
    rewrite sv_empty_nil. destruct rc as [|k rc']; [cbn in G; lia|].
    destruct (tags_many alloc _ T Lr G) as (ps & n & i & p & q & E1 & E2 & Li). rewrite E1. cbn [bind fst]. rewrite E2. cbn [bind].
    destruct (Nat.ltb_spec 2 i); [reflexivity|lia].
Qed.
Print Assumptions C126_refused.
(** " +7x.-1.12--rc-+b" is the version 7.4294967295.12-rc+b. *)
Example C126_ok : let s := [32; 43; 55; 120; 46; 45; 49; 46; 49; 50; 45; 45; 114; 99; 45; 43; 98] in
  sv_ok s /\ dotted s [32; 43; 55; 120] [45; 49] [49; 50; 45; 45; 114; 99; 45; 43; 98] /\
  reads [32; 43; 55; 120] 7 [120] /\ reads [45; 49] (2 ^ 64 - 1) [] /\ reads [49; 50; 45; 45; 114; 99; 45; 43; 98] 12 [45; 45; 114; 99; 45; 43; 98] /\
  tags [45; 45; 114; 99; 45; 43; 98] [114; 99] [98] /\
  ver_parse junk_heap s [0] = Ret (Ok (mkVersion 7 4294967295 12 [114; 99] [98])).
Proof.
  cbv zeta. split; [reflexivity|]. split; [split; [reflexivity|split; cbn; intuition discriminate]|].
  split; [left; exists [32], [43], [55]; split; [reflexivity|]; split; [repeat constructor; now right|]; split; [cbn; auto|]; split; [discriminate|]; split; [repeat constructor; discriminate|]; split; [cbn; unfold digit; lia|reflexivity]|].
  split; [left; exists [], [45], [49]; split; [reflexivity|]; split; [constructor|]; split; [cbn; auto|]; split; [discriminate|]; split; [repeat constructor; discriminate|]; split; [exact Logic.I|reflexivity]|].
  split; [left; exists [], [], [49; 50]; split; [reflexivity|]; split; [constructor|]; split; [cbn; auto|]; split; [discriminate|]; split; [repeat constructor; discriminate|]; split; [cbn; unfold digit; lia|reflexivity]|].
  split; [|vm_compute; reflexivity].
  right. exists [45; 45; 114; 99; 45]. split; [reflexivity|]. split; [cbn; intuition discriminate|]. split; [cbn; intuition discriminate|].
  exists [45; 45], [45]. split; [reflexivity|]. split; [repeat constructor|]. split; [repeat constructor|]. split; discriminate.
Qed.
