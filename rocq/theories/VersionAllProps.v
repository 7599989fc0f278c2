(** C146: the order of any versions, the text of versions with tags of any length, and what
    is read back from it. *)
From Verif Require Import Base BaseLemmas LexSpec LexProofs StringSpec StringModel StringProofs StringViewModel StringViewProofs BuilderModel BuilderSpec BuilderProofs.
From Verif Require Import FmtModel FmtSpec FmtProofs VersionModel VersionSpec VersionProofs VersionProps ParseSpec ParseProofs.
Notation length := List.length.

(** ** Order *)
(** operator< is "not after": smaller numbers, or the same ones. *)
Theorem C146_lt : forall a b, ver_lt a b = true <-> lex_lt (numbers a) (numbers b) \/ numbers a = numbers b.
Proof.
  intros a b. unfold ver_lt. rewrite negb_true_iff. destruct (lex_total (numbers a) (numbers b)) as [X|[X|X]].
  - split; [auto|]. intros _. destruct (ver_gt a b) eqn:E; [|reflexivity]. apply C32_gt in E. now apply lex_asym in E.
  - split; [auto|]. intros _. destruct (ver_gt a b) eqn:E; [|reflexivity]. apply C32_gt in E. rewrite X in E. now apply lex_irrefl in E.
  - apply C32_gt in X as E. split; [congruence|]. intros [Y|Y]; [now apply lex_asym in Y|]. rewrite Y in X. now apply lex_irrefl in X.
Qed.
Print Assumptions C146_lt.
(** So it is a total preorder, > is its strict part, and two versions are each smaller than
    the other iff they have the same numbers; == also compares the pre-release tags. *)
Theorem C146_preorder :
  (forall a, ver_lt a a = true) /\
  (forall a b c, ver_lt a b = true -> ver_lt b c = true -> ver_lt a c = true) /\
  (forall a b, ver_lt a b = true \/ ver_lt b a = true) /\
  (forall a b, ver_lt a b = true /\ ver_lt b a = true <-> numbers a = numbers b) /\
  (forall a b, ver_gt a b = true <-> ver_lt b a = true /\ ver_lt a b = false) /\
  (forall a b, ver_equals a b = true <-> ver_lt a b = true /\ ver_lt b a = true /\ v_pre a = v_pre b).
Proof.
  assert (B : forall a b, ver_lt a b = true /\ ver_lt b a = true <-> numbers a = numbers b).
  { intros a b. rewrite !C146_lt. split; [|intros ->; auto]. intros [[X|X] [Y|Y]]; try congruence. now apply (lex_asym _ _ X) in Y. }
  split; [intros a; apply C146_lt; auto|]. split.
  { intros a b c. rewrite !C146_lt. intros [X|X] [Y|Y]; rewrite ?X, <- ?Y; auto. left. eapply lex_trans; eauto. }
  split. { intros a b. rewrite !C146_lt. destruct (lex_total (numbers a) (numbers b)) as [X|[X|X]]; auto. }
  split; [exact B|]. split.
  - intros a b. unfold ver_lt at 2. rewrite negb_false_iff. split; [|tauto]. intros H. split; [|exact H]. apply C146_lt. left. now apply C32_gt.
  - intros a b. rewrite C32_equals, <- B. tauto.
Qed.
Print Assumptions C146_preorder.

(** ** Text *)
Lemma version_text_is v t : version_text v t <-> t = dec (v_major v) ++ 46 :: dec (v_minor v) ++ 46 :: dec (v_patch v) ++ tail_text (v_pre v) (v_build v).
Proof.
  split.
  - intros (a & b & c & A & B & C & ->). now rewrite (decimal_unique _ _ _ A (dec_spec _)), (decimal_unique _ _ _ B (dec_spec _)), (decimal_unique _ _ _ C (dec_spec _)).
  - intros ->. exists (dec (v_major v)), (dec (v_minor v)), (dec (v_patch v)). repeat (split; [apply dec_spec|]). reflexivity.
Qed.

(** Without memory the text is empty; otherwise it is MAJOR.MINOR.PATCH[-pre][+build], or as
    much of it as its length modulo 2^16 says. *)
Theorem C146_text : forall host_be alloc v t, heap_ok alloc -> version_ok v -> version_text v t ->
  match alloc (size t + 1) with
  | Ok _ => exists st, ver_toString host_be alloc v = Ret st /\ str_view st = firstn (N.to_nat (size t mod 2 ^ 16)) t
  | Err _ => ver_toString host_be alloc v = Ret (mkStr [] 0)
  end.
Proof.
  intros host_be alloc v t HO (O1 & O2 & O3 & O4 & O5) VT. apply version_text_is in VT. unfold ver_toString.
  assert (L : size t < 2 ^ 18).
  { pose proof (dec_size (v_major v)). pose proof (dec_size (v_minor v)). pose proof (dec_size (v_patch v)).
    rewrite VT. unfold tail_text. rewrite !size_app, !size_cons, !size_app, !size_cons, !size_app. change (2 ^ 18) with 262144. change (2 ^ 16) with 65536 in *.
    destruct (v_pre v), (v_build v); cbn [tagged]; rewrite ?(@size_nil N), ?size_cons in *; lia. }
  assert (BS : ver_bufferSize v = size t + 1).
  { unfold ver_bufferSize, sb_measure. rewrite VT. unfold tail_text. rewrite !size_app, !size_cons, !size_app, !size_cons, !size_app, !sv_empty_nil.
    pose proof (dec_size (v_major v)). pose proof (dec_size (v_minor v)). pose proof (dec_size (v_patch v)).
    unfold u16. rewrite !N.mod_small by lia. destruct (v_pre v), (v_build v); cbn [tagged]; rewrite ?(@size_nil N), ?size_cons; lia. }
  rewrite BS. destruct (alloc (size t + 1)) as [b|e] eqn:E; [|reflexivity]. apply HO in E. rewrite toString_pieces.
  assert (F : Forall piece_ok (ver_pieces v)).
  { unfold ver_pieces. rewrite !Forall_app. split; [|split].
    - repeat apply Forall_cons; try apply Forall_nil; cbn [piece_ok]; try lia; reflexivity.
    - destruct (sv_empty (v_pre v)); [constructor|]. apply Forall_cons; [reflexivity|]. apply Forall_cons; [exact O4|constructor].
    - destruct (sv_empty (v_build v)); [constructor|]. apply Forall_cons; [reflexivity|]. apply Forall_cons; [exact O5|constructor]. }
  assert (L64 : size b < 2 ^ 64). { rewrite E. change (2 ^ 18) with 262144 in L. change (2 ^ 64) with 18446744073709551616. lia. }
  destruct (appends_spec host_be (size b) (ver_pieces v) (sb_make b) [] (holds_make b L64) F) as (w & EW & K).
  rewrite accumulate_total in K by (rewrite ver_pieces_text, <- VT; lia). rewrite ver_pieces_text, <- VT in K.
  rewrite EW. cbn [bind]. eexists. split; [reflexivity|]. unfold sb_build. cbn [fst].
  pose proof K as (A & B & C & D & X & P). unfold str_view. cbn [st_buf st_size]. unfold sb_length, u16. rewrite C, <- ntake_firstn.
  assert (LM : size t mod 2 ^ 16 <= size t) by (apply N.mod_le; discriminate).
  rewrite <- P at 3. rewrite ntake_ntake. f_equal. lia.
Qed.
Print Assumptions C146_text.

(** ** Reading back *)
(** A version whose text has fewer than 2^16 characters is read back with its numbers, and
    with the tags its tail is taken for; it is refused if two plus signs are in the tail. *)
Theorem C146_read_back : forall host_be alloc v t, heap_total alloc -> version_ok v -> version_text v t -> size t < 2 ^ 16 ->
  let tail := tagged 45 (v_pre v) ++ tagged 43 (v_build v) in
  exists st, ver_toString host_be alloc v = Ret st /\
  (forall pre build, tags tail pre build -> ver_parse_string alloc st = Ret (Ok (mkVersion (v_major v) (v_minor v) (v_patch v) pre build))) /\
  ((2 <= count_occ N.eq_dec tail 43%N)%nat -> ver_parse_string alloc st = Ret (Err E_InvalidInput)) /\
  ((exists pre build, tags tail pre build) \/ (2 <= count_occ N.eq_dec tail 43%N)%nat).
Proof.
  intros host_be alloc v t T O VT L tail. apply version_text_is in VT. subst t. destruct (toString_spec host_be alloc v T O L) as (st & E & V & S).
  exists st. split; [exact E|]. destruct O as (O1 & O2 & O3 & _).
  assert (PF : ver_parse_string alloc st = if sv_empty tail then Ret (Ok (mkVersion (v_major v) (v_minor v) (v_patch v) [] [])) else
    let! tp := sv_split_char 43 tail in
    let! tags := ver_tags alloc 0 (fst tp) [] [] in
    match tags with
    | Err e => Ret (Err e)
    | Ok (i, pre, build) => if (2 <? i)%nat then Ret (Err E_InvalidInput) else Ret (Ok (mkVersion (v_major v) (v_minor v) (v_patch v) pre build))
    end).
  { unfold ver_parse_string. rewrite V. apply parse_front; auto using dec_spec. }
  rewrite PF. clear PF.
  assert (Lr : sv_ok tail). { unfold sv_ok. change (tail_text (v_pre v) (v_build v)) with tail in L. rewrite !size_app, !size_cons, !size_app, !size_cons, !size_app in L. lia. }
  split; [|split; [|apply tags_or_many]].
  - intros pre build G. rewrite sv_empty_nil. destruct tail as [|k r].
    + destruct G as [(_ & (p & q & Q & _) & ->)|(p & Q & _)]; [|destruct p; discriminate].
      symmetry in Q. apply app_eq_nil in Q as (_ & Q). apply app_eq_nil in Q as (-> & _). reflexivity.
    + destruct (tags_parsed alloc _ pre build T Lr G) as (ps & n & i & E1 & E2 & Li). rewrite E1. cbn [bind fst]. rewrite E2. cbn [bind].
      destruct (Nat.ltb_spec 2 i); [lia|]. reflexivity.
  - intros G. rewrite sv_empty_nil. destruct tail as [|k r]; [cbn in G; lia|].
    destruct (tags_many alloc _ T Lr G) as (ps & n & i & p & q & E1 & E2 & Li). rewrite E1. cbn [bind fst]. rewrite E2. cbn [bind].
    destruct (Nat.ltb_spec 2 i); [reflexivity|lia].
Qed.
Print Assumptions C146_read_back.

Lemma trimmed_ends s t : trimmed (fun c => c = 45) s t -> hd 0 t <> 45 /\ last t 0 <> 45.
Proof. intros (a & b & _ & _ & _ & M). destruct t as [|c t]; [split; discriminate|exact M]. Qed.
Lemma tags_self v : tags (tagged 45 (v_pre v) ++ tagged 43 (v_build v)) (v_pre v) (v_build v) <-> tags_ok v.
Proof.
  unfold tags_ok. split.
  - destruct (v_build v) as [|y q] eqn:EB; cbn [tagged]; rewrite ?app_nil_r.
    + intros [(H & Tr & _)|(x & Q & X & B & Tr)].
      * destruct (trimmed_ends _ _ Tr) as [E1 E2]. split; [|split; [auto|split; [exact E1|exact E2]]]. destruct (v_pre v); [auto|]. cbn [tagged In] in H. tauto.
      * exfalso. destruct (v_pre v) as [|k p]; cbn [tagged] in Q; [destruct x; discriminate|].
        destruct Tr as (a & b & Q2 & _ & _ & M). destruct x as [|k' x]; [destruct a; discriminate|].
        assert (S1 : size (45 :: k :: p) = size ((k' :: x) ++ [43])) by now rewrite Q. rewrite Q2 in S1. rewrite !size_app, !size_cons in S1. change (size (@nil N)) with 0 in S1.
        assert (a = []) as -> by (destruct a; [reflexivity|rewrite size_cons in S1; lia]). assert (k' = 45) as -> by (cbn in Q; congruence).
        cbn in Q2. assert (45 = k) by congruence. destruct M as [M _]. congruence.
    + intros [(H & _)|(x & Q & X & B & Tr)]; [exfalso; apply H, in_or_app; right; now left|].
      assert (x = tagged 45 (v_pre v)) as ->.
      { clear - Q. revert Q. generalize (tagged 45 (v_pre v)). intros l Q. assert (S1 : length (l ++ 43 :: y :: q) = length (x ++ 43 :: y :: q)) by now rewrite Q.
        rewrite !app_length in S1. revert x Q S1. induction l as [|c l IH]; intros [|c' x] Q S1; cbn in *; try lia; [reflexivity|].
        assert (c = c') by congruence. subst c'. f_equal. apply IH; [congruence|lia]. }
      destruct (trimmed_ends _ _ Tr) as [E1 E2]. split; [|split; [exact B|split; [exact E1|exact E2]]]. destruct (v_pre v); [auto|]. cbn [tagged In] in X. tauto.
  - intros (P1 & P2 & P3 & P4).
    assert (Tr : trimmed (fun c => c = 45) (tagged 45 (v_pre v)) (v_pre v)).
    { destruct (v_pre v) as [|k p]; cbn [tagged]; [exists [], []; repeat split; constructor|]. exists [45], []. rewrite app_nil_r. split; [reflexivity|]. split; [repeat constructor|]. split; [constructor|]. split; [exact P3|exact P4]. }
    assert (N1 : ~ In 43 (tagged 45 (v_pre v))). { destruct (v_pre v); cbn [tagged In] in *; [auto|]. intros [D|D]; [discriminate|auto]. }
    destruct (v_build v) as [|y q]; cbn [tagged]; rewrite ?app_nil_r; [left; auto|]. right. exists (tagged 45 (v_pre v)). auto.
Qed.
(** A version is read back from its text iff no plus sign is in its tags and the
    pre-release tag neither begins nor ends with a dash. *)
Theorem C146_round_trip : forall host_be alloc v t, heap_total alloc -> version_ok v -> version_text v t -> size t < 2 ^ 16 ->
  (exists st, ver_toString host_be alloc v = Ret st /\ ver_parse_string alloc st = Ret (Ok v)) <->
  ~ In 43 (v_pre v) /\ ~ In 43 (v_build v) /\ hd 0 (v_pre v) <> 45 /\ last (v_pre v) 0 <> 45.
Proof.
  intros host_be alloc v t T O VT L. destruct (C146_read_back host_be alloc v t T O VT L) as (st & E & P & R & D). fold (tags_ok v). rewrite <- tags_self. split.
  - intros (st' & E' & Q). assert (st' = st) as -> by congruence. destruct D as [(p & b & G)|G].
    + rewrite (P p b G) in Q. assert (mkVersion (v_major v) (v_minor v) (v_patch v) p b = v) as EV by congruence.
      assert (v_pre v = p) as E1 by (rewrite <- EV; reflexivity). assert (v_build v = b) as E2 by (rewrite <- EV; reflexivity). rewrite E1, E2 in *. exact G.
    + rewrite (R G) in Q. discriminate.
  - intros G. exists st. split; [exact E|]. rewrite (P _ _ G). now destruct v.
Qed.
Print Assumptions C146_round_trip.
(** Reading is a retraction: what is read from the text of any version is read back. *)
Theorem C146_stable : forall host_be alloc v t v', heap_total alloc -> version_ok v -> version_text v t -> size t < 2 ^ 16 ->
  (exists st, ver_toString host_be alloc v = Ret st /\ ver_parse_string alloc st = Ret (Ok v')) ->
  numbers v' = numbers v /\ tags_ok v'.
Proof.
  intros host_be alloc v t v' T O VT L (st' & E' & Q). destruct (C146_read_back host_be alloc v t T O VT L) as (st & E & P & R & D).
  assert (st' = st) as -> by congruence. destruct D as [(p & b & G)|G]; [|rewrite (R G) in Q; discriminate].
  rewrite (P p b G) in Q. assert (v' = mkVersion (v_major v) (v_minor v) (v_patch v) p b) as -> by congruence. split; [reflexivity|].
  unfold tags_ok. cbn [v_pre v_build]. destruct G as [(H & Tr & ->)|(x & Q2 & X & B & Tr)]; destruct (trimmed_ends _ _ Tr) as [E1 E2].
  - split; [|split; [auto|split; assumption]]. destruct Tr as (a & c & Q3 & _). intros I. apply H. rewrite Q3. apply in_or_app. right. apply in_or_app. now left.
  - split; [|split; [exact B|split; assumption]]. destruct Tr as (a & c & -> & _). intros I. apply X. apply in_or_app. right. apply in_or_app. now left.
Qed.
Print Assumptions C146_stable.
(** 1.2.3 with the pre-release tag "a+b" is read back with the build tag "b". *)
Example C146_case : let v := mkVersion 1 2 3 [97; 43; 98] [] in
  version_ok v /\ version_text v [49; 46; 50; 46; 51; 45; 97; 43; 98] /\ ~ tags_ok v /\
  tags [45; 97; 43; 98] [97] [98] /\
  ver_lt (mkVersion 1 2 3 [97] []) (mkVersion 1 2 3 [98] []) = true /\ ver_lt (mkVersion 1 2 3 [98] []) (mkVersion 1 2 3 [97] []) = true.
Proof.
  cbv zeta. split; [repeat split; reflexivity|]. split; [apply version_text_is; vm_compute; reflexivity|]. split; [intros (H & _); apply H; cbn; auto|].
  split; [|split; reflexivity]. right. exists [45; 97]. split; [reflexivity|]. split; [cbn; intuition discriminate|]. split; [cbn; intuition discriminate|].
  exists [45], []. split; [reflexivity|]. split; [repeat constructor|]. split; [constructor|]. split; discriminate.
Qed.
