(** C34: dial strings. *)
From Verif Require Import Base BaseLemmas AtomModel AtomSpec AtomProps StringSpec StringViewModel StringViewProofs StringViewProps.
From Verif Require Import VersionModel VersionProofs DialModel.

Lemma trim_is s t : trimmed whitespace s t -> sv_trim s = Ret t.
Proof.
  intros T. destruct (C24_trim s) as (u & E & U & _). rewrite E. f_equal. eapply trimmed_unique; eauto.
Qed.
Lemma dial_rest ds i n ps : 3 <= i -> dial_fold (Ok ds) (indexed i n ps) = Ret (Ok ds).
Proof.
  revert i; induction ps as [|p ps IH]; intros i H; [reflexivity|]. cbn [indexed dial_fold dial_step].
  destruct (N.eqb_spec i 0), (N.eqb_spec i 1), (N.eqb_spec i 2); try lia. cbn [bind]. apply IH. lia.
Qed.
Lemma dial_err e ps : dial_fold (Err e) ps = Ret (Err e).
Proof. induction ps as [|[[p i] n] ps IH]; [reflexivity|]. exact IH. Qed.

(** The exact behaviour: the text is cut at every ':'; the first three pieces, without
    surrounding white space, become protocol, address and service. *)
Theorem C34_fields : forall fuel s, sv_ok s -> In 58 s -> (length s < fuel)%nat ->
  exists p0 p1 rest, splits [58] s (p0 :: p1 :: rest) /\
  forall t0 t1 t2, trimmed whitespace p0 t0 -> trimmed whitespace p1 t1 -> trimmed whitespace (nth 0 rest []) t2 ->
    ((8 < length t0)%nat -> dial_parse fuel s = Ret (Err E_InvalidInput)) /\
    ((length t0 <= 8)%nat -> exists a, tryParseAtom t0 = Ret (Ok a) /\ dial_parse fuel s = Ret (Ok (mkDial a t1 t2))).
Proof.
  intros fuel s L I F. destruct (split3_spec fuel [58] s L) as (ps & E & S); [discriminate|exact F|].
  pose proof (splits_char_count _ _ _ S) as C. assert (CI : (0 < count_occ N.eq_dec s 58%N)%nat) by now apply count_occ_In.
  destruct ps as [|p0 [|p1 rest]]; cbn [length] in C; try lia. exists p0, p1, rest. split; [exact S|]. intros t0 t1 t2 T0 T1 T2.
  assert (D : dial_parse fuel s = dial_fold (Ok (mkDial kProtocolNone s [])) (indexed 0 (u16 (N.of_nat (length (p0 :: p1 :: rest)))) (p0 :: p1 :: rest))).
  { unfold dial_parse. rewrite sv_empty_nil. destruct s as [|c s']; [contradiction|].
    destruct (C21_contains (c :: s') [] [58] [] 58 L) as (_ & b & Eb & Hb); [discriminate|]. rewrite Eb. cbn [bind].
    destruct b; [|apply Hb in I; discriminate]. rewrite E. reflexivity. }
  set (n := u16 _) in D. clearbody n.
  destruct (C15_accepts t0) as (A & B). split; intros H.
  - rewrite D. cbn [indexed dial_fold dial_step N.eqb]. rewrite (trim_is _ _ T0). cbn [bind]. destruct (B H) as (e & ->). cbn [bind]. apply dial_err.
  - destruct (A H) as (a & Ea). exists a. split; [exact Ea|]. rewrite D. cbn [indexed dial_fold dial_step]. change (0 =? 0) with true. cbv iota.
    rewrite (trim_is _ _ T0). cbn [bind]. rewrite Ea. cbn [bind d_address d_service dial_fold dial_step]. change (0 + 1 =? 0) with false. change (0 + 1 =? 1) with true.
    cbv iota. rewrite (trim_is _ _ T1). cbn [bind d_protocol d_service]. destruct rest as [|p2 rest]; cbn [nth] in T2; cbn [indexed dial_fold dial_step].
    + assert (t2 = []) as -> by (destruct T2 as (x & y & Q & _); symmetry in Q; apply app_eq_nil in Q as [_ Q]; now apply app_eq_nil in Q). reflexivity.
    + change (0 + 1 + 1 =? 0) with false. change (0 + 1 + 1 =? 1) with false. change (0 + 1 + 1 =? 2) with true. cbv iota.
      rewrite (trim_is _ _ T2). cbn [bind d_protocol d_address]. apply dial_rest. lia.
Qed.
Print Assumptions C34_fields.
(** Without ':' the whole text is the address; the empty text is rejected. *)
Theorem C34_address_only : forall fuel s, sv_ok s -> ~ In 58 s ->
  dial_parse fuel s = match s with [] => Ret (Err E_InvalidInput) | _ => Ret (Ok (mkDial kProtocolNone s [])) end.
Proof.
  intros fuel s L I. unfold dial_parse. rewrite sv_empty_nil. destruct s as [|c s']; [reflexivity|].
  destruct (C21_contains (c :: s') [] [58] [] 58 L) as (_ & b & Eb & Hb); [discriminate|]. rewrite Eb. cbn [bind].
  destruct b; [exfalso; apply I; now apply Hb|reflexivity].
Qed.
Print Assumptions C34_address_only.

(** Formatting the parts of a parsed dial string again gives the text, for
    protocol:address and protocol:address:service with a protocol of at most eight 7-bit
    characters and parts free of ':' and of surrounding white space. *)
Definition part (s : list N) : Prop := ~ In 58 s /\ trimmed whitespace s s.
Theorem C34_round_trip_partial : forall fuel pr ad sv, atom_text pr -> part pr -> part ad -> part sv ->
  let two := pr ++ 58 :: ad in let three := pr ++ 58 :: ad ++ 58 :: sv in
  sv_ok three -> (length three < fuel)%nat ->
  exists v, c_string (atomToString v) = pr /\
    dial_parse fuel two = Ret (Ok (mkDial v ad [])) /\ dial_parse fuel three = Ret (Ok (mkDial v ad sv)).
Proof.
  intros fuel pr ad sv A (P1 & P2) (A1 & A2) (S1 & S2) two three L F.
  destruct (C15_round_trip pr A) as (v & Ev & _ & _ & C). exists v. split; [exact C|].
  assert (L2 : sv_ok two) by (unfold sv_ok, two, three in *; rewrite !size_app, !size_cons in *; rewrite ?size_app, ?size_cons in *; lia).
  assert (F2 : (length two < fuel)%nat).
  { unfold two, three in *. rewrite app_length in *. cbn [length] in *. rewrite app_length in F. lia. }
  assert (N8 : (length pr <= 8)%nat) by apply A.
  assert (K : forall s ps, sv_ok s -> (length s < fuel)%nat -> In 58 s -> splits [58] s (pr :: ad :: ps) -> trimmed whitespace (nth 0 ps []) (nth 0 ps []) ->
    dial_parse fuel s = Ret (Ok (mkDial v ad (nth 0 ps [])))).
  { intros s ps Ls Fs Is Ss Ts. destruct (C34_fields fuel s Ls Is Fs) as (p0 & p1 & rest & S & H).
    pose proof (splits_det [58] s _ _ ltac:(discriminate) S Ss) as Q. injection Q as -> -> ->.
    destruct (H pr ad (nth 0 ps []) P2 A2 Ts) as (_ & (a & Ea & R)); [exact N8|]. rewrite Ev in Ea. injection Ea as <-. exact R. }
  assert (TE : trimmed whitespace [] []) by (exists [], []; repeat split; constructor). split.
  - apply (K two []); try assumption.
    + unfold two. apply in_app_iff. right. now left.
    + apply splits_char_cut; [assumption|]. now apply splits_char_none.
  - apply (K three [sv]); try assumption.
    + unfold three. apply in_app_iff. right. now left.
    + apply splits_char_cut; [assumption|]. apply splits_char_cut; [assumption|]. now apply splits_char_none.
Qed.
Print Assumptions C34_round_trip_partial.
(** Protocols longer than eight characters are rejected. *)
Theorem C34_long_protocol : forall fuel (pr rest : list N), ~ In 58 pr -> trimmed whitespace pr pr -> (8 < length pr)%nat ->
  sv_ok (pr ++ 58 :: rest) -> (length (pr ++ 58%N :: rest) < fuel)%nat ->
  dial_parse fuel (pr ++ 58 :: rest) = Ret (Err E_InvalidInput).
Proof.
  intros fuel pr rest P T H L F. assert (I : In 58 (pr ++ 58 :: rest)) by (apply in_app_iff; right; now left).
  destruct (C34_fields fuel _ L I F) as (p0 & p1 & r & S & K).
  assert (Lr : sv_ok rest) by (unfold sv_ok in *; rewrite size_app, size_cons in L; lia).
  destruct (split_char_spec 58 rest Lr) as (ps & _ & S'). pose proof (splits_char_cut 58 pr rest ps P S') as S2.
  pose proof (splits_det [58] _ _ _ ltac:(discriminate) S S2) as Q. injection Q as -> <-.
  destruct (C24_trim p1) as (t1 & _ & T1 & _). destruct (C24_trim (nth 0 r [])) as (t2 & _ & T2 & _).
  now apply (K pr t1 t2).
Qed.
Print Assumptions C34_long_protocol.

(** The atom of a three character protocol. *)
Definition be (a b c : N) : N := ((a * 256 + b) * 256 + c) * 2 ^ 40.

(** What is outside: further ':' separated pieces are dropped ("tcp:::1:80" loses address
    and port), white space is dropped, "localhost:80" is rejected, a protocol with an
    embedded NUL is accepted and truncated. *)
Theorem C34_refuted :
  dial_parse 99 [116; 99; 112; 58; 58; 58; 49; 58; 56; 48] = Ret (Ok (mkDial (be 116 99 112) [] [])) /\
  dial_parse 99 [116; 99; 112; 58; 97; 32] = Ret (Ok (mkDial (be 116 99 112) [97] [])) /\
  dial_parse 99 [108; 111; 99; 97; 108; 104; 111; 115; 116; 58; 56; 48] = Ret (Err E_InvalidInput) /\
  dial_parse 99 [116; 0; 112; 58; 97] = dial_parse 99 [116; 58; 97].
Proof. repeat (split; [vm_compute; reflexivity|]). vm_compute; reflexivity. Qed.
Print Assumptions C34_refuted.
Example C34_ok : atom_text [117; 100; 112] /\ part [49; 48; 46; 51] /\ part [53; 51] /\
  dial_parse 99 [117; 100; 112; 58; 49; 48; 46; 51; 58; 53; 51] = Ret (Ok (mkDial (be 117 100 112) [49; 48; 46; 51] [53; 51])).
Proof.
  assert (P : forall s c t, s = c :: t -> ~ In 58 s -> ~ whitespace c -> ~ whitespace (last s 0) -> part s).
  { intros s c t E N1 W1 W2. split; [exact N1|]. exists [], []. rewrite app_nil_r. split; [reflexivity|]. repeat split; try constructor. rewrite E in *. auto. }
  split; [split; [cbn; lia|repeat constructor]|]. split; [|split].
  - eapply P; [reflexivity| | |]; unfold whitespace; cbn; lia.
  - eapply P; [reflexivity| | |]; unfold whitespace; cbn; lia.
  - vm_compute; reflexivity.
Qed.
