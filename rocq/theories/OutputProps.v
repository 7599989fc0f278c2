(** C85, C86, C91: texts sent to a stream. *)
From Coq Require Import String.
From Verif Require Import Base BaseLemmas MemoryModel AtomModel AtomSpec AtomProps StringSpec StringViewModel StringViewProofs StringViewProps.
From Verif Require Import VersionModel VersionProofs DialModel DialProps MemViewModel ByteIOModel ByteIOSpec Base16Model Base16Spec Base16Proofs Base16Props.
From Verif Require Import FmtModel FmtSpec FmtProofs ExceptionModel ExceptionSpec ExceptionProofs ErrorModel ErrorProps OutputModel.
Open Scope N_scope.
Notation length := List.length.

(** ** C85 *)
Lemma digest_pairs bs : bytes_ok bs -> exists ps, b16_encode_iter bs = Ret ps /\
  ps = map (fun b => [hex_digit (b / 16); hex_digit (b mod 16)]) bs.
Proof.
  induction 1 as [|b t B _ (ps & E & P)]; [eexists; split; reflexivity|]. cbn [b16_encode_iter].
  rewrite b16_pair_spec by exact B. cbn [bind]. rewrite E. cbn [bind]. eexists. split; [reflexivity|]. cbn. now rewrite P.
Qed.

(** A memory view prints as its bytes in hexadecimal, the empty one as "<null>". *)
Theorem C85_view : forall bs, bytes_ok bs ->
  out_view bs = Ret (match bs with [] => lit "<null>" | _ => hex_text bs end).
Proof.
  intros bs B. unfold out_view. destruct bs as [|b t]; [reflexivity|].
  rewrite (proj2 (N.eqb_neq (size (b :: t)) 0)) by (rewrite size_cons; lia).
  destruct (b16_encode_iter_spec _ B) as (ps & -> & <-). reflexivity.
Qed.
Print Assumptions C85_view.
(** Printing loses nothing: views that print alike have the same bytes, *)
Theorem C85_view_injective : forall bs bs' t, bytes_ok bs -> bytes_ok bs' ->
  out_view bs = Ret t -> out_view bs' = Ret t -> bs = bs'.
Proof.
  intros bs bs' t B B' E E'. rewrite C85_view in E by exact B. rewrite C85_view in E' by exact B'.
  assert (X : forall l, bytes_ok l -> hex_text l <> lit "<null>").
  { intros l L Q. pose proof (hex_value_text l L) as V. rewrite Q in V. discriminate V. }
  assert (Q : match bs with [] => lit "<null>" | _ => hex_text bs end = match bs' with [] => lit "<null>" | _ => hex_text bs' end) by congruence.
  destruct bs as [|b l], bs' as [|b' l']; [reflexivity| | |].
  - exfalso. now apply (X _ B').
  - exfalso. now apply (X _ B).
  - pose proof (hex_value_text _ B) as V. rewrite Q, hex_value_text in V by exact B'. congruence.
Qed.
Print Assumptions C85_view_injective.
(** and the Base16 decoder gives the bytes back. *)
Theorem C85_view_decodes : forall bs t w, bytes_ok bs -> bs <> [] -> out_view bs = Ret t -> writer_ok w -> w_pos w + size bs <= w_lim w ->
  b16_decode w t = Ret (Ok tt, appended w bs).
Proof.
  intros bs t w B NE E I F. rewrite C85_view in E by exact B. destruct bs as [|b l]; [congruence|].
  assert (Q : t = hex_text (b :: l)) by congruence. rewrite Q. now apply C09_decode_encode.
Qed.
Print Assumptions C85_view_decodes.

(** A digest prints as "[", "0x" and two digits for every byte, and "]". *)
Theorem C85_digest : forall bs, bytes_ok bs ->
  out_digest bs = Ret (lit "[" ++ flat_map (fun b => lit "0x" ++ hex_text [b]) bs ++ lit "]").
Proof.
  intros bs B. unfold out_digest. destruct (digest_pairs bs B) as (ps & -> & ->). cbn [bind]. repeat f_equal.
  clear B. induction bs as [|b t IH]; [reflexivity|]. cbn [map flat_map]. now rewrite IH.
Qed.
Print Assumptions C85_digest.
Theorem C85_digest_injective : forall bs bs' t, bytes_ok bs -> bytes_ok bs' ->
  out_digest bs = Ret t -> out_digest bs' = Ret t -> bs = bs'.
Proof.
  intros bs bs' t B B' E E'. rewrite C85_digest in E by exact B. rewrite C85_digest in E' by exact B'.
  assert (Q : flat_map (fun b => lit "0x" ++ hex_text [b]) bs ++ lit "]" = flat_map (fun b => lit "0x" ++ hex_text [b]) bs' ++ lit "]").
  { rewrite <- E' in E. injection E as E. exact E. }
  clear E E'. revert bs' B' Q. induction B as [|b l Hb _ IH]; intros [|b' l'] B' Q; [reflexivity|discriminate Q|discriminate Q|].
  inversion B'; subst. cbn [flat_map] in Q. rewrite <- !app_assoc in Q. apply app_inv_head in Q. cbn [hex_text flat_map app] in Q.
  injection Q as Q1 Q2 Q3. f_equal; [|now apply IH].
  unfold is_byte in *. assert (D : forall n m, n < 16 -> m < 16 -> hex_digit n = hex_digit m -> n = m).
  { intros n m Hn Hm H0. pose proof (digit_value_hex n Hn) as V. rewrite H0, digit_value_hex in V by exact Hm. congruence. }
  apply D in Q1; [|lia|lia]. apply D in Q2; [|lia|lia]. lia.
Qed.
Print Assumptions C85_digest_injective.
Example C85_case : out_view [0; 255] = Ret (lit "00ff") /\ out_digest [0; 255] = Ret (lit "[0x000xff]") /\ bytes_ok [0; 255].
Proof. split; [reflexivity|]. split; [reflexivity|]. repeat constructor. Qed.

(** A missing optional prints as "None", *)
Theorem C85_optional_partial : forall A (out : A -> outcome (list N)) o t, (forall x, out x <> Ret (lit "None")) ->
  out_optional out o = Ret t -> (o = None <-> t = lit "None") /\ (forall x, o = Some x -> out x = Ret t).
Proof.
  intros A out o t H E. destruct o as [x|]; cbn in E; split.
  - split; [discriminate|]. intros ->. now destruct (H x).
  - intros y [= <-]. exact E.
  - injection E as <-. tauto.
  - discriminate.
Qed.
Print Assumptions C85_optional_partial.
(** and two optionals are printed alike exactly when both are missing, both have values that are
    printed alike, or one is missing and the value of the other is printed as "None", *)
Theorem C85_optional_alike : forall A (out : A -> outcome (list N)) o o',
  out_optional out o = out_optional out o' <->
  match o, o' with
  | None, None => True
  | Some x, Some y => out x = out y
  | Some x, None | None, Some x => out x = Ret [78; 111; 110; 101]
  end.
Proof. intros A out [x|] [y|]; cbn; split; intros H; auto. Qed.
Print Assumptions C85_optional_alike.
(** which a text may be, too. *)
Theorem C85_optional_refuted : out_optional (fun s => Ret (out_text s)) (Some (lit "None")) = out_optional (fun s => Ret (out_text s)) None.
Proof. reflexivity. Qed.
Print Assumptions C85_optional_refuted.

(** ** Atoms through the buffer *)
Lemma read_cstr_zero s k : Forall (fun c => c <> 0) s -> read_cstr (s ++ repeat 0 (S k)) = Ret s.
Proof.
  induction 1 as [|c t H _ IH]; [reflexivity|]. cbn [app read_cstr]. rewrite (proj2 (N.eqb_neq c 0) H), IH. reflexivity.
Qed.
Lemma out_atom_spec szt s v : 8 <= szt -> atom_text s -> tryParseAtom s = Ret (Ok v) -> out_atom szt v = Ret s.
Proof.
  intros Z A P. destruct (C15_round_trip s A) as (v' & P' & _ & T & _). rewrite P in P'. injection P' as <-.
  unfold out_atom. replace (size (atomToString v)) with 9 by reflexivity. rewrite (proj2 (N.leb_le 9 (szt + 1))) by lia.
  rewrite T. destruct A as (L & F). replace (9 - length s)%nat with (S (8 - length s)) by lia. apply read_cstr_zero.
  revert F. apply Forall_impl. intros c. lia.
Qed.
Lemma out_atom_short szt v : szt < 8 -> out_atom szt v = UB.
Proof.
  intros Z. unfold out_atom. replace (size (atomToString v)) with 9 by reflexivity.
  rewrite (proj2 (N.leb_gt 9 (szt + 1))) by lia. reflexivity.
Qed.

(** ** C86 *)
(** A dial string prints as protocol:address or protocol:address:service. *)
Theorem C86_text_partial : forall szt pr v ad sv, 8 <= szt -> atom_text pr -> tryParseAtom pr = Ret (Ok v) ->
  out_dial szt (mkDial v ad sv) = Ret (pr ++ 58 :: ad ++ match sv with [] => [] | _ => 58 :: sv end).
Proof.
  intros szt pr v ad sv Z A P. unfold out_dial. cbn [d_protocol d_address d_service]. rewrite (out_atom_spec szt pr v Z A P). cbn [bind].
  change (lit ":") with [58]. destruct sv as [|c t].
  - replace (size (@nil N) =? 0) with true by reflexivity. now rewrite app_nil_r.
  - rewrite (proj2 (N.eqb_neq (size (c :: t)) 0)) by (rewrite size_cons; lia). cbn [app]. now rewrite <- app_assoc.
Qed.
Print Assumptions C86_text_partial.

(** A text with the given parts is read as these parts. *)
Lemma dial_parse_parts fuel pr ad sv v : atom_text pr -> tryParseAtom pr = Ret (Ok v) -> part pr -> part ad -> part sv ->
  let t := pr ++ 58 :: ad ++ match sv with [] => [] | _ => 58 :: sv end in
  sv_ok t -> (length t < fuel)%nat -> dial_parse fuel t = Ret (Ok (mkDial v ad sv)).
Proof.
  intros A P (P1 & P2) (A1 & A2) (S1 & S2) t K F. assert (I : In 58 t) by (apply in_app_iff; right; now left).
  assert (S : splits [58] t (pr :: ad :: match sv with [] => [] | _ => [sv] end)).
  { unfold t. apply splits_char_cut; [exact P1|]. destruct sv as [|c l].
    - rewrite app_nil_r. now apply splits_char_none.
    - apply splits_char_cut; [exact A1|]. now apply splits_char_none. }
  destruct (C34_fields fuel t K I F) as (p0 & p1 & rest & S' & H).
  pose proof (splits_det [58] _ _ _ ltac:(discriminate) S' S) as Q. injection Q as -> -> ->.
  destruct (H pr ad sv P2 A2) as (_ & H2). { destruct sv; exact S2. }
  destruct (H2 (proj1 A)) as (a & Ea & Ep). rewrite P in Ea. injection Ea as <-. exact Ep.
Qed.

(** What was printed is read back as the same dial string, when the parts are free of ':'
    and of white space at their ends. *)
Theorem C86_round_trip_partial : forall szt fuel pr v ad sv t, 8 <= szt ->
  atom_text pr -> tryParseAtom pr = Ret (Ok v) -> part pr -> part ad -> part sv -> size ad + size sv < 65000 ->
  out_dial szt (mkDial v ad sv) = Ret t -> (length t < fuel)%nat -> dial_parse fuel t = Ret (Ok (mkDial v ad sv)).
Proof.
  intros szt fuel pr v ad sv t Z A P Pp Pa Ps L E F. rewrite (C86_text_partial szt pr v ad sv Z A P) in E. injection E as <-.
  apply (dial_parse_parts fuel pr ad sv v A P Pp Pa Ps); [|exact F].
  unfold sv_ok. pose proof A as (L8 & _). rewrite size_app, size_cons, size_app.
  destruct sv; rewrite ?size_cons in *; unfold size in *; cbn [length] in *; lia.
Qed.
Print Assumptions C86_round_trip_partial.
Example C86_case : exists v, tryParseAtom (lit "udp") = Ret (Ok v) /\ atom_text (lit "udp") /\ part (lit "udp") /\
  part (lit "10.3") /\ part (lit "53") /\ out_dial 8 (mkDial v (lit "10.3") (lit "53")) = Ret (lit "udp:10.3:53").
Proof.
  eexists. split; [vm_compute; reflexivity|]. assert (T : forall s c l, s = c :: l -> ~ whitespace c -> ~ whitespace (last s 0) -> trimmed whitespace s s).
  { intros s c l -> H1 H2. exists [], []. rewrite app_nil_r. repeat split; try constructor; assumption. }
  assert (W : forall c, 32 < c -> ~ whitespace c) by (intros c H I; unfold whitespace in I; cbn in I; lia).
  split; [split; [cbn; lia|repeat constructor; lia]|].
  assert (Q : forall s c l, s = c :: l -> ~ In 58 s -> 32 < c -> 32 < last s 0 -> part s).
  { intros s c l E H1 H2 H3. split; [exact H1|]. eapply T; [exact E|now apply W|now apply W]. }
  split; [eapply Q; [reflexivity|cbn; intuition discriminate|reflexivity|reflexivity]|].
  split; [eapply Q; [reflexivity|cbn; intuition discriminate|reflexivity|reflexivity]|].
  split; [eapply Q; [reflexivity|cbn; intuition discriminate|reflexivity|reflexivity]|]. vm_compute; reflexivity.
Qed.

(** Parsing, printing and parsing again is parsing once: for every text of 7-bit
    characters with a ':', *)
Theorem C86_stable_partial : forall szt fuel s ds, 8 <= szt -> plain s -> sv_ok s -> In 58 s -> (length s < fuel)%nat ->
  dial_parse fuel s = Ret (Ok ds) -> exists t, out_dial szt ds = Ret t /\ (length t <= length s)%nat /\ dial_parse fuel t = Ret (Ok ds).
Proof.
  intros szt fuel s ds Z P K I F E. destruct (C34_fields fuel s K I F) as (p0 & p1 & rest & S & H).
  destruct (C24_trim p0) as (t0 & _ & T0 & _). destruct (C24_trim p1) as (t1 & _ & T1 & _). destruct (C24_trim (nth 0 rest [])) as (t2 & _ & T2 & _).
  destruct (H t0 t1 t2 T0 T1 T2) as (H1 & H2). destruct (Nat.le_gt_cases (length t0) 8) as [L8|L8]; [|rewrite H1 in E by exact L8; discriminate].
  destruct (H2 L8) as (a & A & E2). rewrite E in E2. injection E2 as ->.
  pose proof (splits_glue _ _ _ S) as G. pose proof (splits_free [58] _ _ ltac:(discriminate) S) as Fr.
  assert (Fr' : forall p, In p (p0 :: p1 :: rest) -> ~ In 58 p).
  { intros p Ip J. rewrite Forall_forall in Fr. apply in_split in J as (x & y & ->). apply (Fr _ Ip (N.of_nat (length x))). now exists x, y. }
  assert (Sub : forall p t, trimmed whitespace p t -> ~ In 58 p -> part t).
  { intros p t T N0. split; [|eapply trimmed_self; eassumption]. destruct T as (x & y & -> & _). intros J. apply N0. rewrite !in_app_iff. tauto. }
  assert (Len : forall p t, trimmed whitespace p t -> (length t <= length p)%nat).
  { intros p t (x & y & -> & _). rewrite !app_length. lia. }
  assert (N2 : ~ In 58 (nth 0 rest [])). { destruct rest as [|p2 r]; [intros []|]. apply Fr'. right. right. now left. }
  assert (At : atom_text t0).
  { split; [exact L8|]. destruct T0 as (x & y & -> & _). unfold plain in P. rewrite <- G in P. cbn [glue] in P.
    apply Forall_app in P as (P & _). rewrite !Forall_app in P. tauto. }
  exists (t0 ++ 58 :: t1 ++ match t2 with [] => [] | _ => 58 :: t2 end). split; [now apply C86_text_partial|].
  assert (Ln : (length (t0 ++ 58%N :: t1 ++ match t2 with [] => [] | _ => 58%N :: t2 end) <= length s)%nat).
  { rewrite <- G. apply Len in T0, T1, T2. destruct rest as [|p2 r]; cbn [nth] in T2.
    - destruct t2; [|cbn in T2; lia]. cbn [glue]. rewrite app_nil_r, !app_length. cbn [List.length app]. lia.
    - change (glue [58] (p0 :: p1 :: p2 :: r)) with (p0 ++ [58] ++ p1 ++ [58] ++ glue [58] (p2 :: r)).
      assert (length p2 <= length (glue [58%N] (p2 :: r)))%nat by (destruct r; cbn [glue]; rewrite ?app_length; lia).
      revert H0. generalize (glue [58] (p2 :: r)). intros g Hg. rewrite !app_length. cbn [List.length]. rewrite !app_length. destruct t2; cbn [List.length] in *; lia. }
  split; [exact Ln|]. apply (dial_parse_parts fuel t0 t1 t2 a); auto.
  - apply (Sub p0); [exact T0|apply Fr'; now left].
  - apply (Sub p1); [exact T1|apply Fr'; right; now left].
  - apply (Sub _ _ T2 N2).
  - unfold sv_ok, size in *. lia.
  - lia.
Qed.
Print Assumptions C86_stable_partial.
(** and for an address alone without white space at its ends. *)
Theorem C86_stable_address_partial : forall szt fuel s ds, 8 <= szt -> part s -> size s < 65000 -> (length s + 1 < fuel)%nat ->
  dial_parse fuel s = Ret (Ok ds) -> out_dial szt ds = Ret (58 :: s) /\ dial_parse fuel (58 :: s) = Ret (Ok ds).
Proof.
  intros szt fuel s ds Z P L F E. rewrite C34_address_only in E; [|unfold sv_ok; lia|apply P].
  assert (X : ds = mkDial kProtocolNone s []) by (destruct s; congruence). subst ds. clear E.
  assert (At : atom_text []) by (split; [cbn; lia|constructor]).
  assert (Pe : part []). { split; [intros []|]. exists [], []. repeat split; constructor. }
  assert (T : out_dial szt (mkDial kProtocolNone s []) = Ret (58 :: s)).
  { rewrite (C86_text_partial szt [] kProtocolNone s []) by (assumption || reflexivity). cbn [app]. now rewrite app_nil_r. }
  split; [exact T|]. rewrite <- (app_nil_r s) at 1. apply (dial_parse_parts fuel [] s [] kProtocolNone); auto.
  - unfold sv_ok. cbn [app]. rewrite size_cons, app_nil_r. lia.
  - cbn [app length]. rewrite app_nil_r. lia.
Qed.
Print Assumptions C86_stable_address_partial.

(** Elsewhere it fails: a service or an address with a ':' comes back cut, and an address
    alone loses its outer blanks. *)
Theorem C86_refuted : forall v, tryParseAtom (lit "tcp") = Ret (Ok v) ->
  out_dial 8 (mkDial v (lit "::1") (lit "80")) = Ret (lit "tcp:::1:80") /\
  dial_parse 99 (lit "tcp:::1:80") = Ret (Ok (mkDial v [] [])) /\
  dial_parse 99 (lit " host") = Ret (Ok (mkDial 0 (lit " host") [])) /\
  out_dial 8 (mkDial 0 (lit " host") []) = Ret (lit ": host") /\
  dial_parse 99 (lit ": host") = Ret (Ok (mkDial 0 (lit "host") [])).
Proof.
  intros v E. vm_compute in E. injection E as <-. repeat (split; [vm_compute; reflexivity|]). vm_compute; reflexivity.
Qed.
Print Assumptions C86_refuted.
(** Where size_t has fewer than eight bytes the buffer for the protocol is too small: every
    dial string overflows it. *)
Theorem C86_small_size_t_refuted : forall szt ds, szt < 8 -> out_dial szt ds = UB.
Proof. intros szt ds Z. unfold out_dial. now rewrite out_atom_short. Qed.
Print Assumptions C86_small_size_t_refuted.

(** ** C91 *)
(** What is printed for the domain of an error: the name the registered domain has, or the
    characters of the identifier. *)
Definition domain_text (name : N -> list N) (regs : list (N * N)) (e : err) (h : list N) : Prop :=
  match first_registered (e_domain e) regs with
  | Some d => h = name d
  | None => atom_text h /\ tryParseAtom h = Ret (Ok (e_domain e))
  end.
Definition message_text (message : N -> Z -> list N) (regs : list (N * N)) (e : err) : list N :=
  match first_registered (e_domain e) regs with Some d => message d (e_code e) | None => [] end.

(** An error prints as domain:code:message, followed by :tag if it has a tag. *)
Theorem C91_text_partial : forall szt name message regs, 8 <= szt < 2 ^ 32 -> (length regs <= 128)%nat ->
  exists ids r, register_all szt (autoRegisterDomainMap szt) regs = Ret (ids, r) /\
  forall e h c, domain_text name regs e h -> decimal_z (e_code e) c ->
    out_error szt name message r e =
      Ret (h ++ 58 :: c ++ 58 :: message_text message regs e ++ match e_tag e with [] => [] | _ => 58 :: e_tag e end).
Proof.
  intros szt name message regs Z L. destruct (C53_registry szt regs) as (ids & r & E & G & _); [lia|]. exists ids, r. split; [exact E|].
  intros e h c D C. apply decimal_decz in C. subst c. rewrite firstn_all2 in G by exact L. unfold out_error, message_text, domain_text in *.
  rewrite G. cbn [bind].
  assert (Tl : forall t, Ret (if size (e_tag e) =? 0 then t else t ++ lit ":" ++ e_tag e) = Ret (t ++ match e_tag e with [] => [] | _ => 58 :: e_tag e end)).
  { intros t. f_equal. destruct (e_tag e) as [|x y]; [symmetry; apply app_nil_r|].
    rewrite (proj2 (N.eqb_neq (size (x :: y)) 0)) by (rewrite size_cons; lia). reflexivity. }
  destruct (first_registered (e_domain e) regs) as [d|]; cbn [bind].
  - subst h. rewrite Tl. change (lit ":") with [58]. cbn [app]. rewrite <- ?app_assoc. cbn [app]. rewrite <- ?app_assoc. reflexivity.
  - destruct D as (A & P). rewrite (out_atom_spec szt h _) by (tauto || lia). cbn [bind]. rewrite Tl. change (lit ":") with [58]. cbn [app].
    rewrite <- ?app_assoc. cbn [app]. rewrite <- ?app_assoc. reflexivity.
Qed.
Print Assumptions C91_text_partial.

Lemma cut_eq (x : N) a r b s : ~ In x a -> ~ In x b -> a ++ x :: r = b ++ x :: s -> a = b /\ r = s.
Proof.
  revert b. induction a as [|y a IH]; intros [|z b] A B E; cbn in E.
  - injection E as ->. now split.
  - injection E as -> _. exfalso. apply B. now left.
  - injection E as -> _. exfalso. apply A. now left.
  - injection E as -> E. destruct (IH b) as (-> & ->); [firstorder|firstorder|exact E|]. now split.
Qed.
Lemma decz_no_colon z : ~ In 58 (decz z).
Proof.
  assert (D : forall v, ~ In 58 (dec v)). { intros v I. pose proof (dec_digits v) as F. rewrite Forall_forall in F. apply F in I. unfold digit in I. lia. }
  unfold decz. destruct (z <? 0)%Z; [intros [I|I]; [discriminate|]|intros I]; now apply D in I.
Qed.
Lemma decz_inj a b : decz a = decz b -> a = b.
Proof.
  assert (V : forall v, dec_value (dec v) = v) by (intros v; apply (dec_spec v)).
  assert (H : forall v, hd 0 (dec v) <> 45).
  { intros v. pose proof (dec_digits v) as F. pose proof (dec_pos v) as P. destruct (dec v); [cbn in P; lia|]. inversion F; subst. unfold digit in *. cbn. lia. }
  unfold decz. intros E. destruct (Z.ltb_spec a 0), (Z.ltb_spec b 0).
  - injection E as E. apply (f_equal dec_value) in E. rewrite !V in E. lia.
  - exfalso. apply (H (Z.to_N b)). now rewrite <- E.
  - exfalso. apply (H (Z.to_N a)). now rewrite E.
  - apply (f_equal dec_value) in E. rewrite !V in E. lia.
Qed.

(** Two errors that print alike are the same error, as long as the texts of their domains
    have no ':' and belong to one domain only. *)
Theorem C91_identifies_partial : forall szt name message regs, 8 <= szt < 2 ^ 32 -> (length regs <= 128)%nat ->
  exists ids r, register_all szt (autoRegisterDomainMap szt) regs = Ret (ids, r) /\
  forall e e' h h' t, domain_text name regs e h -> domain_text name regs e' h' -> ~ In 58 h -> ~ In 58 h' ->
    (h = h' -> e_domain e = e_domain e') ->
    out_error szt name message r e = Ret t -> out_error szt name message r e' = Ret t -> e = e'.
Proof.
  intros szt name message regs Z L. destruct (C91_text_partial szt name message regs Z L) as (ids & r & E & T). exists ids, r. split; [exact E|].
  intros e e' h h' t D D' N0 N1 U P P'. rewrite (T e h (decz (e_code e)) D) in P by apply decz_spec. rewrite (T e' h' (decz (e_code e')) D') in P' by apply decz_spec.
  rewrite <- P in P'. injection P' as Q. symmetry in Q. apply cut_eq in Q as (-> & Q); [|assumption|assumption].
  apply cut_eq in Q as (C & Q); [|apply decz_no_colon|apply decz_no_colon]. apply decz_inj in C. specialize (U eq_refl).
  assert (M : message_text message regs e = message_text message regs e') by (unfold message_text; now rewrite U, C).
  rewrite M in Q. apply app_inv_head in Q. destruct e as [c d tg], e' as [c' d' tg']. cbn in *. subst. f_equal. destruct tg, tg'; try discriminate; congruence.
Qed.
Print Assumptions C91_identifies_partial.
Example C91_case : exists dom, tryParseAtom (lit "net") = Ret (Ok dom) /\
  domain_text (fun _ => []) [] (mkErr (-7) dom (lit "read")) (lit "net") /\
  out_error 8 (fun _ => []) (fun _ _ => []) (mkRegistry (DictModel.dict_make 8 8 0 0) 0) (mkErr (-7) dom (lit "read")) = Ret (lit "net:-7::read").
Proof.
  eexists. split; [vm_compute; reflexivity|]. split; [split; [split; [cbn; lia|repeat constructor; lia]|vm_compute; reflexivity]|]. vm_compute; reflexivity.
Qed.
(** Where size_t has fewer than eight bytes, printing an error of a domain that is not
    registered overflows the buffer. *)
Theorem C91_small_size_t_refuted : forall szt name message regs, 0 < szt < 8 -> (length regs <= 128)%nat ->
  exists ids r, register_all szt (autoRegisterDomainMap szt) regs = Ret (ids, r) /\
  forall e, ~ In (e_domain e) (map fst regs) -> out_error szt name message r e = UB.
Proof.
  intros szt name message regs Z L. destruct (C53_found_iff szt regs) as (ids & r & E & G); [lia|exact L|]. exists ids, r. split; [exact E|].
  intros e H. unfold out_error. rewrite (proj2 (proj1 (G (e_domain e))) H). cbn [bind]. now rewrite out_atom_short.
Qed.
Print Assumptions C91_small_size_t_refuted.
(** Two domains with one name, or an identifier that spells a registered name, are not told
    apart. *)
Theorem C91_same_name_refuted : forall szt message, 8 <= szt < 2 ^ 32 -> exists a b, a <> b /\
  forall regs, regs = [(a, 1); (b, 2)] -> (forall z, message 1 z = message 2 z) ->
  exists ids r, register_all szt (autoRegisterDomainMap szt) regs = Ret (ids, r) /\
    exists t, out_error szt (fun _ => lit "net") message r (mkErr 1 a []) = Ret t /\ out_error szt (fun _ => lit "net") message r (mkErr 1 b []) = Ret t.
Proof.
  intros szt message Z. exists 7, 8. split; [discriminate|]. intros regs -> M.
  destruct (C91_text_partial szt (fun _ => lit "net") message [(7, 1); (8, 2)] Z) as (ids & r & E & T); [cbn; lia|]. exists ids, r. split; [exact E|].
  eexists. split; (rewrite (T _ (lit "net") (decz 1)); [|reflexivity|apply decz_spec]).
  - reflexivity.
  - unfold message_text. cbn. now rewrite M.
Qed.
Print Assumptions C91_same_name_refuted.
