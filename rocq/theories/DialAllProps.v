(** C142: dial strings of any bytes. *)
From Coq Require Import String.
From Verif Require Import Base BaseLemmas MemViewModel ByteIOModel ByteIOSpec AtomModel AtomSpec AtomProofs AtomProps AtomAllProps StringSpec StringViewModel StringViewProofs StringViewProps.
From Verif Require Import VersionModel VersionProofs DialModel DialProps ExceptionModel OutputModel OutputProps.
Open Scope N_scope.
Notation length := List.length.

(** The text of three parts: the service is left out if it is empty. *)
Definition dialled (pr ad sv : list N) : list N := pr ++ 58 :: ad ++ match sv with [] => [] | _ => 58 :: sv end.

Lemma atom_bytes v : bytes_ok (atomToString v) /\ length (atomToString v) = 9%nat /\ last (atomToString v) 1 = 0.
Proof. split; [|split; reflexivity]. repeat constructor; unfold is_byte, u8; try apply N.mod_lt; discriminate. Qed.
Lemma read_cstr_spec b : In 0 b -> read_cstr b = Ret (c_string b).
Proof.
  induction b as [|c b IH]; intros I; [destruct I|]. cbn [read_cstr c_string]. destruct (N.eqb_spec c 0) as [E|E]; [reflexivity|].
  destruct I as [I|I]; [congruence|]. now rewrite IH.
Qed.
Lemma atom_zero v : In 0 (atomToString v).
Proof. unfold atomToString, atom_unwrap. apply in_or_app. right. now left. Qed.
Lemma atom_short v : (length (c_string (atomToString v)) <= 8)%nat.
Proof.
  unfold atomToString, atom_unwrap. set (l := map _ _). assert (L : length l = 8%nat) by reflexivity. clearbody l. rewrite <- L. clear L.
  induction l as [|c l IH]; cbn; [lia|]. destruct (c =? 0); cbn; lia.
Qed.

(** Printing any dial string: the bytes of the protocol up to the first NUL, the address
    and the service. *)
Theorem C142_print : forall szt v ad sv, 8 <= szt ->
  out_dial szt (mkDial v ad sv) = Ret (dialled (c_string (atomToString v)) ad sv).
Proof.
  intros szt v ad sv Z. unfold out_dial, out_atom. cbn [d_protocol d_address d_service]. destruct (atom_bytes v) as (_ & L & _).
  destruct (N.leb_spec (size (atomToString v)) (szt + 1)) as [H|H]; [|unfold size in H; rewrite L in H; lia].
  rewrite read_cstr_spec by apply atom_zero. cbn [bind]. unfold dialled. change (lit ":") with [58]. destruct sv as [|c t].
  - change (size (@nil N) =? 0) with true. now rewrite (app_nil_r ad).
  - rewrite (proj2 (N.eqb_neq (size (c :: t)) 0)) by (rewrite size_cons; lia). cbn [app]. now rewrite <- app_assoc.
Qed.
Print Assumptions C142_print.

Lemma parse_parts fuel pr ad sv v : tryParseAtom pr = Ret (Ok v) -> part pr -> part ad -> part sv ->
  sv_ok (dialled pr ad sv) -> (length (dialled pr ad sv) < fuel)%nat -> dial_parse fuel (dialled pr ad sv) = Ret (Ok (mkDial v ad sv)).
Proof.
  intros P (P1 & P2) (A1 & A2) (S1 & S2) K F. set (t := dialled pr ad sv) in *. assert (I : In 58 t) by (apply in_app_iff; right; now left).
  assert (S : splits [58] t (pr :: ad :: match sv with [] => [] | _ => [sv] end)).
  { unfold t, dialled. apply splits_char_cut; [exact P1|]. destruct sv as [|c l].
    - rewrite app_nil_r. now apply splits_char_none.
    - apply splits_char_cut; [exact A1|]. now apply splits_char_none. }
  destruct (C34_fields fuel t K I F) as (p0 & p1 & rest & S' & H).
  pose proof (splits_det [58] _ _ _ ltac:(discriminate) S' S) as Q. injection Q as -> -> ->.
  destruct (H pr ad sv P2 A2) as (H1 & H2). { destruct sv; exact S2. }
  destruct (Nat.le_gt_cases (length pr) 8) as [L|L].
  - destruct (H2 L) as (a & Ea & Ep). rewrite P in Ea. injection Ea as <-. exact Ep.
  - exfalso. unfold tryParseAtom in P. destruct (N.ltb_spec 8 (size pr)) as [X|X]; [discriminate P|unfold size in X; lia].
Qed.

(** What the parts of a parsed text are. *)
Lemma parse_inv fuel s ds : bytes_ok s -> sv_ok s -> In 58 s -> (length s < fuel)%nat -> dial_parse fuel s = Ret (Ok ds) ->
  exists p0 r t0, s = p0 ++ 58 :: r /\ ~ In 58 p0 /\ trimmed whitespace p0 t0 /\ bytes_ok t0 /\ tryParseAtom t0 = Ret (Ok (d_protocol ds)) /\
    part (d_address ds) /\ part (d_service ds) /\
    (length (d_address ds) + (match d_service ds with [] => 0 | sv => 1 + length sv end) <= length r)%nat.
Proof.
  intros B K I F E. destruct (C34_fields fuel s K I F) as (p0 & p1 & rest & S & H).
  destruct (C24_trim p0) as (t0 & _ & T0 & _). destruct (C24_trim p1) as (t1 & _ & T1 & _). destruct (C24_trim (nth 0 rest [])) as (t2 & _ & T2 & _).
  destruct (H t0 t1 t2 T0 T1 T2) as (H1 & H2). destruct (Nat.le_gt_cases (length t0) 8) as [L8|L8]; [|rewrite H1 in E by exact L8; discriminate].
  destruct (H2 L8) as (a & A & E2). rewrite E in E2. injection E2 as ->. cbn [d_protocol d_address d_service].
  pose proof (splits_glue _ _ _ S) as G. pose proof (splits_free [58] _ _ ltac:(discriminate) S) as Fr.
  assert (Fr' : forall p, In p (p0 :: p1 :: rest) -> ~ In 58 p).
  { intros p Ip J. rewrite Forall_forall in Fr. apply in_split in J as (x & y & ->). apply (Fr _ Ip (N.of_nat (length x))). now exists x, y. }
  assert (Sub : forall p t, trimmed whitespace p t -> ~ In 58 p -> part t).
  { intros p t T N0. split; [|eapply trimmed_self; eassumption]. destruct T as (x & y & -> & _). intros J. apply N0. rewrite !in_app_iff. tauto. }
  assert (Len : forall p t, trimmed whitespace p t -> (length t <= length p)%nat).
  { intros p t (x & y & -> & _). rewrite !app_length. lia. }
  assert (N2 : ~ In 58 (nth 0 rest [])). { destruct rest as [|p2 r]; [intros []|]. apply Fr'. right. right. now left. }
  change (glue [58] (p0 :: p1 :: rest)) with (p0 ++ 58 :: glue [58] (p1 :: rest)) in G.
  exists p0, (glue [58] (p1 :: rest)), t0. split; [now symmetry|]. split; [apply Fr'; now left|]. split; [exact T0|]. split.
  { rewrite <- G in B. apply Forall_app in B as (B & _). destruct T0 as (x & y & -> & _). apply Forall_app in B as (_ & B). now apply Forall_app in B. }
  split; [exact A|]. split; [apply (Sub p1); [exact T1|apply Fr'; right; now left]|]. split; [apply (Sub _ _ T2 N2)|].
  apply Len in T1, T2. destruct rest as [|p2 r]; cbn [nth] in T2.
  - destruct t2; [|cbn in T2; lia]. cbn [glue]. lia.
  - change (glue [58] (p1 :: p2 :: r)) with (p1 ++ [58] ++ glue [58] (p2 :: r)).
    assert (length p2 <= length (glue [58%N] (p2 :: r)))%nat as G2 by (destruct r; cbn [glue]; rewrite ?app_length; lia).
    revert G2. generalize (glue [58] (p2 :: r)). intros g Hg. rewrite !app_length. cbn [length]. destruct t2; cbn [length] in *; lia.
Qed.

Lemma before_colon (p : list N) : forall q r s, p ++ 58 :: r = q ++ 58 :: s -> ~ In 58 p -> (length q <= length p)%nat -> p = q /\ r = s.
Proof.
  induction p as [|x p IH]; intros q r s E NI L; destruct q as [|y q]; cbn [app length] in *; try lia.
  - injection E as ->. auto.
  - injection E as -> _. destruct NI. now left.
  - injection E as -> E. destruct (IH q r s E) as (-> & ->); [intros J; apply NI; now right|lia|auto].
Qed.

Lemma Ret_inj {A} (a b : A) : Ret a = Ret b -> a = b.
Proof. congruence. Qed.

(** Reading back what was printed gives the dial string if and only if its parts are free
    of ':' and of white space at their ends and the text of its protocol names it. *)
Theorem C142_round_trip : forall szt fuel v ad sv t, 8 <= szt -> bytes_ok ad -> bytes_ok sv ->
  out_dial szt (mkDial v ad sv) = Ret t -> size t < 2 ^ 16 -> (length t < fuel)%nat ->
  let pr := c_string (atomToString v) in
  (dial_parse fuel t = Ret (Ok (mkDial v ad sv)) <-> part pr /\ part ad /\ part sv /\ tryParseAtom pr = Ret (Ok v)).
Proof.
  intros szt fuel v ad sv t Z Ba Bs E K F pr. rewrite C142_print in E by exact Z. fold pr in E. injection E as <-. split.
  - intros P. set (t := dialled pr ad sv) in *. assert (I : In 58 t) by (apply in_app_iff; right; now left).
    assert (Bp : bytes_ok pr) by (apply nonzero_ok, c_string_nonzero, atom_bytes).
    assert (B : bytes_ok t).
    { unfold t, dialled. apply Forall_app. split; [exact Bp|]. constructor; [reflexivity|]. apply Forall_app. split; [exact Ba|].
      destruct sv; [constructor|]. constructor; [reflexivity|exact Bs]. }
    destruct (parse_inv fuel t _ B K I F P) as (p0 & r & t0 & Et & N0 & T0 & B0 & A & Pa & Ps & _). cbn [d_protocol d_address d_service] in *.
    pose proof (C136_text t0 v B0 A) as M. fold pr in M. assert (L : (length pr <= length t0)%nat).
    { rewrite M, masked_length. apply c_string_short. }
    assert (L0 : (length t0 <= length p0)%nat) by (destruct T0 as (x & y & -> & _); rewrite !app_length; lia).
    unfold t, dialled in Et. symmetry in Et. destruct (before_colon p0 pr _ _ Et N0 ltac:(lia)) as (-> & _).
    assert (t0 = pr) as Q.
    { destruct T0 as (x & y & Q & _). rewrite Q in L. rewrite !app_length in L.
      destruct x; [|cbn in L; lia]. destruct y; [|cbn in L; lia]. cbn [app] in Q. rewrite app_nil_r in Q. symmetry. exact Q. }
    rewrite Q in *. split; [split; assumption|]. split; [exact Pa|split; [exact Ps|exact A]].
  - intros (Pp & Pa & Ps & A). apply parse_parts; assumption.
Qed.
Print Assumptions C142_round_trip.

(** A text is printed again as it was if and only if it consists of two or three such
    parts, the third not empty, with a protocol of at most eight bytes that an atom keeps. *)
Theorem C142_identity : forall szt fuel s, 8 <= szt -> bytes_ok s -> size s < 2 ^ 16 -> (length s < fuel)%nat ->
  ((exists ds, dial_parse fuel s = Ret (Ok ds) /\ out_dial szt ds = Ret s) <->
   (exists pr ad sv, s = dialled pr ad sv /\ part pr /\ part ad /\ part sv /\ (length pr <= 8)%nat /\ ~ In 0 pr /\ masked pr = pr)).
Proof.
  intros szt fuel s Z B K F. split.
  - intros ([v ad sv] & P & O). pose proof O as O'. rewrite C142_print in O' by exact Z. apply Ret_inj in O'.
    assert (bytes_ok ad /\ bytes_ok sv) as (Ba & Bs).
    { rewrite <- O' in B. unfold dialled in B. apply Forall_app in B as (_ & B). inversion B as [|? ? _ B']; subst. apply Forall_app in B' as (Ba & Bs).
      split; [exact Ba|]. destruct sv; [constructor|]. now inversion Bs. }
    destruct (proj1 (C142_round_trip szt fuel v ad sv s Z Ba Bs O K F) P) as (Pp & Pa & Ps & A).
    exists (c_string (atomToString v)), ad, sv. split; [symmetry; exact O'|]. split; [exact Pp|]. split; [exact Pa|]. split; [exact Ps|]. split; [apply atom_short|].
    pose proof (c_string_nonzero _ (proj1 (atom_bytes v))) as NZ. split.
    + intros J. rewrite Forall_forall in NZ. specialize (NZ _ J). lia.
    + pose proof (C136_text _ _ (nonzero_ok _ NZ) A) as M. rewrite M at 2. f_equal. clear -NZ.
      induction NZ as [|c l H _ IH]; [reflexivity|]. cbn [c_string]. destruct (N.eqb_spec c 0); [lia|]. now rewrite <- IH.
  - intros (pr & ad & sv & -> & Pp & Pa & Ps & L & NZ & M).
    assert (Bp : bytes_ok pr) by (unfold dialled in B; now apply Forall_app in B).
    assert (C : c_string pr = pr).
    { clear -NZ. induction pr as [|c l IH]; [reflexivity|]. cbn [c_string]. destruct (N.eqb_spec c 0) as [E|E]; [destruct NZ; now left|]. rewrite IH; [reflexivity|]. intros J. apply NZ. now right. }
    pose proof (C136_value pr Bp) as A. destruct (Nat.leb_spec (length pr) 8); [|lia]. eexists. split; [apply parse_parts; eauto|].
    rewrite C142_print by exact Z. rewrite (C136_text pr _ Bp A), C, M. reflexivity.
Qed.
Print Assumptions C142_identity.

Lemma masked_idem s : masked (masked s) = masked s.
Proof.
  induction s as [|c s IH]; [reflexivity|]. cbn [masked]. rewrite IH. f_equal.
  assert (H : existsb (fun x => 128 <=? x) (masked s) = existsb (fun x => 128 <=? x) s).
  { clear. induction s as [|c s IH]; [reflexivity|]. cbn [masked existsb]. rewrite IH. destruct (existsb _ s); [now rewrite !orb_true_r|reflexivity]. }
  rewrite H. destruct (existsb _ s); reflexivity.
Qed.
Lemma masked_in x s : In x (masked s) -> In x s \/ x = 255.
Proof. induction s as [|c s IH]; [intros []|]. cbn [masked]. intros [H|H]; [|destruct (IH H); cbn; tauto]. destruct existsb; [now right|left; now left]. Qed.
Lemma masked_last s d : last (masked s) d = last s d.
Proof. induction s as [|c [|b s] IH]; [reflexivity|reflexivity|]. change (last (c :: b :: s) d) with (last (b :: s) d). rewrite <- IH. reflexivity. Qed.

(** Parsing, printing and parsing again is parsing once, for every text with a ':' and
    without NUL. *)
Theorem C142_stable : forall szt fuel s ds, 8 <= szt -> bytes_ok s -> ~ In 0 s -> size s < 2 ^ 16 -> In 58 s -> (length s < fuel)%nat ->
  dial_parse fuel s = Ret (Ok ds) -> exists t, out_dial szt ds = Ret t /\ (length t <= length s)%nat /\ dial_parse fuel t = Ret (Ok ds).
Proof.
  intros szt fuel s [v ad sv] Z B NZ K I F E. destruct (parse_inv fuel s _ B K I F E) as (p0 & r & t0 & Es & N0 & T0 & B0 & A & Pa & Ps & L).
  cbn [d_protocol d_address d_service] in *.
  assert (C : forall l, ~ In 0 l -> c_string l = l).
  { induction l as [|c l IH]; intros J; [reflexivity|]. cbn [c_string]. destruct (N.eqb_spec c 0) as [Q|Q]; [destruct J; now left|]. rewrite IH; [reflexivity|]. intros X. apply J. now right. }
  assert (Z0 : ~ In 0 t0). { intros J. apply NZ. rewrite Es. destruct T0 as (x & y & -> & _). rewrite !in_app_iff. tauto. }
  pose proof (C136_text t0 v B0 A) as M. rewrite (C t0 Z0) in M.
  eexists. split; [apply C142_print; exact Z|]. rewrite M.
  assert (L0 : (length t0 <= length p0)%nat) by (destruct T0 as (x & y & -> & _); rewrite !app_length; lia).
  assert (Ln : (length (dialled (masked t0) ad sv) <= length s)%nat).
  { rewrite Es. unfold dialled. rewrite !app_length, masked_length. cbn [length]. rewrite app_length. destruct sv; cbn [length] in *; lia. }
  split; [exact Ln|]. apply parse_parts; auto; try lia.
  - assert (B1 : bytes_ok (masked t0)).
    { apply Forall_forall. intros x X. apply masked_in in X as [X| ->]; [|reflexivity]. unfold bytes_ok in B0. rewrite Forall_forall in B0. auto. }
    rewrite <- A. apply C136_same; auto.
    + rewrite masked_length. rewrite <- masked_length, <- M. apply atom_short.
    + rewrite <- masked_length, <- M. apply atom_short.
    + rewrite (C t0 Z0), C, masked_idem; [reflexivity|]. intros J. apply masked_in in J as [J|J]; [auto|discriminate].
  - split.
    + intros J. apply masked_in in J as [J|J]; [|discriminate]. apply N0. destruct T0 as (x & y & -> & _). rewrite !in_app_iff. tauto.
    + pose proof (trimmed_self _ _ _ T0) as (x & y & Q & _ & _ & W). exists [], []. cbn [app]. rewrite app_nil_r. do 3 (split; [now auto|]).
      destruct t0 as [|c l]; [exact Logic.I|]. pose proof (masked_last (c :: l) 0) as ML. cbn [masked] in *. rewrite ML. destruct W as (W1 & W2). split; [|exact W2].
      destruct existsb; [|exact W1]. intros J. cbn in J. unfold whitespace in J. cbn in J. intuition discriminate.
  - unfold sv_ok, size in *. lia.
Qed.
Print Assumptions C142_stable.

(** A 7-bit character before one above 127 is printed as 255; what is printed is stable. *)
Example C142_ok : exists v, dial_parse 99 [97; 228; 58; 98] = Ret (Ok (mkDial v [98] [])) /\ out_dial 8 (mkDial v [98] []) = Ret [255; 228; 58; 98] /\
  dial_parse 99 [255; 228; 58; 98] = Ret (Ok (mkDial v [98] [])) /\ masked [255; 228] = [255; 228].
Proof. eexists. repeat split; vm_compute; reflexivity. Qed.
