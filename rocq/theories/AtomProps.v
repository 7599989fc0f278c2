From Verif Require Import Base BaseLemmas ByteIOSpec LexSpec LexProofs AtomModel AtomSpec AtomProofs.

(** C15: strings of at most 8 bytes are accepted, longer ones are rejected. *)
Theorem C15_accepts : forall s,
  ((length s <= 8)%nat -> exists v, tryParseAtom s = Ret (Ok v)) /\
  ((8 < length s)%nat -> exists e, tryParseAtom s = Ret (Err e)).
Proof.
  intros s. unfold tryParseAtom, size. split; intros H.
  - destruct (N.ltb_spec 8 (N.of_nat (length s))); [lia|]. unfold atom_wrap.
    destruct (wrap_loop_total 8 s 0 (N.of_nat (length s)) 0) as ((n & i) & ->); [unfold size; lia|]. cbn [bind]. eauto.
  - destruct (N.ltb_spec 8 (N.of_nat (length s))); [eauto|lia].
Qed.
Print Assumptions C15_accepts.

(** C15: parsing an atom text and printing the atom gives the text back, NUL padded
    to the nine bytes that are always written; the value is 64 bits wide. *)
Theorem C15_round_trip : forall s, atom_text s ->
  exists v, tryParseAtom s = Ret (Ok v) /\ v < 2 ^ 64 /\
    atomToString v = s ++ repeat 0 (9 - length s) /\ c_string (atomToString v) = s.
Proof.
  intros s H. exists (be_value_acc 0 (pad8 s)). destruct (pad8_ok s H) as (L8 & B).
  pose proof H as (L & F). split; [|split; [|split]].
  - unfold tryParseAtom, size. destruct (N.ltb_spec 8 (N.of_nat (length s))); [lia|].
    pose proof (atom_wrap_spec s [] (size s) H) as W. rewrite app_nil_r in W. unfold size in W. rewrite W; auto. lia.
  - pose proof (be_value_lt (pad8 s) B) as V. unfold size in V. rewrite L8 in V. exact V.
  - now apply atom_string.
  - unfold atomToString. rewrite atom_string by assumption. apply c_string_padded; [assumption|lia].
Qed.
Print Assumptions C15_round_trip.

(** C15: distinct texts have distinct atoms, and atoms are ordered like their texts. *)
Theorem C15_injective_and_ordered : forall s t v w, atom_text s -> atom_text t ->
  tryParseAtom s = Ret (Ok v) -> tryParseAtom t = Ret (Ok w) ->
  (v = w <-> s = t) /\ (v < w <-> lex_lt s t).
Proof.
  intros s t v w Hs Ht E1 E2.
  assert (forall x, atom_text x -> tryParseAtom x = Ret (Ok (be_value_acc 0 (pad8 x)))) as P.
  { intros x H. pose proof H as (L & F). unfold tryParseAtom, size. destruct (N.ltb_spec 8 (N.of_nat (length x))); [lia|].
    pose proof (atom_wrap_spec x [] (size x) H) as W. rewrite app_nil_r in W. unfold size in W. rewrite W; auto. lia. }
  rewrite P in E1, E2 by assumption. injection E1 as <-. injection E2 as <-.
  pose proof (atom_order s t Hs Ht) as O1. pose proof (atom_order t s Ht Hs) as O2.
  split; [|exact O1]. split; [|now intros ->]. intros E.
  destruct (lex_total s t) as [H|[H|H]]; [|exact H|]; exfalso;
    [apply O1 in H|apply O2 in H]; lia.
Qed.
Print Assumptions C15_injective_and_ordered.

(** C15: a literal of at most 7 characters denotes the same atom as parsing it. *)
Theorem C15_literal : forall s, atom_text s -> (length s <= 7)%nat ->
  exists v, atom_literal s = Ret v /\ tryParseAtom s = Ret (Ok v).
Proof.
  intros s H L7. exists (be_value_acc 0 (pad8 s)). split.
  - apply atom_wrap_spec; [assumption|unfold size; lia|right; right; eauto].
  - unfold tryParseAtom, size. destruct (N.ltb_spec 8 (N.of_nat (length s))); [lia|].
    pose proof (atom_wrap_spec s [] (size s) H) as W. rewrite app_nil_r in W. unfold size in W. rewrite W; auto. lia.
Qed.
Print Assumptions C15_literal.

Example C15_ok : atom_text [122;105;112] /\ atom_text [122;111;111;109;101;114;115;33] /\
  tryParseAtom [122;105;112] = Ret (Ok 8820704490484137984) /\
  lex_lt [122;105;112] [122;111;111;109;101;114;115;33].
Proof.
  assert (forall l, (length l <=? 8)%nat && forallb (fun c => (0 <? c) && (c <? 128)) l = true -> atom_text l) as D.
  { intros l H. apply andb_prop in H as (H1 & H2). split; [now apply Nat.leb_le|].
    rewrite forallb_forall in H2. apply Forall_forall. intros x Hx. apply H2 in Hx. lia. }
  split; [now apply D|]. split; [now apply D|]. split; [reflexivity|]. apply lexltb_spec. reflexivity.
Qed.

(** C56: distinct 7-bit texts have distinct atoms (missing: bytes above 127). *)
Theorem C56_distinct_partial : forall s t v, atom_text s -> atom_text t ->
  tryParseAtom s = Ret (Ok v) -> tryParseAtom t = Ret (Ok v) -> s = t.
Proof. intros s t v Hs Ht E1 E2. now apply (C15_injective_and_ordered s t v v). Qed.
Print Assumptions C56_distinct_partial.

(** C56 is false: a byte above 127 is sign extended and erases everything before
    it, so all texts of one length that end in the same such byte share an atom. *)
Theorem C56_atoms_refuted : forall p q c, length p = length q -> (length p <= 7)%nat ->
  Forall (fun x => 0 < x < 256) p -> Forall (fun x => 0 < x < 256) q -> 128 <= c -> c < 256 ->
  tryParseAtom (p ++ [c]) = tryParseAtom (q ++ [c]) /\ exists v, tryParseAtom (p ++ [c]) = Ret (Ok v).
Proof.
  assert (forall p c, (length p <= 7)%nat -> Forall (fun x => 0 < x < 256) p -> 128 <= c -> c < 256 ->
    tryParseAtom (p ++ [c]) = Ret (Ok (u64 (N.shiftl (2 ^ 64 - 256 + c) ((8 - (size p + 1)) * 8))))) as W.
  { intros p c L F H1 H2. unfold tryParseAtom, atom_wrap. rewrite size_app, (@size_cons N), (@size_nil N).
    destruct (N.ltb_spec 8 (size p + (0 + 1))) as [X|X]; [unfold size in X; lia|].
    rewrite wrap_loop_high by (assumption || lia). cbn [bind]. rewrite N.add_0_l.
    destruct (N.eqb_spec (size p + 1) 0); [lia|reflexivity]. }
  intros p q c E L Fp Fq H1 H2. rewrite !W by (assumption || lia). unfold size. rewrite E. eauto.
Qed.
Print Assumptions C56_atoms_refuted.

Example C56_atoms_refuted_ok : tryParseAtom [97;255] = tryParseAtom [98;255].
Proof. reflexivity. Qed.
