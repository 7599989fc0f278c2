(** C49, C75: the Murmur3 hashers. *)
From Coq Require Import Lia.
From Verif Require Import Base BaseLemmas MemViewModel ByteIOModel ByteIOSpec ByteIOProofs HashModel HashSpec HashProofs.
From Verif Require Import MurmurModel MurmurSpec MurmurProofs.
Local Open Scope N_scope.

(** A hasher is fed the chunks, one update each, and asked for its digest. *)
Definition murmur32 (host_be : bool) (seed : N) (chunks : list (list N)) : outcome (list N) :=
  let! st := mm_updates (mm32_update host_be) (mm32_new seed) chunks in
  mm32_digest host_be [0; 0; 0; 0] st.
Definition murmur128 (x64 host_be : bool) (seed : N) (chunks : list (list N)) : outcome (list N) :=
  let! st := mm_updates (mm128_update x64 host_be) (mm128_new seed) chunks in
  Ret (mm128_digest st).

(** ** C75: one update gives the published hash *)
Theorem C75_murmur3_32 seed m : bytes_ok m -> seed < 2 ^ 32 -> size m < 2 ^ 31 ->
  murmur32 false seed [m] = Ret (be_bytes 4 (murmur3_x86_32 seed m)).
Proof.
  intros B S L. unfold murmur32. cbn [mm_updates]. unfold mm32_update. cbn [mm32_new mm_seed].
  rewrite x86_32_ok; [|assumption|assumption|pose proof (N.mul_div_le (size m) 4); lia].
  cbn [bind]. unfold mm32_digest. rewrite emit_words_spec by (cbn; lia).
  unfold output. cbn [map concat mm_hash order_bytes]. now rewrite app_nil_r.
Qed.
Print Assumptions C75_murmur3_32.

Theorem C75_murmur3_128_x64 seed m : bytes_ok m -> seed < 2 ^ 32 -> size m < 2 ^ 31 ->
  murmur128 true false seed [m] = Ret (concat (map (le_bytes 8) (murmur3_x64_128 seed m))).
Proof.
  intros B S L. unfold murmur128. cbn [mm_updates]. unfold mm128_update. cbn [mm128_new mm_seed128].
  rewrite x64_128_ok; [|assumption|change (2 ^ 32) with 4294967296 in S; change (2 ^ 64) with 18446744073709551616; lia
                       |pose proof (N.mul_div_le (size m) 16); lia].
  cbn [bind]. unfold mm128_digest. cbn [mm_bytes]. f_equal. f_equal. apply map_ext. intros v. apply host_store_order.
Qed.
Print Assumptions C75_murmur3_128_x64.

Theorem C75_murmur3_128_x86 seed m : bytes_ok m -> seed < 2 ^ 32 -> size m < 2 ^ 31 ->
  murmur128 false false seed [m] = Ret (concat (map (le_bytes 4) (murmur3_x86_128 seed m))).
Proof.
  intros B S L. unfold murmur128. cbn [mm_updates]. unfold mm128_update. cbn [mm128_new mm_seed128].
  rewrite x86_128_ok; [|assumption|assumption|pose proof (N.mul_div_le (size m) 16); lia].
  cbn [bind]. unfold mm128_digest. cbn [mm_bytes]. f_equal. f_equal. apply map_ext. intros v. apply host_store_order.
Qed.
Print Assumptions C75_murmur3_128_x86.

(** "hello", seed 0: the reference implementation prints 248bfa47 and
    cbd8a7b341bd9b02 5b1e906a48ae1d19. *)
Example C75_ok :
  bytes_ok [104; 101; 108; 108; 111] /\ size [104; 101; 108; 108; 111] < 2 ^ 31 /\
  be_bytes 4 (murmur3_x86_32 0 [104; 101; 108; 108; 111]) = [0x24; 0x8b; 0xfa; 0x47] /\
  murmur3_x64_128 0 [104; 101; 108; 108; 111] = [0xcbd8a7b341bd9b02; 0x5b1e906a48ae1d19].
Proof. repeat split; try (repeat constructor); reflexivity. Qed.

(** From 2^31 bytes on the pointer arithmetic of the functions overflows an int. *)
Theorem C75_too_long_undefined x64 host_be seed m : 2 ^ 31 <= size m ->
  murmur32 host_be seed [m] = UB /\ murmur128 x64 host_be seed [m] = UB.
Proof.
  intros L. change (2 ^ 31) with 2147483648 in L.
  assert (2147483648 <= size m / 4 * 4 /\ 2147483648 <= size m / 16 * 16) as (A & B).
  { pose proof (N.div_mod (size m) 4). pose proof (N.mod_lt (size m) 4).
    pose proof (N.div_mod (size m) 16). pose proof (N.mod_lt (size m) 16). lia. }
  apply N.leb_le in A, B.
  unfold murmur32, murmur128. cbn [mm_updates].
  unfold mm32_update, mm128_update, m_x86_32, m_x86_128, m_x64_128. change (2 ^ 31) with 2147483648.
  rewrite A, B. split; [reflexivity | destruct x64; reflexivity].
Qed.
Print Assumptions C75_too_long_undefined.
Example C75_too_long_ok : 2 ^ 31 <= size (repeat 7 (N.to_nat (2 ^ 31))).
Proof. unfold size. rewrite repeat_length, N2Nat.id. apply N.le_refl. Qed.

(** The digest depends on the byte order of the machine. *)
Theorem C75_big_endian_differs : exists m seed, bytes_ok m /\ seed < 2 ^ 32 /\ size m < 2 ^ 31 /\
  murmur32 true seed [m] <> murmur32 false seed [m].
Proof.
  exists [1; 2; 3; 4], 0. split; [repeat constructor|]. split; [lia|]. split; [reflexivity|].
  vm_compute. discriminate.
Qed.
Print Assumptions C75_big_endian_differs.

(** ** C49: several updates *)

(** Claimed: the chunks count as one message.  They do not. *)
Theorem C49_refuted : exists seed a b, bytes_ok (a ++ b) /\ seed < 2 ^ 32 /\
  murmur32 false seed [a; b] <> murmur32 false seed [a ++ b] /\
  murmur128 true false seed [a; b] <> murmur128 true false seed [a ++ b] /\
  murmur128 false false seed [a; b] <> murmur128 false false seed [a ++ b].
Proof.
  exists 0, [104; 101], [108; 108; 111]. split; [repeat constructor|]. split; [lia|].
  repeat split; vm_compute; discriminate.
Qed.
Print Assumptions C49_refuted.

(** What happens instead: every update starts from the seed again, and only the
    last one counts, however many came before it. *)
Section Last.
  Context {S : Type} (update : S -> list N -> outcome S) (seed_of : S -> N).
  Hypothesis keeps : forall st c st', update st c = Ret st' -> seed_of st' = seed_of st.
  Hypothesis fresh : forall st st' c, seed_of st = seed_of st' -> update st c = update st' c.
  Lemma updates_last chunks last : forall st st', mm_updates update st (chunks ++ [last]) = Ret st' ->
    mm_updates update st [last] = Ret st'.
  Proof.
    induction chunks as [|c t IH]; intros st st' H; [exact H|].
    cbn [app mm_updates] in H. destruct (update st c) as [st1| | | |] eqn:E; try discriminate H. cbn [bind] in H.
    apply IH in H. cbn [mm_updates] in *. rewrite (fresh st st1); [exact H|]. symmetry. now apply (keeps st c).
  Qed.
End Last.

Theorem C49_last_update_only_partial x64 host_be seed chunks last d :
  (murmur32 host_be seed (chunks ++ [last]) = Ret d -> murmur32 host_be seed [last] = Ret d) /\
  (murmur128 x64 host_be seed (chunks ++ [last]) = Ret d -> murmur128 x64 host_be seed [last] = Ret d).
Proof.
  split; intros H.
  - unfold murmur32 in *. destruct (mm_updates _ _ (chunks ++ [last])) as [st| | | |] eqn:E; try discriminate H.
    rewrite (updates_last (mm32_update host_be) mm_seed) with (chunks := chunks) (st' := st).
    all: try assumption.
    + intros s c s' F. unfold mm32_update in F. destruct (m_x86_32 _ _ _) in F; try discriminate F. now injection F as <-.
    + intros s s' c F. unfold mm32_update. now rewrite F.
  - unfold murmur128 in *. destruct (mm_updates _ _ (chunks ++ [last])) as [st| | | |] eqn:E; try discriminate H.
    rewrite (updates_last (mm128_update x64 host_be) mm_seed128) with (chunks := chunks) (st' := st).
    all: try assumption.
    + intros s c s' F. unfold mm128_update in F.
      match type of F with bind ?e _ = _ => destruct e; try discriminate F end. now injection F as <-.
    + intros s s' c F. unfold mm128_update. now rewrite F.
Qed.
Print Assumptions C49_last_update_only_partial.

(** Every history of updates, none or several, each short enough: the digest is
    the published hash of the last chunk, and zero when there was none. *)
Lemma updates_defined {S} (update : S -> list N -> outcome S) (Q : S -> Prop) (P : list N -> Prop) chunks :
  (forall st c, Q st -> P c -> exists st', update st c = Ret st' /\ Q st') -> Forall P chunks ->
  forall st, Q st -> exists st', mm_updates update st chunks = Ret st'.
Proof.
  intros D F. induction F as [|c t Pc _ IH]; intros st Qs; [now exists st|].
  destruct (D st c Qs Pc) as (st1 & E & Q1). cbn [mm_updates]. rewrite E. cbn [bind]. now apply IH.
Qed.

Theorem C49_history_partial seed chunks : seed < 2 ^ 32 -> Forall (fun c => bytes_ok c /\ size c < 2 ^ 31) chunks ->
  murmur32 false seed chunks =
    Ret (match rev chunks with last :: _ => be_bytes 4 (murmur3_x86_32 seed last) | [] => [0; 0; 0; 0] end) /\
  murmur128 true false seed chunks =
    Ret (match rev chunks with last :: _ => concat (map (le_bytes 8) (murmur3_x64_128 seed last)) | [] => repeat 0 16 end) /\
  murmur128 false false seed chunks =
    Ret (match rev chunks with last :: _ => concat (map (le_bytes 4) (murmur3_x86_128 seed last)) | [] => repeat 0 16 end).
Proof.
  intros S F. destruct (rev chunks) as [|last t] eqn:R.
  - assert (chunks = []) as -> by (rewrite <- (rev_involutive chunks), R; reflexivity).
    repeat split; vm_compute; reflexivity.
  - assert (chunks = rev t ++ [last]) as -> by (rewrite <- (rev_involutive chunks), R; reflexivity).
    assert (bytes_ok last /\ size last < 2 ^ 31) as (B & L).
    { rewrite Forall_forall in F. apply F. apply in_or_app. right. now left. }
    assert (seed < 2 ^ 64) as S64.
    { change (2 ^ 32) with 4294967296 in S; change (2 ^ 64) with 18446744073709551616; lia. }
    assert (exists d, murmur32 false seed (rev t ++ [last]) = Ret d) as (d1 & D1).
    { destruct (updates_defined (mm32_update false) (fun st => mm_seed st = seed) (fun c => bytes_ok c /\ size c < 2 ^ 31) (rev t ++ [last])) with (2 := F) (st := mm32_new seed)
        as (st & E); [|reflexivity|].
      - intros st c Q (Bc & Lc). unfold mm32_update. rewrite Q, x86_32_ok; [|assumption|assumption|].
        + cbn [bind]. eexists. split; [reflexivity|reflexivity].
        + pose proof (N.mul_div_le (size c) 4). lia.
      - unfold murmur32. rewrite E. cbn [bind]. unfold mm32_digest. rewrite emit_words_spec by (cbn; lia). eauto. }
    assert (exists d, murmur128 true false seed (rev t ++ [last]) = Ret d) as (d2 & D2).
    { destruct (updates_defined (mm128_update true false) (fun st => mm_seed128 st = seed) (fun c => bytes_ok c /\ size c < 2 ^ 31) (rev t ++ [last])) with (2 := F) (st := mm128_new seed)
        as (st & E); [|reflexivity|].
      - intros st c Q (Bc & Lc). unfold mm128_update. rewrite Q, x64_128_ok; [|assumption|auto|].
        + cbn [bind]. eexists. split; [reflexivity|reflexivity].
        + pose proof (N.mul_div_le (size c) 16). lia.
      - unfold murmur128. rewrite E. cbn [bind]. eauto. }
    assert (exists d, murmur128 false false seed (rev t ++ [last]) = Ret d) as (d3 & D3).
    { destruct (updates_defined (mm128_update false false) (fun st => mm_seed128 st = seed) (fun c => bytes_ok c /\ size c < 2 ^ 31) (rev t ++ [last])) with (2 := F) (st := mm128_new seed)
        as (st & E); [|reflexivity|].
      - intros st c Q (Bc & Lc). unfold mm128_update. rewrite Q, x86_128_ok; [|assumption|assumption|].
        + cbn [bind]. eexists. split; [reflexivity|reflexivity].
        + pose proof (N.mul_div_le (size c) 16). lia.
      - unfold murmur128. rewrite E. cbn [bind]. eauto. }
    rewrite D1, D2, D3.
    apply (C49_last_update_only_partial true) in D1. apply (C49_last_update_only_partial true) in D2.
    apply (C49_last_update_only_partial false) in D3.
    rewrite C75_murmur3_32 in D1 by assumption. rewrite C75_murmur3_128_x64 in D2 by assumption.
    rewrite C75_murmur3_128_x86 in D3 by assumption. repeat split; symmetry; assumption.
Qed.
Print Assumptions C49_history_partial.
Example C49_ok : 7 < 2 ^ 32 /\ Forall (fun c => bytes_ok c /\ size c < 2 ^ 31) [[1; 2]; []; [255]].
Proof. split; [lia|]. repeat constructor; reflexivity. Qed.

(** ** C73: getDigestLength of the Murmur3 hashers: bits as well *)
Theorem C73_murmur_refuted : forall x64 seed m d32 d128, bytes_ok m -> seed < 2 ^ 32 -> size m < 2 ^ 31 ->
  murmur32 false seed [m] = Ret d32 -> murmur128 x64 false seed [m] = Ret d128 ->
  murmur3_32_getDigestLength = 8 * size d32 /\ murmur3_128_getDigestLength = 8 * size d128.
Proof.
  intros x64 seed m d32 d128 B S L E1 E2. rewrite C75_murmur3_32 in E1 by assumption. injection E1 as <-. split.
  - change (be_bytes 4) with (order_bytes true 4). unfold size. now rewrite order_bytes_length.
  - assert (forall x n, size (le_bytes n x) = N.of_nat n) as W
      by (intros; change (le_bytes n x) with (order_bytes false n x); unfold size; now rewrite order_bytes_length).
    destruct x64.
    + rewrite C75_murmur3_128_x64 in E2 by assumption. injection E2 as <-. unfold murmur3_x64_128.
      destruct (fold_left step_x64 _ _). destruct (spread2 _). destruct (spread2 _).
      cbn [map concat]. now rewrite !size_app, !W.
    + rewrite C75_murmur3_128_x86 in E2 by assumption. injection E2 as <-. unfold murmur3_x86_128.
      destruct (fold_left step_x86 _ _) as [[[? ?] ?] ?]. cbv zeta. destruct (spread4 _) as [[[? ?] ?] ?]. destruct (spread4 _) as [[[? ?] ?] ?].
      cbn [map concat]. now rewrite !size_app, !W.
Qed.
Print Assumptions C73_murmur_refuted.
