(** C47, C48, C50, C70-C74: MD5, SHA-1, SHA-256, Sha3 and printed digests. *)
From Coq Require Import Lia.
From Verif Require Import Base BaseLemmas MemViewModel ByteIOModel ByteIOSpec ByteIOProofs Base16Model Base16Spec Base16Proofs
  MemoryModel ContainerModel StringModel HashModel HashSpec HashProofs HashBlockProofs HashBlock2Proofs HashChainProofs.
Local Open Scope N_scope.

(** ** C48: the block functions *)

(** Chaining state: the right number of 32-bit words; block: 64 bytes. *)
Theorem C48_md5 host_be h block : Forall word h -> size h = 4 -> size block = 64 ->
  md5_process host_be h block = Ret (md5_compress h (block_words false block)).
Proof. intros W L B. apply md5_process_spec; auto. unfold size in L. lia. Qed.
Print Assumptions C48_md5.

Theorem C48_sha1 host_be h block : Forall word h -> size h = 5 -> size block = 64 -> bytes_ok block ->
  sha1_process host_be h block = Ret (sha1_compress h (block_words true block)).
Proof. intros W L B BO. apply sha1_process_spec; auto. unfold size in L. lia. Qed.
Print Assumptions C48_sha1.

(** The unrolled version and the one selected by SOLACE_SHA256_SMALLER. *)
Theorem C48_sha256 junk48 host_be h block : size junk48 = 48 -> Forall word h -> size h = 8 -> size block = 64 -> bytes_ok block ->
  sha256_process junk48 host_be h block = Ret (sha256_compress h (block_words true block)).
Proof. intros J W L B BO. unfold size in J, L. apply sha256_process_spec; auto; lia. Qed.
Print Assumptions C48_sha256.

Theorem C48_sha256_small junk64 host_be h block : size junk64 = 64 -> Forall word h -> size h = 8 -> size block = 64 -> bytes_ok block ->
  sha256_process_small junk64 host_be h block = Ret (sha256_compress h (block_words true block)).
Proof. intros J W L B BO. unfold size in J, L. apply sha256_small_process_spec; auto; lia. Qed.
Print Assumptions C48_sha256_small.

Example C48_ok :
  Forall word md5_iv /\ size md5_iv = 4 /\ Forall word sha1_iv /\ size sha1_iv = 5 /\ Forall word sha256_iv /\ size sha256_iv = 8 /\
  size (repeat 7 64) = 64 /\ bytes_ok (repeat 7 64).
Proof. repeat split; try (repeat constructor); reflexivity. Qed.

(** ** C47: chunks *)
Notation words_of n := (fun c => Forall word c /\ size c = n).

Lemma md5_ok host_be c b : words_of 4 c -> size b = 64 -> bytes_ok b ->
  md5_process host_be c b = Ret (md5_compress c (block_words false b)) /\ words_of 4 (md5_compress c (block_words false b)).
Proof.
  intros (W & L) B _. unfold size in L.
  destruct (md5_process_spec host_be c b) as (E & W' & L'); auto; [lia|]. unfold size. rewrite L'. auto.
Qed.
Lemma sha1_ok host_be c b : words_of 5 c -> size b = 64 -> bytes_ok b ->
  sha1_process host_be c b = Ret (sha1_compress c (block_words true b)) /\ words_of 5 (sha1_compress c (block_words true b)).
Proof.
  intros (W & L) B BO. unfold size in L.
  destruct (sha1_process_spec host_be c b) as (E & W' & L'); auto; [lia|]. unfold size. rewrite L'. auto.
Qed.
Lemma sha256_ok junk48 host_be c b : size junk48 = 48 -> words_of 8 c -> size b = 64 -> bytes_ok b ->
  sha256_process junk48 host_be c b = Ret (sha256_compress c (block_words true b)) /\ words_of 8 (sha256_compress c (block_words true b)).
Proof.
  intros J (W & L) B BO. unfold size in L, J.
  destruct (sha256_process_spec junk48 host_be c b) as (E & W' & L'); auto; [lia|lia|]. unfold size. rewrite L'. auto.
Qed.
Lemma md5_iv_words : words_of 4 md5_iv.
Proof. split; [repeat constructor | reflexivity]. Qed.
Lemma sha1_iv_words : words_of 5 sha1_iv.
Proof. split; [repeat constructor | reflexivity]. Qed.
Lemma sha256_iv_words : words_of 8 sha256_iv.
Proof. split; [repeat constructor | reflexivity]. Qed.

(** The digest is the published one of the concatenated chunks, whatever the
    cut, the byte order of the host and the content of uninitialised memory.
    The message may be of any length, each chunk is shorter than 2^32 bytes. *)
Theorem C47_md5 host_be junk junk8 junk16 chunks :
  size junk = 64 -> size junk8 = 8 -> size junk16 = 16 ->
  Forall bytes_ok chunks -> Forall (fun c => size c < 2 ^ 32) chunks ->
  exists st st', md_updates (md5_update host_be) (md5_new junk) chunks = Ret st /\
    md5_digest host_be junk8 junk16 st = Ret (MD5 (concat chunks), st').
Proof.
  intros. exact (hash_spec false host_be md5_compress (md5_process host_be) 4 md5_iv (md5_ok host_be) md5_iv_words
    ltac:(discriminate) junk junk8 junk16 chunks ltac:(assumption) ltac:(assumption) ltac:(assumption) ltac:(assumption) ltac:(assumption)).
Qed.
Print Assumptions C47_md5.

Theorem C47_sha1 host_be junk junk8 junk20 chunks :
  size junk = 64 -> size junk8 = 8 -> size junk20 = 20 ->
  Forall bytes_ok chunks -> Forall (fun c => size c < 2 ^ 32) chunks ->
  exists st st', md_updates (sha1_update host_be) (sha1_new junk) chunks = Ret st /\
    sha1_digest host_be junk8 junk20 st = Ret (SHA1 (concat chunks), st').
Proof.
  intros. exact (hash_spec true host_be sha1_compress (sha1_process host_be) 5 sha1_iv (sha1_ok host_be) sha1_iv_words
    ltac:(discriminate) junk junk8 junk20 chunks ltac:(assumption) ltac:(assumption) ltac:(assumption) ltac:(assumption) ltac:(assumption)).
Qed.
Print Assumptions C47_sha1.

Theorem C47_sha256 junk48 host_be junk8 junk32 chunks :
  size junk48 = 48 -> size junk8 = 8 -> size junk32 = 32 ->
  Forall bytes_ok chunks -> Forall (fun c => size c < 2 ^ 32) chunks ->
  exists st st', md_updates (sha256_update junk48 host_be) sha256_new chunks = Ret st /\
    sha256_digest junk48 host_be junk8 junk32 st = Ret (SHA256 (concat chunks), st').
Proof.
  intros J. intros. exact (hash_spec true host_be sha256_compress (sha256_process junk48 host_be) 8 sha256_iv
    (fun c b => sha256_ok junk48 host_be c b J) sha256_iv_words
    ltac:(discriminate) (repeat 0 64) junk8 junk32 chunks eq_refl ltac:(assumption) ltac:(assumption) ltac:(assumption) ltac:(assumption)).
Qed.
Print Assumptions C47_sha256.

(** Two ways of cutting one message. *)
Theorem C47_cut host_be junk junk' junk8 junk16 chunks chunks' :
  size junk = 64 -> size junk' = 64 -> size junk8 = 8 -> size junk16 = 16 ->
  Forall bytes_ok chunks -> Forall (fun c => size c < 2 ^ 32) chunks ->
  Forall bytes_ok chunks' -> Forall (fun c => size c < 2 ^ 32) chunks' ->
  concat chunks = concat chunks' ->
  exists d st1 st2 st1' st2',
    md_updates (md5_update host_be) (md5_new junk) chunks = Ret st1 /\ md5_digest host_be junk8 junk16 st1 = Ret (d, st2) /\
    md_updates (md5_update host_be) (md5_new junk') chunks' = Ret st1' /\ md5_digest host_be junk8 junk16 st1' = Ret (d, st2').
Proof.
  intros J J' J8 J16 B L B' L' E.
  destruct (C47_md5 host_be junk junk8 junk16 chunks) as (s1 & s2 & E1 & E2); auto.
  destruct (C47_md5 host_be junk' junk8 junk16 chunks') as (s1' & s2' & E1' & E2'); auto.
  exists (MD5 (concat chunks)), s1, s2, s1', s2'. rewrite E at 2. auto.
Qed.
Print Assumptions C47_cut.

(** The specification computes the digests of the standards: "abc" (RFC 1321
    A.5, FIPS 180-4 examples). *)
Example C47_ok :
  MD5 [97; 98; 99] = [144; 1; 80; 152; 60; 210; 79; 176; 214; 150; 63; 125; 40; 225; 127; 114] /\
  Forall bytes_ok [[97]; []; [98; 99]] /\ Forall (fun c => size c < 2 ^ 32) [[97]; []; [98; 99]].
Proof. split; [vm_compute; reflexivity | split; repeat constructor]. Qed.

(** ** C70: messages of any length in one update *)

(** The upper half of the counter is raised once at most by one update. *)
Theorem C70_md5_partial host_be junk junk8 junk16 m :
  size junk = 64 -> size junk8 = 8 -> size junk16 = 16 -> bytes_ok m ->
  exists st st', md5_update host_be (md5_new junk) m = Ret st /\
    md5_digest host_be junk8 junk16 st =
      Ret (output false (chain_over false md5_compress md5_iv
        (pad_with false (8 * ((if size m <? 2 ^ 32 then 0 else 2 ^ 32) + size m mod 2 ^ 32)) m)), st').
Proof.
  intros. exact (long_spec false host_be md5_compress (md5_process host_be) 4 md5_iv (md5_ok host_be) md5_iv_words
    ltac:(discriminate) junk junk8 junk16 m ltac:(assumption) ltac:(assumption) ltac:(assumption) ltac:(assumption)).
Qed.
Print Assumptions C70_md5_partial.

Theorem C70_sha1_partial host_be junk junk8 junk20 m :
  size junk = 64 -> size junk8 = 8 -> size junk20 = 20 -> bytes_ok m ->
  exists st st', sha1_update host_be (sha1_new junk) m = Ret st /\
    sha1_digest host_be junk8 junk20 st =
      Ret (output true (chain_over true sha1_compress sha1_iv
        (pad_with true (8 * ((if size m <? 2 ^ 32 then 0 else 2 ^ 32) + size m mod 2 ^ 32)) m)), st').
Proof.
  intros. exact (long_spec true host_be sha1_compress (sha1_process host_be) 5 sha1_iv (sha1_ok host_be) sha1_iv_words
    ltac:(discriminate) junk junk8 junk20 m ltac:(assumption) ltac:(assumption) ltac:(assumption) ltac:(assumption)).
Qed.
Print Assumptions C70_sha1_partial.

Theorem C70_sha256_partial junk48 host_be junk8 junk32 m :
  size junk48 = 48 -> size junk8 = 8 -> size junk32 = 32 -> bytes_ok m ->
  exists st st', sha256_update junk48 host_be sha256_new m = Ret st /\
    sha256_digest junk48 host_be junk8 junk32 st =
      Ret (output true (chain_over true sha256_compress sha256_iv
        (pad_with true (8 * ((if size m <? 2 ^ 32 then 0 else 2 ^ 32) + size m mod 2 ^ 32)) m)), st').
Proof.
  intros J. intros. exact (long_spec true host_be sha256_compress (sha256_process junk48 host_be) 8 sha256_iv
    (fun c b => sha256_ok junk48 host_be c b J) sha256_iv_words
    ltac:(discriminate) (repeat 0 64) junk8 junk32 m eq_refl ltac:(assumption) ltac:(assumption) ltac:(assumption)).
Qed.
Print Assumptions C70_sha256_partial.

(** From 2^33 bytes on (and below 2^61, where the standards end), what is
    digested is not the padded message. *)
Theorem C70_refuted be m : 2 ^ 33 <= size m < 2 ^ 61 ->
  pad_with be (8 * ((if size m <? 2 ^ 32 then 0 else 2 ^ 32) + size m mod 2 ^ 32)) m <> pad be m.
Proof.
  unfold pad. intros (H1 & H2). assert (2 ^ 32 <= size m) as H3 by (change (2 ^ 33) with (2 * 2 ^ 32) in H1; lia).
  destruct (N.ltb_spec (size m) (2 ^ 32)) as [X|_]; [lia|].
  pose proof (N.mod_lt (size m) (2 ^ 32) ltac:(discriminate)) as R.
  assert (8 * size m mod 2 ^ 64 = 8 * size m) as E
    by (apply N.mod_small; change (2 ^ 61) with 2305843009213693952 in H2; change (2 ^ 64) with 18446744073709551616; lia).
  rewrite E. change (2 ^ 33) with (2 * 2 ^ 32) in H1.
  change (2 ^ 61) with 2305843009213693952 in H2. change (2 ^ 32) with 4294967296 in *.
  apply pad_with_neq; change (2 ^ 64) with 18446744073709551616; lia.
Qed.
Print Assumptions C70_refuted.

Example C70_ok : bytes_ok (repeat 0 (N.to_nat (2 ^ 33))) /\ 2 ^ 33 <= size (repeat 0 (N.to_nat (2 ^ 33))) < 2 ^ 61.
Proof.
  split.
  - apply Forall_forall. intros b I. apply repeat_spec in I as ->. reflexivity.
  - unfold size. rewrite repeat_length, N2Nat.id. lia.
Qed.

(** ** C71: histories with several digests *)
Theorem C71_md5_partial host_be junk calls : size junk = 64 -> Forall (call_ok 4) calls ->
  md_run (md5_update host_be) (md5_digest host_be) (md5_new junk) calls = Ret (digests_of false MD5 [] calls).
Proof.
  intros J C.
  exact (run_spec false host_be md5_compress (md5_process host_be) 4 md5_iv (md5_ok host_be) ltac:(discriminate)
    calls [] _ C (fed_new false md5_compress 4 md5_iv md5_iv_words junk J)).
Qed.
Print Assumptions C71_md5_partial.
Theorem C71_sha1_partial host_be junk calls : size junk = 64 -> Forall (call_ok 5) calls ->
  md_run (sha1_update host_be) (sha1_digest host_be) (sha1_new junk) calls = Ret (digests_of true SHA1 [] calls).
Proof.
  intros J C.
  exact (run_spec true host_be sha1_compress (sha1_process host_be) 5 sha1_iv (sha1_ok host_be) ltac:(discriminate)
    calls [] _ C (fed_new true sha1_compress 5 sha1_iv sha1_iv_words junk J)).
Qed.
Print Assumptions C71_sha1_partial.
Theorem C71_sha256_partial junk48 host_be calls : size junk48 = 48 -> Forall (call_ok 8) calls ->
  md_run (sha256_update junk48 host_be) (sha256_digest junk48 host_be) sha256_new calls = Ret (digests_of true SHA256 [] calls).
Proof.
  intros J C.
  exact (run_spec true host_be sha256_compress (sha256_process junk48 host_be) 8 sha256_iv
    (fun c b => sha256_ok junk48 host_be c b J) ltac:(discriminate)
    calls [] _ C (fed_new true sha256_compress 8 sha256_iv sha256_iv_words (repeat 0 64) eq_refl)).
Qed.
Print Assumptions C71_sha256_partial.

(** Asking twice does not give one answer. *)
Theorem C71_refuted : exists calls d1 d2, calls = [Ask (repeat 0 8) (repeat 0 16); Ask (repeat 0 8) (repeat 0 16)] /\
  md_run (md5_update false) (md5_digest false) (md5_new (repeat 0 64)) calls = Ret [d1; d2] /\ d1 <> d2.
Proof.
  exists [Ask (repeat 0 8) (repeat 0 16); Ask (repeat 0 8) (repeat 0 16)], (MD5 []), (MD5 (pad false [])).
  split; [reflexivity|]. split.
  - apply (C71_md5_partial false (repeat 0 64)); [reflexivity | repeat constructor].
  - intros E. apply (f_equal (fun l => nth 0 l 0)) in E. revert E. vm_compute. discriminate.
Qed.
Print Assumptions C71_refuted.
Example C71_ok : Forall (call_ok 4) [Feed [97]; Ask (repeat 0 8) (repeat 0 16); Feed []; Ask (repeat 1 8) (repeat 2 16)].
Proof. repeat constructor. Qed.

(** ** C72: Sha3 *)

(** The answer is 32 zero bytes whatever was fed. *)
Theorem C72_refuted host_be junk32 chunks : size junk32 = 32 ->
  sha3_digest host_be junk32 (fold_left sha3_update chunks sha3_new) = Ret (repeat 0 32).
Proof.
  intros J. assert (fold_left sha3_update chunks sha3_new = sha3_new) as -> by (induction chunks; auto).
  unfold sha3_digest. rewrite emit_words_spec; [destruct host_be; reflexivity | rewrite J; reflexivity | rewrite J; reflexivity].
Qed.
Print Assumptions C72_refuted.
Example C72_ok : size (repeat 9 32) = 32.
Proof. reflexivity. Qed.

(** ** C73: getDigestLength *)
Lemma size_output be h : size (output be h) = 4 * size h.
Proof.
  unfold output. induction h as [|w h IH]; [reflexivity|]. cbn [map concat]. rewrite size_app, IH, size_cons.
  assert (size (order_bytes be 4 w) = 4) as -> by (unfold size; now rewrite order_bytes_length). lia.
Qed.

(** Documented as bytes, the number returned is that of bits: eight times the
    size of the digest of every message. *)
Lemma chain_len n be compress process iv m :
  (forall c b, words_of n c -> size b = 64 -> bytes_ok b ->
     process c b = Ret (A := list N) (compress c (block_words be b)) /\ words_of n (compress c (block_words be b))) ->
  words_of n iv -> bytes_ok m -> size (hash_of be compress iv m) = 4 * n.
Proof.
  intros P I B. unfold hash_of. rewrite size_output. f_equal.
  assert (bytes_ok (pad be m)) as BP.
  { unfold pad, pad_with. rewrite !bytes_ok_app. repeat split; auto; try (now repeat constructor); [|apply order_bytes_ok].
    apply Forall_forall. intros b J. apply repeat_spec in J as ->. reflexivity. }
  destruct (loop_spec be compress process (words_of n) P (pad be m) (length (pad be m)) iv (Nat.le_refl _) BP I) as (_ & _ & L).
  exact L.
Qed.
Theorem C73_refuted m : bytes_ok m ->
  md5_getDigestLength = 8 * size (MD5 m) /\ sha1_getDigestLength = 8 * size (SHA1 m) /\
  sha256_getDigestLength = 8 * size (SHA256 m) /\ sha3_getDigestLength = 8 * size (repeat 0 32).
Proof.
  intros B. unfold MD5, SHA1, SHA256.
  rewrite (chain_len 4 false md5_compress (md5_process false) md5_iv m (md5_ok false) md5_iv_words B).
  rewrite (chain_len 5 true sha1_compress (sha1_process false) sha1_iv m (sha1_ok false) sha1_iv_words B).
  rewrite (chain_len 8 true sha256_compress (sha256_process (repeat 0 48) false) sha256_iv m
    (fun c b => sha256_ok (repeat 0 48) false c b eq_refl) sha256_iv_words B).
  repeat split.
Qed.
Print Assumptions C73_refuted.
Example C73_ok : bytes_ok [1; 2; 255].
Proof. repeat constructor. Qed.

(** ** C74: update from a reader *)

(** It is an update with the unread bytes, up to the limit; the reader is left
    at its limit.  [update] is that of any of the algorithms. *)
Theorem C74_reader {S} (update : S -> list N -> outcome S) st st' r :
  r_pos r <= r_lim r -> r_lim r <= size (r_buf r) -> size (r_buf r) < 2 ^ 64 ->
  update st (section (r_buf r) (r_pos r) (r_lim r - r_pos r)) = Ret st' ->
  update_reader update st r = Ret (st', mkReader (r_lim r) (r_lim r) (r_buf r)).
Proof.
  intros H1 H2 H3 E. unfold update_reader, r_viewRemaining.
  destruct (storage_slice_read (r_buf r) (r_pos r) (r_lim r - r_pos r)) as (A & B); [lia|].
  replace (r_pos r + (r_lim r - r_pos r)) with (r_lim r) in A, B by lia.
  rewrite A, B. cbn [bind]. rewrite section_spec in E. rewrite E. cbn [bind].
  unfold r_advance, r_remaining. rewrite sub64_le by lia. rewrite N.ltb_irrefl. cbn [snd].
  replace (r_pos r + (r_lim r - r_pos r)) with (r_lim r) by lia. unfold u64. now rewrite N.mod_small by lia.
Qed.
Print Assumptions C74_reader.
Example C74_ok : exists st', md5_update false (md5_new (repeat 0 64))
    (section (r_buf (mkReader 1 3 [1; 2; 3; 4])) 1 2) = Ret st'.
Proof. eexists. reflexivity. Qed.

(** ** C50: printed digests *)
Lemma digest_write_none src : bytes_ok src -> digest_write (writer_make []) src = Ret (writer_make []).
Proof.
  induction 1 as [|b t B _ IH]; [reflexivity|]. cbn [digest_write]. rewrite b16_pair_spec by assumption. cbn [bind].
  unfold w_write. cbn. exact IH.
Qed.

(** The string is always the empty one, which is the hexadecimal text of no
    digest but the empty one. *)
Theorem C50_refuted vec_ok alloc digest : bytes_ok digest ->
  (exists s, digest_toString vec_ok alloc digest = Ret s /\ str_view s = []) /\
  (digest <> [] -> hex_text digest <> []).
Proof.
  intros B. split; [|destruct digest; [congruence | discriminate]].
  unfold digest_toString. destruct vec_ok; cbn [negb]; [|eexists; split; reflexivity].
  unfold cstep, add, world0. cbn [bind fst snd w_objs w_next app get nth_error]. unfold vec_size. cbn [c_n c_buf].
  match goal with |- context [get [?x] 0] => change (get [x] 0) with x end. cbn [c_n c_buf].
  rewrite ntake_0, digest_write_none by assumption. cbn [bind]. unfold u16. rewrite N.mod_small, ntake_0 by reflexivity.
  unfold str_make. rewrite (@size_nil N). destruct (alloc 0) as [block|e] eqn:E; cbn [bind]; [|eexists; split; reflexivity].
  destruct (size block <? 0); cbn [bind]; eexists; (split; [reflexivity|]); [reflexivity|].
  unfold str_view. cbn [st_buf st_size]. rewrite N.min_0_r. apply ntake_0.
Qed.
Print Assumptions C50_refuted.
Example C50_ok : bytes_ok [1; 255] /\ hex_text [1; 255] = [48; 49; 102; 102].
Proof. split; [repeat constructor | reflexivity]. Qed.
