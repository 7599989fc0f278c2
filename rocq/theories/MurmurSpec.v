(** MurmurHash3 as published (A. Appleby, MurmurHash3.cpp), for the little-endian
    reading of the message, written over the list of its words.  The bytes left
    over are filled up with zeros. *)
From Verif Require Import Base ByteIOSpec HashSpec.

Definition times (w a b : N) : N := (a * b) mod 2 ^ w.
Definition plus (w a b : N) : N := (a + b) mod 2 ^ w.

(** The i-th word of [n] bytes of a block. *)
Definition word_of (n : N) (block : list N) (i : N) : N := order_value false (section block (n * i) n).
(** Full blocks of [n] bytes, and the rest filled up with zeros to a block. *)
Definition full_blocks (n : N) (m : list N) : list (list N) :=
  map (fun i => section m (n * N.of_nat i) n) (seq 0 (length m / N.to_nat n)).
Definition last_block (n : N) (m : list N) : list N :=
  let left := skipn (N.to_nat n * (length m / N.to_nat n)) m in
  left ++ repeat 0 (N.to_nat n - length left).

(** A word is scrambled: times a, rotated by r, times b. *)
Definition scramble (w a r b k : N) : N := times w (rotl w r (times w k a)) b.
(** A lane takes up a scrambled word, is rotated, the next lane is added, and
    the result goes through an affine map. *)
Definition lane (w r c h next : N) : N := plus w (times w (plus w (rotl w r h) next) 5) c.
(** The final avalanche. *)
Definition avalanche (w s1 c1 s2 c2 s3 h : N) : N :=
  let h := times w (h XOR (h / 2 ^ s1)) c1 in
  let h := times w (h XOR (h / 2 ^ s2)) c2 in
  h XOR (h / 2 ^ s3).
Definition avalanche32 : N -> N := avalanche 32 16 0x85ebca6b 13 0xc2b2ae35 16.
Definition avalanche64 : N -> N := avalanche 64 33 0xff51afd7ed558ccd 33 0xc4ceb9fe1a85ec53 33.

(** ** MurmurHash3_x86_32 *)
Definition scramble_32 : N -> N := scramble 32 0xcc9e2d51 15 0x1b873593.
Definition murmur3_x86_32 (seed : N) (m : list N) : N :=
  let h := fold_left (fun h b => lane 32 13 0xe6546b64 (h XOR scramble_32 (word_of 4 b 0)) 0) (full_blocks 4 m) seed in
  let h := h XOR scramble_32 (word_of 4 (last_block 4 m) 0) in
  avalanche32 (h XOR (size m mod 2 ^ 32)).

(** ** MurmurHash3_x86_128 *)
Definition s86_1 : N -> N := scramble 32 0x239b961b 15 0xab0e9789.
Definition s86_2 : N -> N := scramble 32 0xab0e9789 16 0x38b34ae5.
Definition s86_3 : N -> N := scramble 32 0x38b34ae5 17 0xa1e38b93.
Definition s86_4 : N -> N := scramble 32 0xa1e38b93 18 0x239b961b.
Definition step_x86 (h : N * N * N * N) (b : list N) : N * N * N * N :=
  let '(h1, h2, h3, h4) := h in
  let h1 := lane 32 19 0x561ccd1b (h1 XOR s86_1 (word_of 4 b 0)) h2 in
  let h2 := lane 32 17 0x0bcaa747 (h2 XOR s86_2 (word_of 4 b 1)) h3 in
  let h3 := lane 32 15 0x96cd1c35 (h3 XOR s86_3 (word_of 4 b 2)) h4 in
  let h4 := lane 32 13 0x32ac3b17 (h4 XOR s86_4 (word_of 4 b 3)) h1 in
  (h1, h2, h3, h4).
Definition spread4 (h : N * N * N * N) : N * N * N * N :=
  let '(h1, h2, h3, h4) := h in
  let h1 := (h1 + h2 + h3 + h4) mod 2 ^ 32 in
  (h1, plus 32 h2 h1, plus 32 h3 h1, plus 32 h4 h1).
Definition murmur3_x86_128 (seed : N) (m : list N) : list N :=
  let '(h1, h2, h3, h4) := fold_left step_x86 (full_blocks 16 m) (seed, seed, seed, seed) in
  let b := last_block 16 m in
  let len := size m mod 2 ^ 32 in
  let h := spread4 (h1 XOR s86_1 (word_of 4 b 0) XOR len, h2 XOR s86_2 (word_of 4 b 1) XOR len,
                    h3 XOR s86_3 (word_of 4 b 2) XOR len, h4 XOR s86_4 (word_of 4 b 3) XOR len) in
  let '(h1, h2, h3, h4) := h in
  let '(h1, h2, h3, h4) := spread4 (avalanche32 h1, avalanche32 h2, avalanche32 h3, avalanche32 h4) in
  [h1; h2; h3; h4].

(** ** MurmurHash3_x64_128 *)
Definition s64_1 : N -> N := scramble 64 0x87c37b91114253d5 31 0x4cf5ad432745937f.
Definition s64_2 : N -> N := scramble 64 0x4cf5ad432745937f 33 0x87c37b91114253d5.
Definition step_x64 (h : N * N) (b : list N) : N * N :=
  let '(h1, h2) := h in
  let h1 := lane 64 27 0x52dce729 (h1 XOR s64_1 (word_of 8 b 0)) h2 in
  let h2 := lane 64 31 0x38495ab5 (h2 XOR s64_2 (word_of 8 b 1)) h1 in
  (h1, h2).
Definition spread2 (h : N * N) : N * N :=
  let '(h1, h2) := h in let h1 := plus 64 h1 h2 in (h1, plus 64 h2 h1).
Definition murmur3_x64_128 (seed : N) (m : list N) : list N :=
  let '(h1, h2) := fold_left step_x64 (full_blocks 16 m) (seed, seed) in
  let b := last_block 16 m in
  let '(h1, h2) := spread2 (h1 XOR s64_1 (word_of 8 b 0) XOR size m, h2 XOR s64_2 (word_of 8 b 1) XOR size m) in
  let '(h1, h2) := spread2 (avalanche64 h1, avalanche64 h2) in
  [h1; h2].
