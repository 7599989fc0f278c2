(** Model of the Murmur3 hashes: src/hashing/murmur3.cpp.

    [data] are the bytes of the view handed to update; reading elsewhere is
    undefined behaviour.  The alignment of the words read through a cast pointer
    is not modelled.  [host_be] is the byte order of the machine. *)
From Verif Require Import Base MemViewModel ByteIOModel HashModel.

(** ** uint32 and uint64 arithmetic; [w] is 32 or 64 *)
(** src/hashing/murmur3.cpp:41-378: unsigned arithmetic *)
Definition wrap (w x : N) : N := x mod 2 ^ w.
(** src/hashing/murmur3.cpp:41-378: + *)
Definition addw (w a b : N) : N := wrap w (a + b).
(** src/hashing/murmur3.cpp:41-378: * *)
Definition mulw (w a b : N) : N := wrap w (a * b).
(** src/hashing/murmur3.cpp:41-47 rotl32, rotl64 *)
Definition rotw (w x r : N) : N := N.lor (wrap w (N.shiftl x r)) (N.shiftr x (w - r)).

(** src/hashing/murmur3.cpp:60-66 getblock32, getblock64: the word [off] bytes
    into the data *)
Definition getblock (host_be : bool) (bytes : N) (data : list N) (off : N) : outcome N :=
  let! bs := load data (Some off) bytes in Ret (host_load host_be bs).

(** tail[j] *)
(** src/hashing/murmur3.cpp:41-378: tail[j] *)
Definition byte_at (data : list N) (off : N) : outcome N :=
  match nnth data off with Some b => Ret b | None => UB end.

(** src/hashing/murmur3.cpp:71-80 *)
Definition m_fmix32 (h : N) : N :=
  let h := N.lxor h (N.shiftr h 16) in
  let h := mulw 32 h 0x85ebca6b in
  let h := N.lxor h (N.shiftr h 13) in
  let h := mulw 32 h 0xc2b2ae35 in
  N.lxor h (N.shiftr h 16).
(** src/hashing/murmur3.cpp:83-92 *)
Definition m_fmix64 (k : N) : N :=
  let k := N.lxor k (N.shiftr k 33) in
  let k := mulw 64 k 0xff51afd7ed558ccd in
  let k := N.lxor k (N.shiftr k 33) in
  let k := mulw 64 k 0xc4ceb9fe1a85ec53 in
  N.lxor k (N.shiftr k 33).

(** The pattern [k *= a; k = ROTL(k, r); k *= b; h ^= k]. *)
(** src/hashing/murmur3.cpp:41-378: the body and tail lines *)
Definition m_mix (w a r b k h : N) : N := N.lxor h (mulw w (rotw w (mulw w k a) r) b).

(** A run of lines [case j + 1: k ^= tail[j] << s] that fall through, given as
    the pairs (j, s); [rest] is the number the switch is on, [off] where the tail
    starts. *)
(** src/hashing/murmur3.cpp:41-378: the switch on the tail *)
Fixpoint m_cases (w : N) (lines : list (N * N)) (rest : N) (data : list N) (off k : N) : outcome N :=
  match lines with
  | [] => Ret k
  | (j, s) :: t =>
      if j <? rest then
        let! b := byte_at data (off + j) in
        m_cases w t rest data off (N.lxor k (wrap w (N.shiftl b s)))
      else m_cases w t rest data off k
  end.

(** ** murmurhash3_x86_32 *)

(** src/hashing/murmur3.cpp:107-118: i runs from -nblocks to 0, [rem] = -i *)
Fixpoint m32_body (host_be : bool) (data : list N) (nblocks : N) (rem : nat) (h1 : N) : outcome N :=
  match rem with
  | O => Ret h1
  | S rem' =>
      let! k1 := getblock host_be 4 data (4 * (nblocks - N.of_nat rem)) in
      let h1 := m_mix 32 0xcc9e2d51 15 0x1b873593 k1 h1 in
      let h1 := rotw 32 h1 13 in
      let h1 := addw 32 (mulw 32 h1 5) 0xe6546b64 in
      m32_body host_be data nblocks rem' h1
  end.
(** src/hashing/murmur3.cpp:124-129 *)
Definition m32_lines : list (N * N) := [(2, 16); (1, 8); (0, 0)].
(** src/hashing/murmur3.cpp:95-138.  nblocks is an int: nblocks * 4 overflows from
    2^31 bytes on (from 2^33 bytes on the conversion to int is not defined by
    the language either, simplification: undefined as well). *)
Definition m_x86_32 (host_be : bool) (data : list N) (seed : N) : outcome N :=
  let len := size data in
  let nblocks := len / 4 in
  if 2 ^ 31 <=? nblocks * 4 then UB else
  let! h1 := m32_body host_be data nblocks (N.to_nat nblocks) seed in
  let rest := N.land len 3 in
  let! k1 := m_cases 32 m32_lines rest data (nblocks * 4) 0 in
  let h1 := if 1 <=? rest then m_mix 32 0xcc9e2d51 15 0x1b873593 k1 h1 else h1 in
  let h1 := N.lxor h1 (wrap 32 len) in
  Ret (m_fmix32 h1).

(** ** MurmurHash3_x86_128 *)

(** src/hashing/murmur3.cpp:160-183 *)
Fixpoint m86_body (host_be : bool) (data : list N) (nblocks : N) (rem : nat) (h1 h2 h3 h4 : N) : outcome (N * N * N * N) :=
  match rem with
  | O => Ret (h1, h2, h3, h4)
  | S rem' =>
      let off := 16 * (nblocks - N.of_nat rem) in
      let! k1 := getblock host_be 4 data (off + 0) in
      let! k2 := getblock host_be 4 data (off + 4) in
      let! k3 := getblock host_be 4 data (off + 8) in
      let! k4 := getblock host_be 4 data (off + 12) in
      let h1 := m_mix 32 0x239b961b 15 0xab0e9789 k1 h1 in
      let h1 := addw 32 (mulw 32 (addw 32 (rotw 32 h1 19) h2) 5) 0x561ccd1b in
      let h2 := m_mix 32 0xab0e9789 16 0x38b34ae5 k2 h2 in
      let h2 := addw 32 (mulw 32 (addw 32 (rotw 32 h2 17) h3) 5) 0x0bcaa747 in
      let h3 := m_mix 32 0x38b34ae5 17 0xa1e38b93 k3 h3 in
      let h3 := addw 32 (mulw 32 (addw 32 (rotw 32 h3 15) h4) 5) 0x96cd1c35 in
      let h4 := m_mix 32 0xa1e38b93 18 0x239b961b k4 h4 in
      let h4 := addw 32 (mulw 32 (addw 32 (rotw 32 h4 13) h1) 5) 0x32ac3b17 in
      m86_body host_be data nblocks rem' h1 h2 h3 h4
  end.
(** src/hashing/murmur3.cpp:193-216 *)
Definition m86_k4_lines : list (N * N) := [(14, 16); (13, 8); (12, 0)].
Definition m86_k3_lines : list (N * N) := [(11, 24); (10, 16); (9, 8); (8, 0)].
Definition m86_k2_lines : list (N * N) := [(7, 24); (6, 16); (5, 8); (4, 0)].
Definition m86_k1_lines : list (N * N) := [(3, 24); (2, 16); (1, 8); (0, 0)].
(** src/hashing/murmur3.cpp:141-239 *)
Definition m_x86_128 (host_be : bool) (data : list N) (seed : N) : outcome (list N) :=
  let len := size data in
  let nblocks := len / 16 in
  if 2 ^ 31 <=? nblocks * 16 then UB else
  let! p := m86_body host_be data nblocks (N.to_nat nblocks) seed seed seed seed in
  let '(h1, h2, h3, h4) := p in
  let rest := N.land len 15 in
  let off := nblocks * 16 in
  let! k4 := m_cases 32 m86_k4_lines rest data off 0 in
  let h4 := if 13 <=? rest then m_mix 32 0xa1e38b93 18 0x239b961b k4 h4 else h4 in
  let! k3 := m_cases 32 m86_k3_lines rest data off 0 in
  let h3 := if 9 <=? rest then m_mix 32 0x38b34ae5 17 0xa1e38b93 k3 h3 else h3 in
  let! k2 := m_cases 32 m86_k2_lines rest data off 0 in
  let h2 := if 5 <=? rest then m_mix 32 0xab0e9789 16 0x38b34ae5 k2 h2 else h2 in
  let! k1 := m_cases 32 m86_k1_lines rest data off 0 in
  let h1 := if 1 <=? rest then m_mix 32 0x239b961b 15 0xab0e9789 k1 h1 else h1 in
  let h1 := N.lxor h1 (wrap 32 len) in let h2 := N.lxor h2 (wrap 32 len) in
  let h3 := N.lxor h3 (wrap 32 len) in let h4 := N.lxor h4 (wrap 32 len) in
  let h1 := addw 32 (addw 32 (addw 32 h1 h2) h3) h4 in
  let h2 := addw 32 h2 h1 in let h3 := addw 32 h3 h1 in let h4 := addw 32 h4 h1 in
  let h1 := m_fmix32 h1 in let h2 := m_fmix32 h2 in let h3 := m_fmix32 h3 in let h4 := m_fmix32 h4 in
  let h1 := addw 32 (addw 32 (addw 32 h1 h2) h3) h4 in
  let h2 := addw 32 h2 h1 in let h3 := addw 32 h3 h1 in let h4 := addw 32 h4 h1 in
  Ret [h1; h2; h3; h4].

(** ** MurmurHash3_x64_128 *)

(** src/hashing/murmur3.cpp:255-267 *)
Fixpoint m64_body (host_be : bool) (data : list N) (nblocks : N) (rem : nat) (h1 h2 : N) : outcome (N * N) :=
  match rem with
  | O => Ret (h1, h2)
  | S rem' =>
      let off := 16 * (nblocks - N.of_nat rem) in
      let! k1 := getblock host_be 8 data (off + 0) in
      let! k2 := getblock host_be 8 data (off + 8) in
      let h1 := m_mix 64 0x87c37b91114253d5 31 0x4cf5ad432745937f k1 h1 in
      let h1 := addw 64 (mulw 64 (addw 64 (rotw 64 h1 27) h2) 5) 0x52dce729 in
      let h2 := m_mix 64 0x4cf5ad432745937f 33 0x87c37b91114253d5 k2 h2 in
      let h2 := addw 64 (mulw 64 (addw 64 (rotw 64 h2 31) h1) 5) 0x38495ab5 in
      m64_body host_be data nblocks rem' h1 h2
  end.
(** src/hashing/murmur3.cpp:276-295 *)
Definition m64_k2_lines : list (N * N) := [(14, 48); (13, 40); (12, 32); (11, 24); (10, 16); (9, 8); (8, 0)].
Definition m64_k1_lines : list (N * N) := [(7, 56); (6, 48); (5, 40); (4, 32); (3, 24); (2, 16); (1, 8); (0, 0)].
(** src/hashing/murmur3.cpp:242-313 *)
Definition m_x64_128 (host_be : bool) (data : list N) (seed : N) : outcome (list N) :=
  let len := size data in
  let nblocks := len / 16 in
  if 2 ^ 31 <=? nblocks * 16 then UB else
  let! p := m64_body host_be data nblocks (N.to_nat nblocks) seed seed in
  let '(h1, h2) := p in
  let rest := N.land len 15 in
  let off := nblocks * 16 in
  let! k2 := m_cases 64 m64_k2_lines rest data off 0 in
  let h2 := if 9 <=? rest then m_mix 64 0x4cf5ad432745937f 33 0x87c37b91114253d5 k2 h2 else h2 in
  let! k1 := m_cases 64 m64_k1_lines rest data off 0 in
  let h1 := if 1 <=? rest then m_mix 64 0x87c37b91114253d5 31 0x4cf5ad432745937f k1 h1 else h1 in
  let h1 := N.lxor h1 (wrap 64 len) in let h2 := N.lxor h2 (wrap 64 len) in
  let h1 := addw 64 h1 h2 in let h2 := addw 64 h2 h1 in
  let h1 := m_fmix64 h1 in let h2 := m_fmix64 h2 in
  let h1 := addw 64 h1 h2 in let h2 := addw 64 h2 h1 in
  Ret [h1; h2].

(** ** The classes *)

(** include/solace/hashing/murmur3.hpp:44-48, 76-77 Murmur3_32 *)
Record mm32 := mkMm32 { mm_hash : N; mm_seed : N }.
Definition mm32_new (seed : N) : mm32 := mkMm32 0 seed.
(** src/hashing/murmur3.cpp:331-335 *)
Definition mm32_update (host_be : bool) (st : mm32) (input : list N) : outcome mm32 :=
  let! h := m_x86_32 host_be input (mm_seed st) in Ret (mkMm32 h (mm_seed st)).
(** src/hashing/murmur3.cpp:338-346 *)
Definition mm32_digest (host_be : bool) (junk4 : list N) (st : mm32) : outcome (list N) :=
  emit_words host_be true junk4 [mm_hash st].

(** include/solace/hashing/murmur3.hpp:94-97, 125-126 Murmur3_128; the member
    uint64 _hash[2] is given by its 16 bytes. *)
Record mm128 := mkMm128 { mm_bytes : list N; mm_seed128 : N }.
Definition mm128_new (seed : N) : mm128 := mkMm128 (repeat 0 16) seed.
(** src/hashing/murmur3.cpp:363-373; [x64]: the 64-bit architectures (the others
    store four uint32 in _hash) *)
Definition mm128_update (x64 host_be : bool) (st : mm128) (input : list N) : outcome mm128 :=
  let! bytes :=
    (if x64 then let! h := m_x64_128 host_be input (mm_seed128 st) in Ret (concat (map (host_store host_be W64) h))
     else let! h := m_x86_128 host_be input (mm_seed128 st) in Ret (concat (map (host_store host_be W32) h))) in
  Ret (mkMm128 bytes (mm_seed128 st)).
(** src/hashing/murmur3.cpp:376-378 *)
Definition mm128_digest (st : mm128) : list N := mm_bytes st.

(** A history of update calls. *)
(** src/hashing/murmur3.cpp:41-378: update called repeatedly *)
Fixpoint mm_updates {S} (update : S -> list N -> outcome S) (st : S) (chunks : list (list N)) : outcome S :=
  match chunks with
  | [] => Ret st
  | c :: t => let! st' := update st c in mm_updates update st' t
  end.
