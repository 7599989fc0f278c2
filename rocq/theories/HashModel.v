(** Model of the message digests: src/hashing/md5.cpp, sha1.cpp, sha2.cpp,
    sha3.cpp, murmur3.cpp and messageDigest.cpp.

    A byte sequence is a list of numbers below 256, a uint32 a number below
    2^32.  Registers and word arrays are lists.  [host_be] is the byte order of
    the machine (ByteReader and ByteWriter swap or not according to it). *)
From Verif Require Import Base MemViewModel ByteIOModel Base16Model MemoryModel ContainerModel StringModel.

(** ** uint32 arithmetic *)
(** src/hashing/md5.cpp:40-236, src/hashing/sha1.cpp:41-272, src/hashing/sha2.cpp:63-244: + on uint32 *)
Definition add32 (a b : N) : N := u32 (a + b).
(** src/hashing/md5.cpp:40-236, src/hashing/sha1.cpp:41-272, src/hashing/sha2.cpp:63-244: << on uint32 *)
Definition shl32 (x n : N) : N := u32 (N.shiftl x n).
(** src/hashing/md5.cpp:40-236, src/hashing/sha1.cpp:41-272, src/hashing/sha2.cpp:63-244: ~ on uint32 *)
Definition not32 (x : N) : N := N.lxor x 0xFFFFFFFF.
(** the macro S of src/hashing/md5.cpp:48 and src/hashing/sha1.cpp:50 *)
Definition hash_S (x n : N) : N := N.lor (shl32 x n) (N.shiftr (N.land x 0xFFFFFFFF) (32 - n)).

(** An array element and an assignment to it. *)
(** src/hashing/md5.cpp:40-236, src/hashing/sha1.cpp:41-272, src/hashing/sha2.cpp:63-244: reading an array *)
Definition at_ (l : list N) (i : nat) : N := nth i l 0.
(** src/hashing/md5.cpp:40-236, src/hashing/sha1.cpp:41-272, src/hashing/sha2.cpp:63-244: writing an array *)
Fixpoint set_ (l : list N) (i : nat) (v : N) : list N :=
  match l, i with
  | [], _ => []
  | _ :: t, O => v :: t
  | x :: t, S i' => x :: set_ t i' v
  end.

(** ** Reading the words of a block and writing words out *)

(** src/hashing/md5.cpp:43-46, sha1.cpp:44-47, sha2.cpp:117-119:
    [for (auto& x : X) reader.readLE(x)].  A failed read would leave its word
    uninitialised, and every word is used later. *)
Fixpoint read_words (host_be be : bool) (n : nat) (r : reader) : outcome (list N) :=
  match n with
  | O => Ret []
  | S n' =>
      let! p := r_readInt host_be be W32 r in
      match fst p with
      | Err _ => UB
      | Ok x => let! xs := read_words host_be be n' (snd p) in Ret (x :: xs)
      end
  end.

(** A run of writer.writeLE / writeBE calls, results ignored. *)
(** src/hashing/md5.cpp:219-235, src/hashing/sha1.cpp:256-271, src/hashing/sha2.cpp:228-243 *)
Fixpoint write_words (host_be be : bool) (ws : list N) (w : writer) : outcome writer :=
  match ws with
  | [] => Ret w
  | x :: t => let! p := w_writeInt host_be be W32 x w in write_words host_be be t (snd p)
  end.

(** The bytes of [ByteWriter w{wrapMemory(storage)}; w.write..(ws)...; w.viewWritten()];
    [storage] holds whatever the stack held. *)
(** src/hashing/md5.cpp:219-235, src/hashing/sha1.cpp:256-271, src/hashing/sha2.cpp:228-243 *)
Definition emit_words (host_be be : bool) (storage ws : list N) : outcome (list N) :=
  let! w := write_words host_be be ws (writer_make storage) in
  let v := w_viewWritten w in
  load (w_buf w) (v_addr v) (v_size v).

(** ** The part MD5, SHA-1 and SHA-256 share

    The three update functions and the three digest functions differ only in
    the names, in the block function and in the byte order of the length and of
    the output. *)

(** include/solace/hashing/md5.hpp:45-49, sha1.hpp:41-45, sha2.hpp:41-45 *)
Record mdstate := mkMd { md_lo : N; md_hi : N; md_chain : list N; md_buffer : list N }.

(** memcpy(ctx.buffer + left, src, n): the buffer has 64 bytes. *)
(** src/hashing/md5.cpp:163, 178, src/hashing/sha1.cpp:199, 214, src/hashing/sha2.cpp:164, 179: memcpy into the block buffer *)
Definition md_copy (buffer : list N) (left : N) (src : list N) : outcome (list N) :=
  if 64 <? left + size src then UB else Ret (overwrite buffer left src).

(** src/hashing/md5.cpp:170-174, sha1.cpp:207-211, sha2.cpp:172-176: while (inputLen >= 64) *)
Fixpoint md_loop (process : list N -> list N -> outcome (list N)) (fuel : nat) (chain input : list N)
  : outcome (list N * list N) :=
  if 64 <=? size input then
    match fuel with
    | O => OutOfFuel
    | S f => let! chain' := process chain (ntake 64 input) in md_loop process f chain' (ndrop 64 input)
    end
  else Ret (chain, input).

(** src/hashing/md5.cpp:146-180, sha1.cpp:184-216, sha2.cpp:150-181.  The byte
    counters are uint32, the length is uint64. *)
Definition md_update (process : list N -> list N -> outcome (list N)) (st : mdstate) (input : list N) : outcome mdstate :=
  let inputLen := size input in
  if inputLen =? 0 then Ret st else
  let lft := N.land (md_lo st) 0x3F in
  let fill := 64 - lft in
  let lo := N.land (u32 (md_lo st + inputLen)) 0xFFFFFFFF in
  let hi := if lo <? inputLen then u32 (md_hi st + 1) else md_hi st in
  let! p :=
    (if negb (lft =? 0) && (fill <=? inputLen) then
       let! buffer := md_copy (md_buffer st) lft (ntake fill input) in
       let! chain := process (md_chain st) buffer in
       Ret (chain, buffer, 0, ndrop fill input)
     else Ret (md_chain st, md_buffer st, lft, input)) in
  let '(chain, buffer, lft, input) := p in
  let! q := md_loop process (length input) chain input in
  let '(chain, input) := q in
  let! buffer := (if 0 <? size input then md_copy buffer lft input else Ret buffer) in
  Ret (mkMd lo hi chain buffer).

(** src/hashing/md5.cpp:31-36, sha1.cpp:32-37, sha2.cpp:32-37 *)
Definition md_padding : list N := 0x80 :: repeat 0 63.

(** The two words of the message length, low then high:
    src/hashing/md5.cpp:216-217, sha1.cpp:253-254, sha2.cpp:225-226 *)
Definition md_high (st : mdstate) : N := N.lor (N.shiftr (md_lo st) 29) (shl32 (md_hi st) 3).
Definition md_low (st : mdstate) : N := shl32 (md_lo st) 3.

(** src/hashing/md5.cpp:212-236 ([be] = false, low word first),
    sha1.cpp:249-272 and sha2.cpp:221-244 ([be] = true, high word first).
    [junk8] and [junk] are the uninitialised msglen and result arrays. *)
Definition md_digest (process : list N -> list N -> outcome (list N)) (host_be be : bool) (junk8 junk : list N) (st : mdstate)
  : outcome (list N * mdstate) :=
  let! msglen := emit_words host_be be junk8 (if be then [md_high st; md_low st] else [md_low st; md_high st]) in
  let last := N.land (md_lo st) 0x3F in
  let padn := if last <? 56 then 56 - last else 120 - last in
  (* md_padding has 64 bytes *)
  let! st1 := (if 64 <? padn then UB else md_update process st (ntake padn md_padding)) in
  let! st2 := md_update process st1 msglen in
  let! out := emit_words host_be be junk (md_chain st2) in
  Ret (out, st2).

(** ** MD5 *)

(** One line P(a, b, c, d, k, s, t); registers A, B, C, D are numbered 0 to 3. *)
(** src/hashing/md5.cpp:48-50, 57-135 *)
Inductive md5_line := MD5P (a b c d k : nat) (s t : N).

(** src/hashing/md5.cpp:50 *)
Definition md5_P (F : N -> N -> N -> N) (X : list N) (r : list N) (l : md5_line) : list N :=
  match l with
  | MD5P a b c d k s t =>
      let va := add32 (at_ r a) (add32 (add32 (F (at_ r b) (at_ r c) (at_ r d)) (at_ X k)) t) in
      set_ r a (add32 (hash_S va s) (at_ r b))
  end.

(** src/hashing/md5.cpp:49, 76, 97, 118 *)
Definition md5_F1 (x y z : N) : N := N.lxor z (N.land x (N.lxor y z)).
Definition md5_F2 (x y z : N) : N := N.lxor y (N.land z (N.lxor x y)).
Definition md5_F3 (x y z : N) : N := N.lxor (N.lxor x y) z.
Definition md5_F4 (x y z : N) : N := N.lxor y (N.lor x (not32 z)).

(** src/hashing/md5.cpp:57-72, the sixteen lines of round 1 (generated from the source text) *)
Definition md5_lines1 : list md5_line :=
  [MD5P 0 1 2 3 0 7 0xD76AA478;
   MD5P 3 0 1 2 1 12 0xE8C7B756;
   MD5P 2 3 0 1 2 17 0x242070DB;
   MD5P 1 2 3 0 3 22 0xC1BDCEEE;
   MD5P 0 1 2 3 4 7 0xF57C0FAF;
   MD5P 3 0 1 2 5 12 0x4787C62A;
   MD5P 2 3 0 1 6 17 0xA8304613;
   MD5P 1 2 3 0 7 22 0xFD469501;
   MD5P 0 1 2 3 8 7 0x698098D8;
   MD5P 3 0 1 2 9 12 0x8B44F7AF;
   MD5P 2 3 0 1 10 17 0xFFFF5BB1;
   MD5P 1 2 3 0 11 22 0x895CD7BE;
   MD5P 0 1 2 3 12 7 0x6B901122;
   MD5P 3 0 1 2 13 12 0xFD987193;
   MD5P 2 3 0 1 14 17 0xA679438E;
   MD5P 1 2 3 0 15 22 0x49B40821].

(** src/hashing/md5.cpp:78-93, the sixteen lines of round 2 (generated from the source text) *)
Definition md5_lines2 : list md5_line :=
  [MD5P 0 1 2 3 1 5 0xF61E2562;
   MD5P 3 0 1 2 6 9 0xC040B340;
   MD5P 2 3 0 1 11 14 0x265E5A51;
   MD5P 1 2 3 0 0 20 0xE9B6C7AA;
   MD5P 0 1 2 3 5 5 0xD62F105D;
   MD5P 3 0 1 2 10 9 0x02441453;
   MD5P 2 3 0 1 15 14 0xD8A1E681;
   MD5P 1 2 3 0 4 20 0xE7D3FBC8;
   MD5P 0 1 2 3 9 5 0x21E1CDE6;
   MD5P 3 0 1 2 14 9 0xC33707D6;
   MD5P 2 3 0 1 3 14 0xF4D50D87;
   MD5P 1 2 3 0 8 20 0x455A14ED;
   MD5P 0 1 2 3 13 5 0xA9E3E905;
   MD5P 3 0 1 2 2 9 0xFCEFA3F8;
   MD5P 2 3 0 1 7 14 0x676F02D9;
   MD5P 1 2 3 0 12 20 0x8D2A4C8A].

(** src/hashing/md5.cpp:99-114, the sixteen lines of round 3 (generated from the source text) *)
Definition md5_lines3 : list md5_line :=
  [MD5P 0 1 2 3 5 4 0xFFFA3942;
   MD5P 3 0 1 2 8 11 0x8771F681;
   MD5P 2 3 0 1 11 16 0x6D9D6122;
   MD5P 1 2 3 0 14 23 0xFDE5380C;
   MD5P 0 1 2 3 1 4 0xA4BEEA44;
   MD5P 3 0 1 2 4 11 0x4BDECFA9;
   MD5P 2 3 0 1 7 16 0xF6BB4B60;
   MD5P 1 2 3 0 10 23 0xBEBFBC70;
   MD5P 0 1 2 3 13 4 0x289B7EC6;
   MD5P 3 0 1 2 0 11 0xEAA127FA;
   MD5P 2 3 0 1 3 16 0xD4EF3085;
   MD5P 1 2 3 0 6 23 0x04881D05;
   MD5P 0 1 2 3 9 4 0xD9D4D039;
   MD5P 3 0 1 2 12 11 0xE6DB99E5;
   MD5P 2 3 0 1 15 16 0x1FA27CF8;
   MD5P 1 2 3 0 2 23 0xC4AC5665].

(** src/hashing/md5.cpp:120-135, the sixteen lines of round 4 (generated from the source text) *)
Definition md5_lines4 : list md5_line :=
  [MD5P 0 1 2 3 0 6 0xF4292244;
   MD5P 3 0 1 2 7 10 0x432AFF97;
   MD5P 2 3 0 1 14 15 0xAB9423A7;
   MD5P 1 2 3 0 5 21 0xFC93A039;
   MD5P 0 1 2 3 12 6 0x655B59C3;
   MD5P 3 0 1 2 3 10 0x8F0CCC92;
   MD5P 2 3 0 1 10 15 0xFFEFF47D;
   MD5P 1 2 3 0 1 21 0x85845DD1;
   MD5P 0 1 2 3 8 6 0x6FA87E4F;
   MD5P 3 0 1 2 15 10 0xFE2CE6E0;
   MD5P 2 3 0 1 6 15 0xA3014314;
   MD5P 1 2 3 0 13 21 0x4E0811A1;
   MD5P 0 1 2 3 4 6 0xF7537E82;
   MD5P 3 0 1 2 11 10 0xBD3AF235;
   MD5P 2 3 0 1 2 15 0x2AD7D2BB;
   MD5P 1 2 3 0 9 21 0xEB86D391].

(** src/hashing/md5.cpp:40-143 *)
Definition md5_process (host_be : bool) (chain block : list N) : outcome (list N) :=
  let! X := read_words host_be false 16 (reader_make block) in
  let r := [at_ chain 0; at_ chain 1; at_ chain 2; at_ chain 3] in
  let r := fold_left (md5_P md5_F1 X) md5_lines1 r in
  let r := fold_left (md5_P md5_F2 X) md5_lines2 r in
  let r := fold_left (md5_P md5_F3 X) md5_lines3 r in
  let r := fold_left (md5_P md5_F4 X) md5_lines4 r in
  Ret [add32 (at_ chain 0) (at_ r 0); add32 (at_ chain 1) (at_ r 1);
       add32 (at_ chain 2) (at_ r 2); add32 (at_ chain 3) (at_ r 3)].

(** src/hashing/md5.cpp:183-191; the buffer is not initialised. *)
Definition md5_new (junk : list N) : mdstate :=
  mkMd 0 0 [0x67452301; 0xEFCDAB89; 0x98BADCFE; 0x10325476] junk.

(** src/hashing/md5.cpp:204-209 *)
Definition md5_update (host_be : bool) (st : mdstate) (input : list N) : outcome mdstate :=
  md_update (md5_process host_be) st input.
Definition md5_digest (host_be : bool) (junk8 junk16 : list N) (st : mdstate) : outcome (list N * mdstate) :=
  md_digest (md5_process host_be) host_be false junk8 junk16 st.

(** ** SHA-1 *)

(** One line P(a, b, c, d, e, x) where x is W[i] or R(t). *)
(** src/hashing/sha1.cpp:52-57, 71-171: W[t] or R(t) *)
Inductive sha1_src := AtW (i : nat) | AtR (t : N).
(** src/hashing/sha1.cpp:59-60, 71-171 *)
Inductive sha1_line := SHA1P (a b c d e : nat) (x : sha1_src).

(** src/hashing/sha1.cpp:52-57 the macro R; returns the value and the new W. *)
Definition sha1_R (W : list N) (t : N) : N * list N :=
  let ix n := N.to_nat (N.land n 0x0F) in
  let temp := N.lxor (N.lxor (N.lxor (at_ W (ix (t - 3))) (at_ W (ix (t - 8)))) (at_ W (ix (t - 14)))) (at_ W (ix t)) in
  let v := hash_S temp 1 in
  (v, set_ W (ix t) v).

(** src/hashing/sha1.cpp:59-60 *)
Definition sha1_P (F : N -> N -> N -> N) (K : N) (wr : list N * list N) (l : sha1_line) : list N * list N :=
  let '(W, r) := wr in
  match l with
  | SHA1P a b c d e x =>
      let '(v, W) := match x with AtW i => (at_ W i, W) | AtR t => sha1_R W t end in
      let r := set_ r e (add32 (at_ r e)
                 (add32 (add32 (add32 (hash_S (at_ r a) 5) (F (at_ r b) (at_ r c) (at_ r d))) K) v)) in
      (W, set_ r b (hash_S (at_ r b) 30))
  end.

(** src/hashing/sha1.cpp:68-69, 95-96, 122-123, 149-150 *)
Definition sha1_F1 (x y z : N) : N := N.lxor z (N.land x (N.lxor y z)).
Definition sha1_K1 : N := 0x5A827999.
Definition sha1_F2 (x y z : N) : N := N.lxor (N.lxor x y) z.
Definition sha1_K2 : N := 0x6ED9EBA1.
Definition sha1_F3 (x y z : N) : N := N.lor (N.land x y) (N.land z (N.lor x y)).
Definition sha1_K3 : N := 0x8F1BBCDC.
Definition sha1_F4 (x y z : N) : N := N.lxor (N.lxor x y) z.
Definition sha1_K4 : N := 0xCA62C1D6.

(** src/hashing/sha1.cpp:71-90, the twenty lines of round 1 (generated from the source text) *)
Definition sha1_lines1 : list sha1_line :=
  [SHA1P 0 1 2 3 4 (AtW 0); SHA1P 4 0 1 2 3 (AtW 1);
   SHA1P 3 4 0 1 2 (AtW 2); SHA1P 2 3 4 0 1 (AtW 3);
   SHA1P 1 2 3 4 0 (AtW 4); SHA1P 0 1 2 3 4 (AtW 5);
   SHA1P 4 0 1 2 3 (AtW 6); SHA1P 3 4 0 1 2 (AtW 7);
   SHA1P 2 3 4 0 1 (AtW 8); SHA1P 1 2 3 4 0 (AtW 9);
   SHA1P 0 1 2 3 4 (AtW 10); SHA1P 4 0 1 2 3 (AtW 11);
   SHA1P 3 4 0 1 2 (AtW 12); SHA1P 2 3 4 0 1 (AtW 13);
   SHA1P 1 2 3 4 0 (AtW 14); SHA1P 0 1 2 3 4 (AtW 15);
   SHA1P 4 0 1 2 3 (AtR 16); SHA1P 3 4 0 1 2 (AtR 17);
   SHA1P 2 3 4 0 1 (AtR 18); SHA1P 1 2 3 4 0 (AtR 19)].

(** src/hashing/sha1.cpp:98-117, the twenty lines of round 2 (generated from the source text) *)
Definition sha1_lines2 : list sha1_line :=
  [SHA1P 0 1 2 3 4 (AtR 20); SHA1P 4 0 1 2 3 (AtR 21);
   SHA1P 3 4 0 1 2 (AtR 22); SHA1P 2 3 4 0 1 (AtR 23);
   SHA1P 1 2 3 4 0 (AtR 24); SHA1P 0 1 2 3 4 (AtR 25);
   SHA1P 4 0 1 2 3 (AtR 26); SHA1P 3 4 0 1 2 (AtR 27);
   SHA1P 2 3 4 0 1 (AtR 28); SHA1P 1 2 3 4 0 (AtR 29);
   SHA1P 0 1 2 3 4 (AtR 30); SHA1P 4 0 1 2 3 (AtR 31);
   SHA1P 3 4 0 1 2 (AtR 32); SHA1P 2 3 4 0 1 (AtR 33);
   SHA1P 1 2 3 4 0 (AtR 34); SHA1P 0 1 2 3 4 (AtR 35);
   SHA1P 4 0 1 2 3 (AtR 36); SHA1P 3 4 0 1 2 (AtR 37);
   SHA1P 2 3 4 0 1 (AtR 38); SHA1P 1 2 3 4 0 (AtR 39)].

(** src/hashing/sha1.cpp:125-144, the twenty lines of round 3 (generated from the source text) *)
Definition sha1_lines3 : list sha1_line :=
  [SHA1P 0 1 2 3 4 (AtR 40); SHA1P 4 0 1 2 3 (AtR 41);
   SHA1P 3 4 0 1 2 (AtR 42); SHA1P 2 3 4 0 1 (AtR 43);
   SHA1P 1 2 3 4 0 (AtR 44); SHA1P 0 1 2 3 4 (AtR 45);
   SHA1P 4 0 1 2 3 (AtR 46); SHA1P 3 4 0 1 2 (AtR 47);
   SHA1P 2 3 4 0 1 (AtR 48); SHA1P 1 2 3 4 0 (AtR 49);
   SHA1P 0 1 2 3 4 (AtR 50); SHA1P 4 0 1 2 3 (AtR 51);
   SHA1P 3 4 0 1 2 (AtR 52); SHA1P 2 3 4 0 1 (AtR 53);
   SHA1P 1 2 3 4 0 (AtR 54); SHA1P 0 1 2 3 4 (AtR 55);
   SHA1P 4 0 1 2 3 (AtR 56); SHA1P 3 4 0 1 2 (AtR 57);
   SHA1P 2 3 4 0 1 (AtR 58); SHA1P 1 2 3 4 0 (AtR 59)].

(** src/hashing/sha1.cpp:152-171, the twenty lines of round 4 (generated from the source text) *)
Definition sha1_lines4 : list sha1_line :=
  [SHA1P 0 1 2 3 4 (AtR 60); SHA1P 4 0 1 2 3 (AtR 61);
   SHA1P 3 4 0 1 2 (AtR 62); SHA1P 2 3 4 0 1 (AtR 63);
   SHA1P 1 2 3 4 0 (AtR 64); SHA1P 0 1 2 3 4 (AtR 65);
   SHA1P 4 0 1 2 3 (AtR 66); SHA1P 3 4 0 1 2 (AtR 67);
   SHA1P 2 3 4 0 1 (AtR 68); SHA1P 1 2 3 4 0 (AtR 69);
   SHA1P 0 1 2 3 4 (AtR 70); SHA1P 4 0 1 2 3 (AtR 71);
   SHA1P 3 4 0 1 2 (AtR 72); SHA1P 2 3 4 0 1 (AtR 73);
   SHA1P 1 2 3 4 0 (AtR 74); SHA1P 0 1 2 3 4 (AtR 75);
   SHA1P 4 0 1 2 3 (AtR 76); SHA1P 3 4 0 1 2 (AtR 77);
   SHA1P 2 3 4 0 1 (AtR 78); SHA1P 1 2 3 4 0 (AtR 79)].

(** src/hashing/sha1.cpp:41-181 *)
Definition sha1_process (host_be : bool) (chain block : list N) : outcome (list N) :=
  let! W := read_words host_be true 16 (reader_make block) in
  let wr := (W, [at_ chain 0; at_ chain 1; at_ chain 2; at_ chain 3; at_ chain 4]) in
  let wr := fold_left (sha1_P sha1_F1 sha1_K1) sha1_lines1 wr in
  let wr := fold_left (sha1_P sha1_F2 sha1_K2) sha1_lines2 wr in
  let wr := fold_left (sha1_P sha1_F3 sha1_K3) sha1_lines3 wr in
  let wr := fold_left (sha1_P sha1_F4 sha1_K4) sha1_lines4 wr in
  let r := snd wr in
  Ret [add32 (at_ chain 0) (at_ r 0); add32 (at_ chain 1) (at_ r 1); add32 (at_ chain 2) (at_ r 2);
       add32 (at_ chain 3) (at_ r 3); add32 (at_ chain 4) (at_ r 4)].

(** src/hashing/sha1.cpp:219-229; the buffer is not initialised. *)
Definition sha1_new (junk : list N) : mdstate :=
  mkMd 0 0 [0x67452301; 0xEFCDAB89; 0x98BADCFE; 0x10325476; 0xC3D2E1F0] junk.

(** src/hashing/sha1.cpp:242-246 *)
Definition sha1_update (host_be : bool) (st : mdstate) (input : list N) : outcome mdstate :=
  md_update (sha1_process host_be) st input.
Definition sha1_digest (host_be : bool) (junk8 junk20 : list N) (st : mdstate) : outcome (list N * mdstate) :=
  md_digest (sha1_process host_be) host_be true junk8 junk20 st.

(** ** SHA-256 *)

(** src/hashing/sha2.cpp:51-60 (generated from the source text) *)
Definition sha256_K : list N :=
  [0x428a2f98; 0x71374491; 0xb5c0fbcf; 0xe9b5dba5; 0x3956c25b; 0x59f111f1; 0x923f82a4; 0xab1c5ed5;
   0xd807aa98; 0x12835b01; 0x243185be; 0x550c7dc3; 0x72be5d74; 0x80deb1fe; 0x9bdc06a7; 0xc19bf174;
   0xe49b69c1; 0xefbe4786; 0x0fc19dc6; 0x240ca1cc; 0x2de92c6f; 0x4a7484aa; 0x5cb0a9dc; 0x76f988da;
   0x983e5152; 0xa831c66d; 0xb00327c8; 0xbf597fc7; 0xc6e00bf3; 0xd5a79147; 0x06ca6351; 0x14292967;
   0x27b70a85; 0x2e1b2138; 0x4d2c6dfc; 0x53380d13; 0x650a7354; 0x766a0abb; 0x81c2c92e; 0x92722c85;
   0xa2bfe8a1; 0xa81a664b; 0xc24b8b70; 0xc76c51a3; 0xd192e819; 0xd6990624; 0xf40e3585; 0x106aa070;
   0x19a4c116; 0x1e376c08; 0x2748774c; 0x34b0bcb5; 0x391c0cb3; 0x4ed8aa4a; 0x5b9cca4f; 0x682e6ff3;
   0x748f82ee; 0x78a5636f; 0x84c87814; 0x8cc70208; 0x90befffa; 0xa4506ceb; 0xbef9a3f7; 0xc67178f2].

(** src/hashing/sha2.cpp:63-73 *)
Definition SHR (x n : N) : N := N.shiftr (N.land x 0xFFFFFFFF) n.
Definition ROTR (x n : N) : N := N.lor (SHR x n) (shl32 x (32 - n)).
Definition sha256_S0 (x : N) : N := N.lxor (N.lxor (ROTR x 7) (ROTR x 18)) (SHR x 3).
Definition sha256_S1 (x : N) : N := N.lxor (N.lxor (ROTR x 17) (ROTR x 19)) (SHR x 10).
Definition sha256_S2 (x : N) : N := N.lxor (N.lxor (ROTR x 2) (ROTR x 13)) (ROTR x 22).
Definition sha256_S3 (x : N) : N := N.lxor (N.lxor (ROTR x 6) (ROTR x 11)) (ROTR x 25).
Definition sha256_F0 (x y z : N) : N := N.lor (N.land x y) (N.land z (N.lor x y)).
Definition sha256_F1 (x y z : N) : N := N.lxor z (N.land x (N.lxor y z)).

(** src/hashing/sha2.cpp:75-79 the macro R: the new W. *)
Definition sha256_R (W : list N) (t : nat) : list N :=
  set_ W t (add32 (add32 (add32 (sha256_S1 (at_ W (t - 2))) (at_ W (t - 7))) (sha256_S0 (at_ W (t - 15)))) (at_ W (t - 16))).

(** One line P(A[a], ..., A[h], W[i+j] or R(i+j), K[i+j]). *)
(** src/hashing/sha2.cpp:81-86, 121-141 *)
Inductive sha256_line := SHA2P (a b c d e f g h j : nat).

(** src/hashing/sha2.cpp:81-86; [expand] tells R(i+j) from W[i+j]. *)
Definition sha256_P (expand : bool) (i : nat) (wr : list N * list N) (l : sha256_line) : list N * list N :=
  let '(W, r) := wr in
  match l with
  | SHA2P a b c d e f g h j =>
      let W := if expand then sha256_R W (i + j) else W in
      let x := at_ W (i + j) in
      let temp1 := add32 (add32 (add32 (add32 (at_ r h) (sha256_S3 (at_ r e))) (sha256_F1 (at_ r e) (at_ r f) (at_ r g)))
                                (at_ sha256_K (i + j))) x in
      let temp2 := add32 (sha256_S2 (at_ r a)) (sha256_F0 (at_ r a) (at_ r b) (at_ r c)) in
      let r := set_ r d (add32 (at_ r d) temp1) in
      (W, set_ r h (add32 temp1 temp2))
  end.

(** src/hashing/sha2.cpp:122-129 and 133-140 (generated from the source text;
    both loop bodies name the same registers) *)
Definition sha256_lines : list sha256_line :=
  [SHA2P 0 1 2 3 4 5 6 7 0;
   SHA2P 7 0 1 2 3 4 5 6 1;
   SHA2P 6 7 0 1 2 3 4 5 2;
   SHA2P 5 6 7 0 1 2 3 4 3;
   SHA2P 4 5 6 7 0 1 2 3 4;
   SHA2P 3 4 5 6 7 0 1 2 5;
   SHA2P 2 3 4 5 6 7 0 1 6;
   SHA2P 1 2 3 4 5 6 7 0 7].

(** src/hashing/sha2.cpp:90-147 with SOLACE_SHA256_SMALLER not defined.
    [junk48] are the entries of W not yet written. *)
Definition sha256_process (junk48 : list N) (host_be : bool) (chain block : list N) : outcome (list N) :=
  let r := [at_ chain 0; at_ chain 1; at_ chain 2; at_ chain 3; at_ chain 4; at_ chain 5; at_ chain 6; at_ chain 7] in
  let! W := read_words host_be true 16 (reader_make block) in
  let wr := (W ++ junk48, r) in
  let wr := fold_left (fun wr i => fold_left (sha256_P false i) sha256_lines wr) [0; 8]%nat wr in
  let wr := fold_left (fun wr i => fold_left (sha256_P true i) sha256_lines wr) [16; 24; 32; 40; 48; 56]%nat wr in
  let r := snd wr in
  Ret [add32 (at_ chain 0) (at_ r 0); add32 (at_ chain 1) (at_ r 1); add32 (at_ chain 2) (at_ r 2); add32 (at_ chain 3) (at_ r 3);
       add32 (at_ chain 4) (at_ r 4); add32 (at_ chain 5) (at_ r 5); add32 (at_ chain 6) (at_ r 6); add32 (at_ chain 7) (at_ r 7)].

(** src/hashing/sha2.cpp:103-114, the branch with SOLACE_SHA256_SMALLER
    defined: one line per turn, then the registers are shifted by hand. *)
Fixpoint sha256_small (host_be : bool) (is : list nat) (rd : reader) (W r : list N) : outcome (list N) :=
  match is with
  | [] => Ret r
  | i :: is' =>
      let! p :=
        (if (i <? 16)%nat then
           let! q := r_readInt host_be true W32 rd in
           match fst q with Err _ => UB | Ok x => Ret (set_ W i x, snd q) end
         else Ret (sha256_R W i, rd)) in
      let '(W, rd) := p in
      let r := snd (sha256_P false i (W, r) (SHA2P 0 1 2 3 4 5 6 7 0)) in
      let r := [at_ r 7; at_ r 0; at_ r 1; at_ r 2; at_ r 3; at_ r 4; at_ r 5; at_ r 6] in
      sha256_small host_be is' rd W r
  end.
Definition sha256_process_small (junk64 : list N) (host_be : bool) (chain block : list N) : outcome (list N) :=
  let r := [at_ chain 0; at_ chain 1; at_ chain 2; at_ chain 3; at_ chain 4; at_ chain 5; at_ chain 6; at_ chain 7] in
  let! r := sha256_small host_be (seq 0 64) (reader_make block) junk64 r in
  Ret [add32 (at_ chain 0) (at_ r 0); add32 (at_ chain 1) (at_ r 1); add32 (at_ chain 2) (at_ r 2); add32 (at_ chain 3) (at_ r 3);
       add32 (at_ chain 4) (at_ r 4); add32 (at_ chain 5) (at_ r 5); add32 (at_ chain 6) (at_ r 6); add32 (at_ chain 7) (at_ r 7)].

(** src/hashing/sha2.cpp:185-201 *)
Definition sha256_new : mdstate :=
  mkMd 0 0 [0x6a09e667; 0xbb67ae85; 0x3c6ef372; 0xa54ff53a; 0x510e527f; 0x9b05688c; 0x1f83d9ab; 0x5be0cd19] (repeat 0 64).

(** src/hashing/sha2.cpp:214-218 *)
Definition sha256_update (junk48 : list N) (host_be : bool) (st : mdstate) (input : list N) : outcome mdstate :=
  md_update (sha256_process junk48 host_be) st input.
Definition sha256_digest (junk48 : list N) (host_be : bool) (junk8 junk32 : list N) (st : mdstate) : outcome (list N * mdstate) :=
  md_digest (sha256_process junk48 host_be) host_be true junk8 junk32 st.

(** A history of update calls, for any of the three. *)
(** include/solace/hashing/digestAlgorithm.hpp:60-79: update called repeatedly *)
Fixpoint md_updates (update : mdstate -> list N -> outcome mdstate) (st : mdstate) (chunks : list (list N)) : outcome mdstate :=
  match chunks with
  | [] => Ret st
  | c :: t => let! st' := update st c in md_updates update st' t
  end.

(** include/solace/hashing/digestAlgorithm.hpp:67-73: update(ByteReader&), for any
    of the three; the Result of advance is dropped. *)
Definition update_reader {S} (update : S -> list N -> outcome S) (st : S) (r : reader) : outcome (S * reader) :=
  let memView := r_viewRemaining r in
  let! bytes := load (r_buf r) (v_addr memView) (v_size memView) in
  let! st' := update st bytes in
  Ret (st', snd (r_advance r (v_size memView))).

(** ** Sha3 *)

(** src/hashing/sha3.cpp:30-37, 52-57, 60-70; update ignores its argument. *)
Definition sha3_new : list N := repeat 0 8.
Definition sha3_update (st : list N) (input : list N) : list N := st.
Definition sha3_digest (host_be : bool) (junk32 : list N) (st : list N) : outcome (list N) :=
  emit_words host_be true junk32 st.

(** ** getDigestLength
    src/hashing/md5.cpp:199-201, sha1.cpp:237-239, sha2.cpp:209-211,
    sha3.cpp:46-49, murmur3.cpp:325-328, 358-360 *)
Definition md5_getDigestLength : N := 128.
Definition sha1_getDigestLength : N := 160.
Definition sha256_getDigestLength : N := 256.
Definition sha3_getDigestLength : N := 256.
Definition murmur3_32_getDigestLength : N := 32.
Definition murmur3_128_getDigestLength : N := 128.

(** ** MessageDigest::toString *)

(** The loop of src/hashing/messageDigest.cpp:47-52: [dest.write] of the two
    characters for every byte of the digest, results ignored. *)
Fixpoint digest_write (w : writer) (src : list N) : outcome writer :=
  match src with
  | [] => Ret w
  | b :: t => let! two := b16_pair b in let! p := w_write w two in digest_write (snd p) t
  end.

(** src/hashing/messageDigest.cpp:37-58; [vec_ok] tells whether the allocation
    behind makeVector succeeds, [alloc] is the allocator behind makeString.  The
    vector is modelled as in ContainerModel.v (makeVector(n) reserves room for n
    elements and holds none): the characters live in its memory, of which
    [buffer.data(), buffer.size()] is wrapped. *)
Definition digest_toString (vec_ok : bool) (alloc : heap) (digest : list N) : outcome str :=
  if negb vec_ok then Ret (mkStr [] 0) else
  let! p := cstep (A := N) 1 world0 (MakeVecN (b16_encodedSize (size digest))) in
  match get (w_objs (fst (fst p))) 0 with
  | Some (_, v) =>
      let memory := repeat 0 (N.to_nat (b_bytes (c_buf v))) in
      let! dest := digest_write (writer_make (ntake (vec_size v) memory)) digest in
      let memory := overwrite memory 0 (w_buf dest) in
      let! r := str_make alloc (ntake (u16 (vec_size v)) memory) in
      match r with Ok s => Ret s | Err _ => Ret (mkStr [] 0) end
  | None => UB
  end.

(** A history of update and digest calls; the digests it returns.  [junk8] and
    [junk] are the uninitialised arrays of that call of digest(). *)
(** include/solace/hashing/digestAlgorithm.hpp:60-79: update or digest *)
Inductive hash_call := Feed (chunk : list N) | Ask (junk8 junk : list N).
(** include/solace/hashing/digestAlgorithm.hpp:60-79: a sequence of calls *)
Fixpoint md_run (update : mdstate -> list N -> outcome mdstate)
  (digest : list N -> list N -> mdstate -> outcome (list N * mdstate)) (st : mdstate) (calls : list hash_call)
  : outcome (list (list N)) :=
  match calls with
  | [] => Ret []
  | Feed c :: t => let! st' := update st c in md_run update digest st' t
  | Ask junk8 junk :: t =>
      let! p := digest junk8 junk st in
      let! out := md_run update digest (snd p) t in
      Ret (fst p :: out)
  end.
