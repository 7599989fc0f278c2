(** Model of the Base16 encoder, decoder and iterators (src/base16.cpp). *)
From Verif Require Import Base MemViewModel ByteIOModel.

(** src/base16.cpp:69-91, include/solace/posixErrorDomain.hpp:138: SystemErrors::ILSEQ, the value of EILSEQ on Linux *)
Definition E_ILSEQ : error := 84.

(** src/base16.cpp:49-66 kBase16Alphabet_l: the two characters of every entry
    (generated from the source text). *)
Definition kBase16Alphabet_l : list (N * N) :=
  [(48,48); (48,49); (48,50); (48,51); (48,52); (48,53); (48,54); (48,55);
   (48,56); (48,57); (48,97); (48,98); (48,99); (48,100); (48,101); (48,102);
   (49,48); (49,49); (49,50); (49,51); (49,52); (49,53); (49,54); (49,55);
   (49,56); (49,57); (49,97); (49,98); (49,99); (49,100); (49,101); (49,102);
   (50,48); (50,49); (50,50); (50,51); (50,52); (50,53); (50,54); (50,55);
   (50,56); (50,57); (50,97); (50,98); (50,99); (50,100); (50,101); (50,102);
   (51,48); (51,49); (51,50); (51,51); (51,52); (51,53); (51,54); (51,55);
   (51,56); (51,57); (51,97); (51,98); (51,99); (51,100); (51,101); (51,102);
   (52,48); (52,49); (52,50); (52,51); (52,52); (52,53); (52,54); (52,55);
   (52,56); (52,57); (52,97); (52,98); (52,99); (52,100); (52,101); (52,102);
   (53,48); (53,49); (53,50); (53,51); (53,52); (53,53); (53,54); (53,55);
   (53,56); (53,57); (53,97); (53,98); (53,99); (53,100); (53,101); (53,102);
   (54,48); (54,49); (54,50); (54,51); (54,52); (54,53); (54,54); (54,55);
   (54,56); (54,57); (54,97); (54,98); (54,99); (54,100); (54,101); (54,102);
   (55,48); (55,49); (55,50); (55,51); (55,52); (55,53); (55,54); (55,55);
   (55,56); (55,57); (55,97); (55,98); (55,99); (55,100); (55,101); (55,102);
   (56,48); (56,49); (56,50); (56,51); (56,52); (56,53); (56,54); (56,55);
   (56,56); (56,57); (56,97); (56,98); (56,99); (56,100); (56,101); (56,102);
   (57,48); (57,49); (57,50); (57,51); (57,52); (57,53); (57,54); (57,55);
   (57,56); (57,57); (57,97); (57,98); (57,99); (57,100); (57,101); (57,102);
   (97,48); (97,49); (97,50); (97,51); (97,52); (97,53); (97,54); (97,55);
   (97,56); (97,57); (97,97); (97,98); (97,99); (97,100); (97,101); (97,102);
   (98,48); (98,49); (98,50); (98,51); (98,52); (98,53); (98,54); (98,55);
   (98,56); (98,57); (98,97); (98,98); (98,99); (98,100); (98,101); (98,102);
   (99,48); (99,49); (99,50); (99,51); (99,52); (99,53); (99,54); (99,55);
   (99,56); (99,57); (99,97); (99,98); (99,99); (99,100); (99,101); (99,102);
   (100,48); (100,49); (100,50); (100,51); (100,52); (100,53); (100,54); (100,55);
   (100,56); (100,57); (100,97); (100,98); (100,99); (100,100); (100,101); (100,102);
   (101,48); (101,49); (101,50); (101,51); (101,52); (101,53); (101,54); (101,55);
   (101,56); (101,57); (101,97); (101,98); (101,99); (101,100); (101,101); (101,102);
   (102,48); (102,49); (102,50); (102,51); (102,52); (102,53); (102,54); (102,55);
   (102,56); (102,57); (102,97); (102,98); (102,99); (102,100); (102,101); (102,102)].

(** src/base16.cpp:69-78 kHexToBin (generated from the source text). *)
Definition kHexToBin : list Z :=
  ([(-1); (-1); (-1); (-1); (-1); (-1); (-1); (-1); (-1); (-1); (-1); (-1); (-1); (-1); (-1); (-1);
   (-1); (-1); (-1); (-1); (-1); (-1); (-1); (-1); (-1); (-1); (-1); (-1); (-1); (-1); (-1); (-1);
   (-1); (-1); (-1); (-1); (-1); (-1); (-1); (-1); (-1); (-1); (-1); (-1); (-1); (-1); (-1); (-1);
   0; 1; 2; 3; 4; 5; 6; 7; 8; 9; (-1); (-1); (-1); (-1); (-1); (-1);
   (-1); 10; 11; 12; 13; 14; 15; (-1); (-1); (-1); (-1); (-1); (-1); (-1); (-1); (-1);
   (-1); (-1); (-1); (-1); (-1); (-1); (-1); (-1); (-1); (-1); (-1); (-1); (-1); (-1); (-1); (-1);
   (-1); 10; 11; 12; 13; 14; 15; (-1); (-1); (-1); (-1); (-1); (-1); (-1); (-1); (-1);
   (-1); (-1); (-1); (-1); (-1); (-1); (-1); (-1); (-1); (-1); (-1); (-1); (-1); (-1); (-1); (-1)])%Z.

(** src/base16.cpp:82-91 charToBin: the table has 128 entries, the argument is
    any byte; indexing past the end is undefined behaviour. *)
Definition charToBin (c : N) : outcome (result N) :=
  match nnth kHexToBin c with
  | None => UB
  | Some v => if (v <? 0)%Z then Ret (Err E_ILSEQ) else Ret (Ok (u8 (Z.to_N v)))
  end.

(** src/base16.cpp:94-98 *)
Definition b16_encodedSize (len : N) : N := u64 (2 * len).

(** src/base16.cpp:122-125 *)
Definition b16_decodedSize (len : N) : N := len / 2.

(** The two characters of a table entry; the index is a byte. *)
(** src/base16.cpp:49-66, 107-119, 163-166: the row of the table *)
Definition b16_pair (value : N) : outcome (list N) :=
  match nnth kBase16Alphabet_l value with
  | None => UB
  | Some (a, b) => Ret [a; b]
  end.

(** src/base16.cpp:107-119 Base16Encoder::encode; [src] are the viewed bytes. *)
Fixpoint b16_encode (dest : writer) (src : list N) : outcome (result unit * writer) :=
  match src with
  | [] => Ret (Ok tt, dest)
  | value :: rest =>
      let! two := b16_pair value in
      let! res := w_write dest two in
      match res with
      | (Ok _, dest') => b16_encode dest' rest
      | (Err e, dest') => Ret (Err e, dest')
      end
  end.

(** src/base16.cpp:144-157: the loop of Base16Decoder::encode over an even
    number of bytes.  src[i] and src[i+1] are in range because the size is even;
    both characters are converted before either result is inspected. *)
Fixpoint b16_decode_loop (dest : writer) (src : list N) : outcome (result unit * writer) :=
  match src with
  | [] => Ret (Ok tt, dest)
  | [_] => Throws IndexOutOfRange
  | a :: b :: rest =>
      let! high := charToBin a in
      let! low := charToBin b in
      match high, low with
      | Err e, _ => Ret (Err e, dest)
      | Ok _, Err e => Ret (Err e, dest)
      | Ok h, Ok l =>
          let! res := w_write dest [u8 (N.shiftl h 4 + l)] in
          match res with
          | (Ok _, dest') => b16_decode_loop dest' rest
          | (Err e, dest') => Ret (Err e, dest')
          end
      end
  end.

(** src/base16.cpp:136-160 Base16Decoder::encode *)
Definition b16_decode (dest : writer) (src : list N) : outcome (result unit * writer) :=
  if negb (size src mod 2 =? 0) then Ret (Err E_DOM, dest) else b16_decode_loop dest src.

(** src/encoder.cpp:29-34 Encoder::encode(ByteReader&), for any encoder. *)
Definition encode_reader (enc : writer -> list N -> outcome (result unit * writer))
    (dest : writer) (src : reader) : outcome (result unit * (writer * reader)) :=
  let remaining := r_remaining src in
  let v := r_viewRemaining src in
  let! bs := load (r_buf src) (v_addr v) (v_size v) in
  let! res := enc dest bs in
  match res with
  | (Err e, dest') => Ret (Err e, (dest', src))
  | (Ok _, dest') => let '(r, src') := r_advance src remaining in Ret (r, (dest', src'))
  end.

(** include/solace/base16.hpp:53-87 and src/base16.cpp:163-166: the text produced
    by iterating base16Encode_begin(src) .. base16Encode_end(src). *)
Fixpoint b16_encode_iter (src : list N) : outcome (list (list N)) :=
  match src with
  | [] => Ret []
  | value :: rest =>
      let! two := b16_pair value in
      let! t := b16_encode_iter rest in
      Ret (two :: t)
  end.

(** src/base16.cpp:169-182 decode16 *)
Definition decode16 (a b : N) : outcome (result N) :=
  let! high := charToBin a in
  let! low := charToBin b in
  match high, low with
  | Err e, _ => Ret (Err e)
  | Ok _, Err e => Ret (Err e)
  | Ok h, Ok l => Ret (Ok (u8 (N.shiftl h 4 + l)))
  end.

(** src/base16.cpp:185-205, 208-229: the state of a decoding iterator standing at
    the suffix [rest] of the source: [None] when it equals the end iterator. *)
Definition b16_iter_at (rest : list N) : outcome (option (N * list N)) :=
  match rest with
  | a :: b :: rest' =>
      let! r := decode16 a b in
      match r with Ok v => Ret (Some (v, rest')) | Err _ => Ret None end
  | _ => Ret None
  end.

(** Iterating base16Decode_begin(src) .. base16Decode_end(src). *)
(** include/solace/base16.hpp:115-152, src/base16.cpp:185-229 *)
Fixpoint b16_decode_iter (fuel : nat) (rest : list N) : outcome (list N) :=
  match fuel with
  | O => OutOfFuel
  | S fuel =>
      let! it := b16_iter_at rest in
      match it with
      | None => Ret []
      | Some (v, rest') => let! t := b16_decode_iter fuel rest' in Ret (v :: t)
      end
  end.
