(** Model of the Base16 and Base64 encoders and decoders when the source and the destination
    writer's storage are parts of one block of memory (src/base16.cpp, src/base64.cpp): every read
    sees what was written before it.  The block is what lies before the storage, the storage and what
    lies behind it; an address is an offset into the block. *)
From Verif Require Import Base MemViewModel ByteIOModel Base16Model Base64Model.

(** include/solace/byteWriter.hpp:60-77, 262-265: the block around the storage of a writer *)
Record around := mkAround { before : list N; behind : list N }.
(** include/solace/byteWriter.hpp:60-77, 262-265: the whole block *)
Definition block (m : around) (w : writer) : list N := before m ++ w_buf w ++ behind m.

(** include/solace/memoryView.hpp:149-158, src/memoryView.cpp:42-47: the byte at an address *)
Definition byte_in (m : around) (w : writer) (a : N) : outcome N := at_ (block m w) a.

(** src/base16.cpp:107-119 Base16Encoder::encode, [n] bytes from [s] on *)
Fixpoint b16_encode_in (m : around) (w : writer) (s : N) (n : nat) : outcome (result unit * writer) :=
  match n with
  | O => Ret (Ok tt, w)
  | S n' =>
      let! value := byte_in m w s in
      let! two := b16_pair value in
      let! res := w_write w two in
      match res with
      | (Ok _, w') => b16_encode_in m w' (s + 1) n'
      | (Err e, w') => Ret (Err e, w')
      end
  end.

(** src/base16.cpp:144-157: the loop of Base16Decoder::encode *)
Fixpoint b16_decode_loop_in (m : around) (w : writer) (s : N) (n : nat) : outcome (result unit * writer) :=
  match n with
  | O => Ret (Ok tt, w)
  | S O => Throws IndexOutOfRange
  | S (S n') =>
      let! a := byte_in m w s in
      let! high := charToBin a in
      let! b := byte_in m w (s + 1) in
      let! low := charToBin b in
      match high, low with
      | Err e, _ => Ret (Err e, w)
      | Ok _, Err e => Ret (Err e, w)
      | Ok h, Ok l =>
          let! res := w_write w [u8 (N.shiftl h 4 + l)] in
          match res with
          | (Ok _, w') => b16_decode_loop_in m w' (s + 2) n'
          | (Err e, w') => Ret (Err e, w')
          end
      end
  end.

(** src/base16.cpp:136-160 Base16Decoder::encode *)
Definition b16_decode_in (m : around) (w : writer) (s : N) (n : nat) : outcome (result unit * writer) :=
  if negb (N.of_nat n mod 2 =? 0) then Ret (Err E_DOM, w) else b16_decode_loop_in m w s n.

(** src/base64.cpp:34-70 base64encode *)
Fixpoint base64encode_in (m : around) (w : writer) (s : N) (n : nat) (alphabet : list N) : outcome (result unit * writer) :=
  match n with
  | S (S (S n')) =>
      let! s0 := byte_in m w s in
      let! s1 := byte_in m w (s + 1) in
      let! s2 := byte_in m w (s + 2) in
      let! e0 := at_ alphabet (N.land (N.shiftr s0 2) 0x3F) in
      let! e1 := at_ alphabet (N.lor (N.shiftl (N.land s0 0x3) 4) (N.shiftr (N.land s1 0xF0) 4)) in
      let! e2 := at_ alphabet (N.lor (N.shiftl (N.land s1 0xF) 2) (N.shiftr (N.land s2 0xC0) 6)) in
      let! e3 := at_ alphabet (N.land s2 0x3F) in
      let! res := w_write w [e0; e1; e2; e3] in
      match res with
      | (Ok _, w') => base64encode_in m w' (s + 3) n' alphabet
      | (Err e, w') => Ret (Err e, w')
      end
  | S O =>
      let! s0 := byte_in m w s in
      let! e0 := at_ alphabet (N.land (N.shiftr s0 2) 0x3F) in
      let! e1 := at_ alphabet (N.shiftl (N.land s0 0x3) 4) in
      let! res := w_write w [e0; e1; 61; 61] in
      match res with
      | (Ok _, w') => Ret (Ok tt, w')
      | (Err e, w') => Ret (Err e, w')
      end
  | S (S O) =>
      let! s0 := byte_in m w s in
      let! s1 := byte_in m w (s + 1) in
      let! e0 := at_ alphabet (N.land (N.shiftr s0 2) 0x3F) in
      let! e1 := at_ alphabet (N.lor (N.shiftl (N.land s0 0x3) 4) (N.shiftr (N.land s1 0xF0) 4)) in
      let! e2 := at_ alphabet (N.shiftl (N.land s1 0xF) 2) in
      let! res := w_write w [e0; e1; e2; 61] in
      match res with
      | (Ok _, w') => Ret (Ok tt, w')
      | (Err e, w') => Ret (Err e, w')
      end
  | O => Ret (Ok tt, w)
  end.

(** src/base64.cpp:138-142, 150, 155, 160: the value of the character at an address *)
Definition dec_in (m : around) (table : list N) (w : writer) (a : N) : outcome N :=
  let! c := byte_in m w a in at_ table c.

(** src/base64.cpp:149-163: the tail *)
Definition b64_tail_in (m : around) (w : writer) (s : N) (nprbytes : nat) (table : list N) : outcome (result unit * writer) :=
  let! r1 := if (1 <? nprbytes)%nat then
               let! d0 := dec_in m table w s in let! d1 := dec_in m table w (s + 1) in
               w_write w [u8 (N.lor (N.shiftl d0 2) (N.shiftr d1 4))]
             else Ret (Ok tt, w) in
  match r1 with
  | (Err e, w') => Ret (Err e, w')
  | (Ok _, w) =>
    let! r2 := if (2 <? nprbytes)%nat then
                 let! d1 := dec_in m table w (s + 1) in let! d2 := dec_in m table w (s + 2) in
                 w_write w [u8 (N.lor (N.shiftl d1 4) (N.shiftr d2 2))]
               else Ret (Ok tt, w) in
    match r2 with
    | (Err e, w') => Ret (Err e, w')
    | (Ok _, w) =>
      let! r3 := if (3 <? nprbytes)%nat then
                   let! d2 := dec_in m table w (s + 2) in let! d3 := dec_in m table w (s + 3) in
                   w_write w [u8 (N.lor (N.shiftl d2 6) d3)]
                 else Ret (Ok tt, w) in
      match r3 with
      | (Err e, w') => Ret (Err e, w')
      | (Ok _, w) => Ret (Ok tt, w)
      end
    end
  end.

(** src/base64.cpp:133-146 the main loop, then the tail *)
Fixpoint b64_loop_in (m : around) (w : writer) (s : N) (nprbytes : nat) (table : list N) : outcome (result unit * writer) :=
  match nprbytes with
  | S (S (S (S (S _ as left)))) =>
      let! d0 := dec_in m table w s in
      let! d1 := dec_in m table w (s + 1) in
      let! d2 := dec_in m table w (s + 2) in
      let! d3 := dec_in m table w (s + 3) in
      let! res := w_write w [u8 (N.lor (N.shiftl d0 2) (N.shiftr d1 4));
                             u8 (N.lor (N.shiftl d1 4) (N.shiftr d2 2));
                             u8 (N.lor (N.shiftl d2 6) d3)] in
      match res with
      | (Ok _, w') => b64_loop_in m w' (s + 4) left table
      | (Err e, w') => Ret (Err e, w')
      end
  | _ => b64_tail_in m w s nprbytes table
  end.

(** src/base64.cpp:120-166 base64decode; the characters are counted before anything is written *)
Definition base64decode_in (m : around) (w : writer) (s : N) (n : N) (table : list N) : outcome (result unit * writer) :=
  if n =? 0 then Ret (Err E_NODATA, w) else
  let! nprbytes := b64_scan (ndrop s (block m w)) table in
  b64_loop_in m w s (N.to_nat nprbytes) table.

(** src/base64.cpp:204-222: the entry points *)
Definition b64_encode_in (url : bool) (m : around) (w : writer) (s : N) (n : nat) := base64encode_in m w s n (alphabet_of url).
Definition b64_decode_in (url : bool) (m : around) (w : writer) (s n : N) := base64decode_in m w s n (table_of url).
