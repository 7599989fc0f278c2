(** Model of the Base64 encoders and decoders (src/base64.cpp).  The destination
    writer has its own buffer; a source in the writer's own buffer is InPlaceModel.v. *)
From Verif Require Import Base MemViewModel ByteIOModel.

(** src/base64.cpp:30-31 (generated from the source; entry 64 is the NUL of the
    string literal). *)
Definition kBase64Alphabet : list N :=
  [65; 66; 67; 68; 69; 70; 71; 72; 73; 74; 75; 76; 77; 78; 79; 80;
   81; 82; 83; 84; 85; 86; 87; 88; 89; 90; 97; 98; 99; 100; 101; 102;
   103; 104; 105; 106; 107; 108; 109; 110; 111; 112; 113; 114; 115; 116; 117; 118;
   119; 120; 121; 122; 48; 49; 50; 51; 52; 53; 54; 55; 56; 57; 43; 47; 0].
Definition kBase64UrlAlphabet : list N :=
  [65; 66; 67; 68; 69; 70; 71; 72; 73; 74; 75; 76; 77; 78; 79; 80;
   81; 82; 83; 84; 85; 86; 87; 88; 89; 90; 97; 98; 99; 100; 101; 102;
   103; 104; 105; 106; 107; 108; 109; 110; 111; 112; 113; 114; 115; 116; 117; 118;
   119; 120; 121; 122; 48; 49; 50; 51; 52; 53; 54; 55; 56; 57; 45; 95; 0].

(** src/base64.cpp:75-94 pr2six and :97-116 prUrl2six (generated from the source). *)
Definition pr2six : list N :=
  [64; 64; 64; 64; 64; 64; 64; 64; 64; 64; 64; 64; 64; 64; 64; 64;
   64; 64; 64; 64; 64; 64; 64; 64; 64; 64; 64; 64; 64; 64; 64; 64;
   64; 64; 64; 64; 64; 64; 64; 64; 64; 64; 64; 62; 64; 64; 64; 63;
   52; 53; 54; 55; 56; 57; 58; 59; 60; 61; 64; 64; 64; 64; 64; 64;
   64; 0; 1; 2; 3; 4; 5; 6; 7; 8; 9; 10; 11; 12; 13; 14;
   15; 16; 17; 18; 19; 20; 21; 22; 23; 24; 25; 64; 64; 64; 64; 64;
   64; 26; 27; 28; 29; 30; 31; 32; 33; 34; 35; 36; 37; 38; 39; 40;
   41; 42; 43; 44; 45; 46; 47; 48; 49; 50; 51; 64; 64; 64; 64; 64;
   64; 64; 64; 64; 64; 64; 64; 64; 64; 64; 64; 64; 64; 64; 64; 64;
   64; 64; 64; 64; 64; 64; 64; 64; 64; 64; 64; 64; 64; 64; 64; 64;
   64; 64; 64; 64; 64; 64; 64; 64; 64; 64; 64; 64; 64; 64; 64; 64;
   64; 64; 64; 64; 64; 64; 64; 64; 64; 64; 64; 64; 64; 64; 64; 64;
   64; 64; 64; 64; 64; 64; 64; 64; 64; 64; 64; 64; 64; 64; 64; 64;
   64; 64; 64; 64; 64; 64; 64; 64; 64; 64; 64; 64; 64; 64; 64; 64;
   64; 64; 64; 64; 64; 64; 64; 64; 64; 64; 64; 64; 64; 64; 64; 64;
   64; 64; 64; 64; 64; 64; 64; 64; 64; 64; 64; 64; 64; 64; 64; 64].
Definition prUrl2six : list N :=
  [64; 64; 64; 64; 64; 64; 64; 64; 64; 64; 64; 64; 64; 64; 64; 64;
   64; 64; 64; 64; 64; 64; 64; 64; 64; 64; 64; 64; 64; 64; 64; 64;
   64; 64; 64; 64; 64; 64; 64; 64; 64; 64; 64; 64; 64; 62; 64; 64;
   52; 53; 54; 55; 56; 57; 58; 59; 60; 61; 64; 64; 64; 64; 64; 64;
   64; 0; 1; 2; 3; 4; 5; 6; 7; 8; 9; 10; 11; 12; 13; 14;
   15; 16; 17; 18; 19; 20; 21; 22; 23; 24; 25; 64; 64; 64; 64; 63;
   64; 26; 27; 28; 29; 30; 31; 32; 33; 34; 35; 36; 37; 38; 39; 40;
   41; 42; 43; 44; 45; 46; 47; 48; 49; 50; 51; 64; 64; 64; 64; 64;
   64; 64; 64; 64; 64; 64; 64; 64; 64; 64; 64; 64; 64; 64; 64; 64;
   64; 64; 64; 64; 64; 64; 64; 64; 64; 64; 64; 64; 64; 64; 64; 64;
   64; 64; 64; 64; 64; 64; 64; 64; 64; 64; 64; 64; 64; 64; 64; 64;
   64; 64; 64; 64; 64; 64; 64; 64; 64; 64; 64; 64; 64; 64; 64; 64;
   64; 64; 64; 64; 64; 64; 64; 64; 64; 64; 64; 64; 64; 64; 64; 64;
   64; 64; 64; 64; 64; 64; 64; 64; 64; 64; 64; 64; 64; 64; 64; 64;
   64; 64; 64; 64; 64; 64; 64; 64; 64; 64; 64; 64; 64; 64; 64; 64;
   64; 64; 64; 64; 64; 64; 64; 64; 64; 64; 64; 64; 64; 64; 64; 64].

(** Array element access; out of range is undefined behaviour. *)
(** src/base64.cpp:30-31, 75-116: an entry of a table *)
Definition at_ (t : list N) (i : N) : outcome N :=
  match nnth t i with Some x => Ret x | None => UB end.

(** src/base64.cpp:34-70 base64encode: [src] is the list of bytes still to encode
    (the loop index i only moves forward, by 3). *)
Fixpoint base64encode (dest : writer) (src : list N) (alphabet : list N) : outcome (result unit * writer) :=
  match src with
  | s0 :: s1 :: s2 :: rest =>
      let! e0 := at_ alphabet (N.land (N.shiftr s0 2) 0x3F) in
      let! e1 := at_ alphabet (N.lor (N.shiftl (N.land s0 0x3) 4) (N.shiftr (N.land s1 0xF0) 4)) in
      let! e2 := at_ alphabet (N.lor (N.shiftl (N.land s1 0xF) 2) (N.shiftr (N.land s2 0xC0) 6)) in
      let! e3 := at_ alphabet (N.land s2 0x3F) in
      let! res := w_write dest [e0; e1; e2; e3] in
      match res with
      | (Ok _, dest') => base64encode dest' rest alphabet
      | (Err e, dest') => Ret (Err e, dest')
      end
  | [s0] =>
      let! e0 := at_ alphabet (N.land (N.shiftr s0 2) 0x3F) in
      let! e1 := at_ alphabet (N.shiftl (N.land s0 0x3) 4) in
      let! res := w_write dest [e0; e1; 61; 61] in
      match res with
      | (Ok _, dest') => Ret (Ok tt, dest')
      | (Err e, dest') => Ret (Err e, dest')
      end
  | [s0; s1] =>
      let! e0 := at_ alphabet (N.land (N.shiftr s0 2) 0x3F) in
      let! e1 := at_ alphabet (N.lor (N.shiftl (N.land s0 0x3) 4) (N.shiftr (N.land s1 0xF0) 4)) in
      let! e2 := at_ alphabet (N.shiftl (N.land s1 0xF) 2) in
      let! res := w_write dest [e0; e1; e2; 61] in
      match res with
      | (Ok _, dest') => Ret (Ok tt, dest')
      | (Err e, dest') => Ret (Err e, dest')
      end
  | [] => Ret (Ok tt, dest)
  end.

(** src/base64.cpp:126-130: the scan "while (decodingTable[*(bufin++)] <= 63)".
    [mem] is what follows the start of the view in memory, not only the view: the
    loop does not look at the view's size.  Running off the allocation is UB.
    Result: nprbytes. *)
Fixpoint b64_scan (mem : list N) (table : list N) : outcome N :=
  match mem with
  | [] => UB
  | c :: rest =>
      let! v := at_ table c in
      if v <=? 63 then let! n := b64_scan rest table in Ret (1 + n) else Ret 0
  end.

(** src/base64.cpp:149-163: the tail, with 0 <= nprbytes <= 4. *)
Definition b64_tail (dest : writer) (bufin : list N) (nprbytes : N) (table : list N) : outcome (result unit * writer) :=
  let dec i := let! c := at_ bufin i in at_ table c in
  let! r1 := if 1 <? nprbytes then
               let! d0 := dec 0 in let! d1 := dec 1 in
               w_write dest [u8 (N.lor (N.shiftl d0 2) (N.shiftr d1 4))]
             else Ret (Ok tt, dest) in
  match r1 with
  | (Err e, dest') => Ret (Err e, dest')
  | (Ok _, dest) =>
    let! r2 := if 2 <? nprbytes then
                 let! d1 := dec 1 in let! d2 := dec 2 in
                 w_write dest [u8 (N.lor (N.shiftl d1 4) (N.shiftr d2 2))]
               else Ret (Ok tt, dest) in
    match r2 with
    | (Err e, dest') => Ret (Err e, dest')
    | (Ok _, dest) =>
      let! r3 := if 3 <? nprbytes then
                   let! d2 := dec 2 in let! d3 := dec 3 in
                   w_write dest [u8 (N.lor (N.shiftl d2 6) d3)]
                 else Ret (Ok tt, dest) in
      match r3 with
      | (Err e, dest') => Ret (Err e, dest')
      | (Ok _, dest) => Ret (Ok tt, dest)
      end
    end
  end.

(** src/base64.cpp:133-146 the main loop, then the tail. *)
Fixpoint b64_loop (dest : writer) (bufin : list N) (nprbytes : N) (table : list N) : outcome (result unit * writer) :=
  if 4 <? nprbytes then
    match bufin with
    | b0 :: b1 :: b2 :: b3 :: rest =>
        let! d0 := at_ table b0 in
        let! d1 := at_ table b1 in
        let! d2 := at_ table b2 in
        let! d3 := at_ table b3 in
        let! res := w_write dest [u8 (N.lor (N.shiftl d0 2) (N.shiftr d1 4));
                                  u8 (N.lor (N.shiftl d1 4) (N.shiftr d2 2));
                                  u8 (N.lor (N.shiftl d2 6) d3)] in
        match res with
        | (Ok _, dest') => b64_loop dest' rest (nprbytes - 4) table
        | (Err e, dest') => Ret (Err e, dest')
        end
    | _ => UB
    end
  else b64_tail dest bufin nprbytes table.

(** src/base64.cpp:120-166 base64decode of the view [v] into memory [mem]. *)
Definition base64decode (dest : writer) (mem : list N) (v : view) (table : list N) : outcome (result unit * writer) :=
  if v_size v =? 0 then Ret (Err E_NODATA, dest) else
  match v_addr v with
  | None => UB
  | Some a =>
      let bufin := ndrop a mem in
      let! nprbytes := b64_scan bufin table in
      b64_loop dest bufin nprbytes table
  end.

(** src/base64.cpp:169-172 *)
Definition b64_encodedSize (len : N) : N := N.land (u64 (u64 (4 * len) / 3 + 3)) (2 ^ 64 - 4).

(** src/base64.cpp:185-192 *)
Fixpoint b64_count (data : list N) : outcome N :=
  match data with
  | [] => Ret 0
  | b :: rest =>
      let! v := at_ pr2six b in
      if v <=? 63 then let! n := b64_count rest in Ret (1 + n) else Ret 0
  end.

(** src/base64.cpp:175-195 decodedSize: used by both decoders. *)
Definition b64_decodedSize (data : list N) : outcome N :=
  if size data =? 0 then Ret 0 else
  if negb (size data mod 4 =? 0) then Ret 0 else
  let! n := b64_count data in
  Ret (u64 (n * 3) / 4).

(** src/base64.cpp:204-222: the four entry points. *)
Definition alphabet_of (url : bool) : list N := if url then kBase64UrlAlphabet else kBase64Alphabet.
Definition table_of (url : bool) : list N := if url then prUrl2six else pr2six.
Definition b64_encode (url : bool) (dest : writer) (src : list N) := base64encode dest src (alphabet_of url).
Definition b64_decode (url : bool) (dest : writer) (mem : list N) (v : view) := base64decode dest mem v (table_of url).
