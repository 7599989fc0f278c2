(** Model of StringBuilder (include/solace/stringBuilder.hpp, src/stringBuilder.cpp) over
    the ByteWriter model.  The uint16 size_type of its results is kept explicit. *)
From Verif Require Import Base MemViewModel ByteIOModel StringModel FmtModel.

(** include/solace/stringBuilder.hpp:143: a builder is its ByteWriter. *)
Definition sb_make (buf : list N) : writer := writer_make buf.

(** src/stringBuilder.cpp:95-99 append(StringView) (and 73-83, the constructors with an
    initial text): the outcome of the write is ignored *)
Definition sb_text (w : writer) (s : list N) : outcome writer :=
  let! p := w_write w s in Ret (snd p).

(** src/stringBuilder.cpp:85-89 append(char) *)
Definition sb_char (host_be : bool) (w : writer) (c : N) : outcome writer :=
  let! p := w_writeRaw host_be W8 c w in Ret (snd p).

(** src/char.cpp:66-74 getBytesCount: the four bytes of a Char up to the first zero.
    [n] bytes of _bytes are left to look at. *)
Fixpoint char_count (n : nat) (bs : list N) : N :=
  match n, bs with
  | S n', b :: t => if b =? 0 then 0 else char_count n' t + 1
  | _, _ => 0
  end.
(** A Char: its _bytes array (include/solace/char.hpp, max_bytes = 4) *)
(** include/solace/char.hpp:266-269, src/char.cpp:66-74 *)
Definition char_bytes (ch : list N) : list N := ntake (char_count 4 ch) ch.

(** src/stringBuilder.cpp:91-93 append(Char) *)
Definition sb_wide (w : writer) (ch : list N) : outcome writer := sb_text w (char_bytes ch).

(** src/stringBuilder.cpp:102-130 append(uint16 / uint32 / uint64) with maybeAdvance
    (37-42): the three differ only in the type of [v]. *)
Definition sb_num (w : writer) (v : N) : outcome writer :=
  let buffer := w_viewRemaining w in
  let capacity := v_size buffer in
  let (buf', n) := snprintf (w_buf w) (w_pos w) capacity (dec v) in
  let w' := mkWriter (w_pos w) (w_lim w) buf' in
  Ret (if (0 <? n) && (n <? capacity) then snd (w_advance w' n) else w').

(** src/stringBuilder.cpp:56-69 measureFormatted for the unsigned types *)
Definition sb_measure (v : N) : N := u16 (size (dec v)).

(** src/stringBuilder.cpp:133-146: view, empty, length *)
Definition sb_view (w : writer) : list N := ntake (u16 (v_size (w_viewWritten w))) (ntake (w_pos w) (w_buf w)).
Definition sb_empty (w : writer) : bool := w_pos w =? 0.
Definition sb_length (w : writer) : N := u16 (w_pos w).
(** include/solace/stringBuilder.hpp:128-130 remaining *)
Definition sb_remaining (w : writer) : N := u16 (w_remaining w).

(** src/stringBuilder.cpp:149-153 substring *)
Definition sb_substring (w : writer) (from to : N) : list N :=
  let v := view_slice (w_viewWritten w) from to in
  match v_addr v with
  | Some a => ntake (u16 (v_size v)) (ndrop a (w_buf w))
  | None => []
  end.

(** src/stringBuilder.cpp:156-174 indexOf(Char, fromIndex); the index is a uint16 and
    the failure of a read is ignored. *)
Fixpoint sb_index_loop (fuel : nat) (r : reader) (ch : list N) (i : N) : outcome (option N) :=
  match fuel with
  | O => OutOfFuel
  | S fuel' =>
      if i + char_count 4 ch <? r_lim r then
        let! p := r_read_at r i (char_count 4 ch) in
        let b := match fst p with Ok bs => overwrite [0;0;0;0] 0 bs | Err _ => [0;0;0;0] end in
        if list_eqb b ch then Ret (Some i) else sb_index_loop fuel' (snd p) ch (u16 (i + 1))
      else Ret None
  end.
Definition sb_indexOf (fuel : nat) (w : writer) (ch : list N) (fromIndex : N) : outcome (option N) :=
  sb_index_loop fuel (reader_make (ntake (w_pos w) (w_buf w))) ch fromIndex.

(** src/stringBuilder.cpp:177-181 build: the String takes the whole buffer; the builder
    is left with position and limit 0 (byteWriter.hpp:100-105) and no storage. *)
Definition sb_build (w : writer) : str * writer :=
  (mkStr (w_buf w) (sb_length w), mkWriter 0 0 []).

(** One append, and a history of appends. *)
(** include/solace/stringBuilder.hpp:96-107: the overloads of append *)
Inductive piece := PText (s : list N) | PChar (c : N) | PWide (ch : list N) | PNum (v : N).
(** src/stringBuilder.cpp:85-130: one append *)
Definition sb_append (host_be : bool) (w : writer) (p : piece) : outcome writer :=
  match p with
  | PText s => sb_text w s
  | PChar c => sb_char host_be w c
  | PWide ch => sb_wide w ch
  | PNum v => sb_num w v
  end.
(** src/stringBuilder.cpp:85-130: a sequence of appends *)
Fixpoint sb_appends (host_be : bool) (w : writer) (ps : list piece) : outcome writer :=
  match ps with
  | [] => Ret w
  | p :: ps' => let! w' := sb_append host_be w p in sb_appends host_be w' ps'
  end.
