(** Model of UUIDs (include/solace/uuid.hpp, src/uuid.cpp).  A UUID is the list of
    its 16 bytes (include/solace/uuid.hpp:163). *)
From Verif Require Import Base MemViewModel ByteIOModel Base16Model.

(** src/uuid.cpp:31-34 *)
Definition uuid_null : list N := repeat 0 16.

(** memcmp over two equally long byte sequences *)
(** src/uuid.cpp:68, 88 (C library, not in /repo) *)
Fixpoint memcmp (a b : list N) : comparison :=
  match a, b with
  | x :: a', y :: b' => match x ?= y with Eq => memcmp a' b' | c => c end
  | _, _ => Eq
  end.

(** src/uuid.cpp:58-65: the int sum of 16 bytes cannot overflow. *)
Definition uuid_isNull (u : list N) : bool := fold_left (fun s v => s + v) u 0 =? 0.

(** src/uuid.cpp:67-69 *)
Definition uuid_equals (u v : list N) : bool := match memcmp u v with Eq => true | _ => false end.

(** src/uuid.cpp:87-89 *)
Definition uuid_lt (u v : list N) : bool := match memcmp u v with Lt => true | _ => false end.

(** include/solace/uuid.hpp:171-189 *)
Definition uuid_eq (u v : list N) : bool := uuid_equals u v.
Definition uuid_ne (u v : list N) : bool := negb (uuid_eq u v).
Definition uuid_gt (u v : list N) : bool := uuid_lt v u.
Definition uuid_le (u v : list N) : bool := negb (uuid_lt v u).
Definition uuid_ge (u v : list N) : bool := negb (uuid_lt u v).

(** src/uuid.cpp:51-55; the pair is (this, rhs) after the call *)
Definition uuid_swap (u v : list N) : list N * list N := (v, u).
(** include/solace/uuid.hpp:83-85: move assignment is a swap. *)
Definition uuid_move_assign (u v : list N) : list N * list N := uuid_swap u v.
(** include/solace/uuid.hpp:87-91: copy, then swap the copy with this. *)
Definition uuid_copy_assign (u v : list N) : list N * list N :=
  let copy := v in let '(_, this) := uuid_swap copy u in (this, v).

(** src/uuid.cpp:79-84 operator[] const *)
Definition uuid_index (u : list N) (i : N) : outcome N :=
  if 16 <=? i then Throws IndexOutOfRange else
  match nnth u i with Some b => Ret b | None => UB end.

(** src/uuid.cpp:71-76 operator[]: a byte assigned through the reference *)
Definition uuid_assign (u : list N) (i b : N) : outcome (list N) :=
  if 16 <=? i then Throws IndexOutOfRange else
  match nnth u i with Some _ => Ret (overwrite u i [b]) | None => UB end.

(** The bytes a view denotes. *)
(** src/uuid.cpp:111-119 *)
Definition view_bytes (mem : list N) (v : view) : outcome (list N) := load mem (v_addr v) (v_size v).

(** The steps encoder.encode(dataView.slice(from, to)) and dest.write('-') of
    src/uuid.cpp:111-119; the returned Result is dropped. *)
Definition uuid_put (u : list N) (from to : N) (dest : writer) : outcome writer :=
  let! bs := view_bytes u (view_slice (storage_view u) from to) in
  let! res := b16_encode dest bs in Ret (snd res).
Definition uuid_dash (dest : writer) : outcome writer :=
  let! res := w_write dest [45] in Ret (snd res).

(** src/uuid.cpp:103-122 toString(MutableMemoryView); [buffer] is the content of the
    destination, the result is the returned text and the destination afterwards. *)
Definition uuid_toString_buf (u buffer : list N) : outcome (list N * list N) :=
  let dest := writer_make buffer in
  let! dest := uuid_put u 0 4 dest in
  let! dest := uuid_dash dest in
  let! dest := uuid_put u 4 6 dest in
  let! dest := uuid_dash dest in
  let! dest := uuid_put u 6 8 dest in
  let! dest := uuid_dash dest in
  let! dest := uuid_put u 8 10 dest in
  let! dest := uuid_dash dest in
  let! dest := uuid_put u 10 16 dest in
  let! text := view_bytes (w_buf dest) (mview_slice (storage_view (w_buf dest)) 0 36) in
  Ret (text, w_buf dest).

(** src/uuid.cpp:92-100 toString(): the 36 stack bytes hold [garbage]; the copy made
    by makeString is the identity when the allocation succeeds. *)
Definition uuid_toString (u garbage : list N) : outcome (list N) :=
  let! res := uuid_toString_buf u garbage in Ret (fst res).

(** src/uuid.cpp:140-153, the loop of parse.  [mem] is the memory from src + i on,
    [out] the bytes stored through dest so far: dest starts at data and only moves
    by one, so storing a 17th byte leaves the array. *)
Fixpoint uuid_parse_loop (mem : list N) (i : N) (out : list N) : outcome (result (list N)) :=
  if i <? 36 then
    match mem with
    | [] => UB
    | c :: rest =>
        if c =? 45 then uuid_parse_loop rest (i + 1) out
        else
          let! high := charToBin c in
          match rest with
          | [] => UB
          | c2 :: rest2 =>
              let! low := charToBin c2 in
              match high, low with
              | Err e, _ => Ret (Err e)
              | Ok _, Err e => Ret (Err e)
              | Ok h, Ok l =>
                  if 16 <=? size out then UB
                  else uuid_parse_loop rest2 (i + 2) (out ++ [u8 (u8 (N.shiftl h 4) + u8 l)])
              end
          end
    end
  else Ret (Ok out).

(** src/uuid.cpp:131-156 parse.  [str] is the viewed text and [after] the memory
    following it.  Bytes of the local array that were never stored are
    indeterminate ([None]) and are copied into the returned UUID by makeUUID, whose
    size assertion holds because the array has 16 bytes. *)
Definition uuid_parse (str after : list N) : outcome (result (list (option N))) :=
  if negb (size str =? 36) then Ret (Err E_NODATA) else
  let! res := uuid_parse_loop (str ++ after) 0 [] in
  match res with
  | Err e => Ret (Err e)
  | Ok out => Ret (Ok (map Some out ++ repeat None (16 - length out)))
  end.

(** src/uuid.cpp:164-166: the copying loop, [k] more bytes from index [i] on. *)
Fixpoint uuid_copy (mem : list N) (v : view) (k : nat) (i : N) : outcome (list N) :=
  match k with
  | O => Ret []
  | S k' => let! b := view_index mem v i in
            let! rest := uuid_copy mem v k' (i + 1) in Ret (b :: rest)
  end.

(** src/uuid.cpp:159-169 makeUUID(MemoryView) *)
Definition makeUUID_view (mem : list N) (v : view) : outcome (list N) :=
  if 16 <=? v_size v then uuid_copy mem v 16 0 else Throws AssertFailed.

(** src/uuid.cpp:172-183 makeUUID(a0, a1, a2, a3); [garbage] is the content of the
    uninitialised 16-byte array. *)
Definition makeUUID_words (host_be : bool) (garbage : list N) (a0 a1 a2 a3 : N) : outcome (list N) :=
  let w := writer_make garbage in
  let! r := w_writeRaw host_be W32 a0 w in
  let! r := w_writeRaw host_be W32 a1 (snd r) in
  let! r := w_writeRaw host_be W32 a2 (snd r) in
  let! r := w_writeRaw host_be W32 a3 (snd r) in
  Ret (w_buf (snd r)).
