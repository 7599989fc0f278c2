(** Model of ByteReader and ByteWriter.

    The storage (a MemoryResource) is its list of bytes [buf]; `_storage.view()`
    is the view of all of it.  size_type is 64-bit, arithmetic wraps. *)
From Verif Require Import Base MemViewModel.

(** Widths of the integer overloads: uint8, uint16, uint32, uint64 (and their
    signed twins, which forward through reinterpret_cast / static_cast). *)
(** include/solace/byteReader.hpp:225-253, include/solace/byteWriter.hpp:215-254: the overloads *)
Inductive width := W8 | W16 | W32 | W64.
(** include/solace/byteReader.hpp:225-253, include/solace/byteWriter.hpp:215-254: sizeof of the argument *)
Definition wbytes (w : width) : nat :=
  match w with W8 => 1 | W16 => 2 | W32 => 4 | W64 => 8 end.

(** In-memory representation of an unsigned integer on a little-endian machine,
    and its inverse. *)
(** src/byteWriter.cpp:85-137: the bytes at &value *)
Fixpoint le_store (n : nat) (v : N) : list N :=
  match n with O => [] | S k => v mod 256 :: le_store k (v / 256) end.
(** src/byteReader.cpp:125-231: the value whose bytes were assembled *)
Fixpoint le_load (bs : list N) : N :=
  match bs with [] => 0 | b :: t => b + 256 * le_load t end.

(** Object representation on the host; [host_be] is isBigendian()
    (src/memoryView.cpp:37-40). *)
Definition host_store (host_be : bool) (w : width) (v : N) : list N :=
  if host_be then rev (le_store (wbytes w) v) else le_store (wbytes w) v.
Definition host_load (host_be : bool) (bs : list N) : N :=
  if host_be then le_load (rev bs) else le_load bs.

(** The swap "p[i] = v[valueSize - 1 - i]" is list reversal. *)
(** src/byteWriter.cpp:145-150, 161-168, 179-190 *)
Definition swap_bytes (bs : list N) : list N := rev bs.

(** include/solace/memoryResource.hpp:98-99 view() of the storage *)
Definition storage_view (buf : list N) : view := mkView (Some 0) (size buf).

(** ** ByteReader *)

(** include/solace/byteReader.hpp:260-263 *)
Record reader := mkReader { r_pos : N; r_lim : N; r_buf : list N }.

(** include/solace/byteReader.hpp:71-95: constructors *)
Definition reader_make (buf : list N) : reader := mkReader 0 (size buf) buf.

(** include/solace/byteReader.hpp:153 *)
Definition r_remaining (r : reader) : N := sub64 (r_lim r) (r_pos r).

(** src/byteReader.cpp:29-38 *)
Definition r_limit (r : reader) (n : N) : result unit * reader :=
  if size (r_buf r) <? n then (Err E_Overflow, r) else (Ok tt, mkReader (r_pos r) n (r_buf r)).

(** src/byteReader.cpp:41-50 (and reset, byteReader.hpp:165-168) *)
Definition r_position (r : reader) (n : N) : result unit * reader :=
  if r_lim r <? n then (Err E_Overflow, r) else (Ok tt, mkReader n (r_lim r) (r_buf r)).

(** src/byteReader.cpp:53-62 *)
Definition r_advance (r : reader) (n : N) : result unit * reader :=
  if r_remaining r <? n then (Err E_Overflow, r)
  else (Ok tt, mkReader (u64 (r_pos r + n)) (r_lim r) (r_buf r)).

(** src/byteReader.cpp:65-72; the failing index assertion inside a noexcept
    function ends the program. *)
Definition r_get (r : reader) : outcome (result N * reader) :=
  if r_remaining r <? 1 then Ret (Err E_Overflow, r) else
  let! b := noexcept (view_index (r_buf r) (storage_view (r_buf r)) (r_pos r)) in
  Ret (Ok b, mkReader (u64 (r_pos r + 1)) (r_lim r) (r_buf r)).

(** src/byteReader.cpp:74-81 *)
Definition r_get_at (r : reader) (p : N) : outcome (result N * reader) :=
  if r_lim r <=? p then Ret (Err E_Overflow, r) else
  let! b := noexcept (view_index (r_buf r) (storage_view (r_buf r)) p) in
  Ret (Ok b, r).

(** src/byteReader.cpp:84-99; the bytes delivered to [dest] are returned. *)
Definition r_read (r : reader) (n : N) : outcome (result (list N) * reader) :=
  if r_remaining r <? n then Ret (Err E_Overflow, r) else
  let src := view_slice (storage_view (r_buf r)) (r_pos r) (u64 (r_pos r + n)) in
  if v_size src <? n then Ret (Err E_Overflow, r) else
  let! bs := load (r_buf r) (v_addr src) n in
  Ret (Ok bs, mkReader (u64 (r_pos r + n)) (r_lim r) (r_buf r)).

(** src/byteReader.cpp:102-122 *)
Definition r_read_at (r : reader) (offset n : N) : outcome (result (list N) * reader) :=
  let readEnd := u64 (offset + n) in
  if r_lim r <? readEnd then Ret (Err E_Overflow, r) else
  let src := view_slice (storage_view (r_buf r)) offset readEnd in
  if v_size src <? n then Ret (Err E_Overflow, r) else
  let! bs := load (r_buf r) (v_addr src) n in
  Ret (Ok bs, r).

(** src/byteReader.cpp:125-177 readLE, :180-231 readBE; 8-bit overloads
    (byteReader.hpp:237-238, 246-247) read one byte without swapping.  The three
    multi-byte overloads differ only in valueSize and share this definition. *)
Definition r_readInt (host_be be : bool) (w : width) (r : reader) : outcome (result N * reader) :=
  let! p := r_read r (N.of_nat (wbytes w)) in
  match p with
  | (Err e, r') => Ret (Err e, r')
  | (Ok bs, r') =>
      let swapped := match w with
                     | W8 => bs
                     | _ => if be then (if negb host_be then swap_bytes bs else bs)
                            else (if host_be then swap_bytes bs else bs)
                     end in
      Ret (Ok (host_load host_be swapped), r')
  end.

(** include/solace/byteReader.hpp:118-122 *)
Definition r_rewind (r : reader) : reader := mkReader 0 (r_lim r) (r_buf r).

(** include/solace/byteReader.hpp:220-222 *)
Definition r_viewRemaining (r : reader) : view :=
  view_slice (storage_view (r_buf r)) (r_pos r) (r_lim r).

(** The public operations, and one step of a history. *)
(** include/solace/byteReader.hpp:98-253: the operations of a reader *)
Inductive rop :=
| RLimit (n : N) | RPosition (n : N) | RAdvance (n : N) | RGet | RGetAt (p : N)
| RRead (n : N) | RReadAt (offset n : N) | RReadInt (be : bool) (w : width) | RRewind.

(** include/solace/byteReader.hpp:98-253: their answers *)
Inductive rout := OUnit | OByte (b : N) | OBytes (bs : list N) | OInt (v : N).

(** include/solace/byteReader.hpp:98-253: the answer of an operation, in the common type *)
Definition rmap {A B} (f : A -> B) (p : result A * reader) : result B * reader :=
  match p with (Ok a, r) => (Ok (f a), r) | (Err e, r) => (Err e, r) end.

(** include/solace/byteReader.hpp:98-253: one operation *)
Definition r_step (host_be : bool) (r : reader) (op : rop) : outcome (result rout * reader) :=
  match op with
  | RLimit n => Ret (rmap (fun _ => OUnit) (r_limit r n))
  | RPosition n => Ret (rmap (fun _ => OUnit) (r_position r n))
  | RAdvance n => Ret (rmap (fun _ => OUnit) (r_advance r n))
  | RGet => let! p := r_get r in Ret (rmap OByte p)
  | RGetAt q => let! p := r_get_at r q in Ret (rmap OByte p)
  | RRead n => let! p := r_read r n in Ret (rmap OBytes p)
  | RReadAt o n => let! p := r_read_at r o n in Ret (rmap OBytes p)
  | RReadInt be w => let! p := r_readInt host_be be w r in Ret (rmap OInt p)
  | RRewind => Ret (Ok OUnit, r_rewind r)
  end.

(** include/solace/byteReader.hpp:98-253: a sequence of operations *)
Fixpoint r_run (host_be : bool) (r : reader) (ops : list rop) : outcome (list (result rout) * reader) :=
  match ops with
  | [] => Ret ([], r)
  | op :: ops' =>
      let! p := r_step host_be r op in
      let! q := r_run host_be (snd p) ops' in
      Ret (fst p :: fst q, snd q)
  end.

(** ** ByteWriter *)

(** include/solace/byteWriter.hpp:262-265 *)
Record writer := mkWriter { w_pos : N; w_lim : N; w_buf : list N }.

(** include/solace/byteWriter.hpp:60-77 *)
Definition writer_make (buf : list N) : writer := mkWriter 0 (size buf) buf.

(** include/solace/byteWriter.hpp:146 *)
Definition w_remaining (w : writer) : N := sub64 (w_lim w) (w_pos w).

(** src/byteWriter.cpp:30-39 *)
Definition w_limit (w : writer) (n : N) : result unit * writer :=
  if size (w_buf w) <? n then (Err E_Overflow, w) else (Ok tt, mkWriter (w_pos w) n (w_buf w)).

(** src/byteWriter.cpp:42-51 *)
Definition w_position (w : writer) (n : N) : result unit * writer :=
  if w_lim w <? n then (Err E_Overflow, w) else (Ok tt, mkWriter n (w_lim w) (w_buf w)).

(** src/byteWriter.cpp:54-63 *)
Definition w_advance (w : writer) (n : N) : result unit * writer :=
  if w_remaining w <? n then (Err E_Overflow, w)
  else (Ok tt, mkWriter (u64 (w_pos w + n)) (w_lim w) (w_buf w)).

(** src/byteWriter.cpp:66-81; [bs] are the [count] bytes at srcAddr.  The
    storage is sliced with MutableMemoryView::slice. *)
Definition w_write (w : writer) (bs : list N) : outcome (result unit * writer) :=
  let count := size bs in
  if count =? 0 then Ret (Ok tt, w) else
  let dest := mview_slice (storage_view (w_buf w)) (w_pos w) (u64 (w_pos w + count)) in
  if v_size dest <? count then Ret (Err E_Overflow, w) else
  let! buf' := store (w_buf w) (v_addr dest) bs in
  Ret (w_advance (mkWriter (w_pos w) (w_lim w) buf') count).

(** src/byteWriter.cpp:84-137 writeLE, :140-193 writeBE; the 8-bit overloads
    (byteWriter.hpp:238-239, 247-248) do not swap. *)
Definition w_writeInt (host_be be : bool) (wd : width) (v : N) (w : writer) : outcome (result unit * writer) :=
  let raw := host_store host_be wd v in
  let bs := match wd with
            | W8 => raw
            | _ => if be then (if negb host_be then swap_bytes raw else raw)
                   else (if host_be then swap_bytes raw else raw)
            end in
  w_write w bs.

(** include/solace/byteWriter.hpp:215-225: host order write *)
Definition w_writeRaw (host_be : bool) (wd : width) (v : N) (w : writer) : outcome (result unit * writer) :=
  w_write w (host_store host_be wd v).

(** include/solace/byteWriter.hpp:112-116, 180-195 *)
Definition w_rewind (w : writer) : writer := mkWriter 0 (w_lim w) (w_buf w).
Definition w_clear (w : writer) : writer := mkWriter 0 (size (w_buf w)) (w_buf w).
Definition w_flip (w : writer) : writer := mkWriter 0 (w_pos w) (w_buf w).

(** include/solace/byteWriter.hpp:198-212 *)
Definition w_viewRemaining (w : writer) : view := view_slice (storage_view (w_buf w)) (w_pos w) (w_lim w).
Definition w_viewWritten (w : writer) : view := view_slice (storage_view (w_buf w)) 0 (w_pos w).

Inductive wop :=
| WLimit (n : N) | WPosition (n : N) | WAdvance (n : N) | WWrite (bs : list N)
| WWriteInt (be : bool) (wd : width) (v : N) | WWriteRaw (wd : width) (v : N)
| WRewind | WClear | WFlip.

Definition w_step (host_be : bool) (w : writer) (op : wop) : outcome (result unit * writer) :=
  match op with
  | WLimit n => Ret (w_limit w n)
  | WPosition n => Ret (w_position w n)
  | WAdvance n => Ret (w_advance w n)
  | WWrite bs => w_write w bs
  | WWriteInt be wd v => w_writeInt host_be be wd v w
  | WWriteRaw wd v => w_writeRaw host_be wd v w
  | WRewind => Ret (Ok tt, w_rewind w)
  | WClear => Ret (Ok tt, w_clear w)
  | WFlip => Ret (Ok tt, w_flip w)
  end.

Fixpoint w_run (host_be : bool) (w : writer) (ops : list wop) : outcome (list (result unit) * writer) :=
  match ops with
  | [] => Ret ([], w)
  | op :: ops' =>
      let! p := w_step host_be w op in
      let! q := w_run host_be (snd p) ops' in
      Ret (fst p :: fst q, snd q)
  end.
