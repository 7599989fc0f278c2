(** Model of VariableSpan (include/solace/variableSpan.hpp) and RangeView
    (include/solace/range_view.hpp). *)
From Verif Require Import Base MemViewModel ByteIOModel.

(** variableSpan.hpp:31-35 EncoderType *)
Inductive encoding := Natural | LittleEndian | BigEndian.

(** byteReader.hpp:225-233 read(T* dest): the bytes of the integer as they are *)
Definition r_readNatural (host_be : bool) (w : width) (r : reader) : outcome (result N * reader) :=
  let! p := r_read r (N.of_nat (wbytes w)) in
  match p with
  | (Err e, r') => Ret (Err e, r')
  | (Ok bs, r') => Ret (Ok (host_load host_be bs), r')
  end.

(** variableSpan.hpp:41-70 TypedChunkReader::readChunk.  The reader works inside the view;
    that the view is readable as a whole is checked first (simplification).  A failed read
    is not looked at: chunkSize keeps its initial value 0. *)
Definition read_chunk (host_be : bool) (enc : encoding) (w : width) (mem : list N) (src : view) : outcome (N * view) :=
  let! bytes := load mem (v_addr src) (v_size src) in
  let r := reader_make bytes in
  let! p := match enc with
            | Natural => r_readNatural host_be w r
            | LittleEndian => r_readInt host_be false w r
            | BigEndian => r_readInt host_be true w r
            end in
  let chunkSize := match fst p with Ok n => n | Err _ => 0 end in
  let rest := r_viewRemaining (snd p) in
  Ret (chunkSize, mkView (match v_addr rest with Some off => ptr_add (v_addr src) off | None => None end) (v_size rest)).

(** variableSpan.hpp:192-196 and the iterator's members, 144-145: uint16 count, data *)
Record span := mkSpan { s_n : N; s_data : view }.

(** variableSpan.hpp:161-171 *)
Definition span_size (s : span) : N := s_n s.
Definition span_empty (s : span) : bool := s_n s =? 0.
(** variableSpan.hpp:173-187 begin, end *)
Definition span_begin (s : span) : span := s.
Definition span_end (s : span) : span := mkSpan 0 (s_data s).
(** variableSpan.hpp:106-112 operator==: only the counts *)
Definition it_eqb (a b : span) : bool := s_n a =? s_n b.
(** variableSpan.hpp:114-126 operator++ *)
Definition it_next (host_be : bool) (enc : encoding) (w : width) (mem : list N) (it : span) : outcome span :=
  if 0 =? s_n it then Ret it else
  let! p := read_chunk host_be enc w mem (s_data it) in
  Ret (mkSpan (sub16 (s_n it) 1) (view_slice (snd p) (fst p) (v_size (snd p)))).
(** variableSpan.hpp:128-141 operator->, operator*: the datum handed to the value type *)
Definition it_deref (host_be : bool) (enc : encoding) (w : width) (mem : list N) (it : span) : outcome view :=
  if negb (0 <? s_n it) then Throws AssertFailed else
  let! p := read_chunk host_be enc w mem (s_data it) in
  Ret (view_slice (snd p) 0 (fst p)).

(** for (auto i = begin(); i != end(); ++i) use( *i ) *)
(** include/solace/variableSpan.hpp:91-146, 173-187: the loop over begin() and end() *)
Fixpoint span_walk (fuel : nat) (host_be : bool) (enc : encoding) (w : width) (mem : list N) (it fin : span) : outcome (list view) :=
  match fuel with
  | O => OutOfFuel
  | S fuel' =>
      if it_eqb it fin then Ret [] else
      let! d := it_deref host_be enc w mem it in
      let! it' := it_next host_be enc w mem it in
      let! r := span_walk fuel' host_be enc w mem it' fin in
      Ret (d :: r)
  end.
(** include/solace/variableSpan.hpp:91-146, 173-187: the loop over begin() and end() *)
Definition span_all (host_be : bool) (enc : encoding) (w : width) (mem : list N) (s : span) : outcome (list view) :=
  span_walk (S (N.to_nat (s_n s))) host_be enc w mem (span_begin s) (span_end s).

(** range_view.hpp:57-62: the range [_start, _end) and the predicate.  Iterators are
    positions in the underlying sequence [l]. *)
(** range_view.hpp:36-55 Iter: operator*, operator!=, operator++ *)
Fixpoint advance {A} (fuel : nat) (p : A -> bool) (l : list A) (cur fin : nat) : outcome nat :=
  match fuel with
  | O => OutOfFuel
  | S fuel' =>
      let cur := S cur in
      if Nat.eqb cur fin then Ret cur else
      match nth_error l cur with
      | None => UB
      | Some x => if p x then Ret cur else advance fuel' p l cur fin
      end
  end.
Definition rv_next {A} (p : A -> bool) (l : list A) (cur fin : nat) : outcome nat :=
  if Nat.eqb cur fin then Ret cur else advance (S (length l)) p l cur fin.
(** range_view.hpp:57-58 begin, end, and the loop over them *)
Fixpoint rv_walk {A} (fuel : nat) (p : A -> bool) (l : list A) (cur fin : nat) : outcome (list A) :=
  match fuel with
  | O => OutOfFuel
  | S fuel' =>
      if Nat.eqb cur fin then Ret [] else
      match nth_error l cur with
      | None => UB
      | Some x =>
          let! cur' := rv_next p l cur fin in
          let! r := rv_walk fuel' p l cur' fin in
          Ret (x :: r)
      end
  end.
Definition rv_all {A} (p : A -> bool) (l : list A) (start fin : nat) : outcome (list A) :=
  rv_walk (S (length l)) p l start fin.
