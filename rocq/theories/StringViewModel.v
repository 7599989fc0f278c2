(** Model of StringView (include/solace/stringView.hpp, src/stringView.cpp).

    A view is the list of the characters it covers; its size is a uint16, so the
    list has fewer than 2^16 elements.  The few functions that look outside the
    view take the following memory ([after]) and the null-ness of the data pointer
    as extra arguments.  A character is its byte value; [schar] is the value of
    the (signed) C++ char. *)
From Verif Require Import Base AtomModel.

(** include/solace/stringView.hpp:425-426: the size is a uint16 *)
Definition sv_ok (s : list N) : Prop := size s < 2 ^ 16.

(** include/solace/stringView.hpp:40: char as a signed value *)
Definition schar (c : N) : Z := if c <? 128 then Z.of_N c else (Z.of_N c - 256)%Z.

(** Reading a character of a sequence in memory; outside is undefined behaviour. *)
(** src/stringView.cpp:38-228: _data[i] *)
Definition peek (mem : list N) (i : N) : outcome N :=
  match nnth mem i with Some c => Ret c | None => UB end.

(** src/stringView.cpp:45-49, the loop of equals *)
Fixpoint sv_eq_loop (a b : list N) : bool :=
  match a, b with
  | x :: a', y :: b' => if negb (x =? y) then false else sv_eq_loop a' b'
  | _, _ => true
  end.

(** src/stringView.cpp:38-52 *)
Definition sv_equals (a b : list N) : bool :=
  if negb (size a =? size b) then false else sv_eq_loop a b.

(** include/solace/stringView.hpp:100-102 *)
Definition sv_empty (s : list N) : bool := size s =? 0.

(** include/solace/stringView.hpp:262-266 charAt *)
Definition sv_charAt (s : list N) (i : N) : outcome Z :=
  if size s <=? i then Throws IndexOutOfRange else
  let! c := peek s i in Ret (schar c).

(** strncmp of two sequences of at least n characters; only the sign of the result
    is specified, it is modelled as -1, 0 or 1.  Bytes compare unsigned and the
    comparison ends at a NUL. *)
(** src/stringView.cpp:65 (C library, not in /repo) *)
Fixpoint strncmp (a b : list N) : Z :=
  match a, b with
  | x :: a', y :: b' =>
      if negb (x =? y) then (if x <? y then (-1)%Z else 1%Z)
      else if x =? 0 then 0%Z else strncmp a' b'
  | _, _ => 0%Z
  end.

(** src/stringView.cpp:55-68 compareTo: the index xSize - 1 is converted to uint16,
    charAt raises an exception that ends the program in this noexcept function. *)
Definition sv_compareTo (a x : list N) : outcome Z :=
  let thisSize := size a in
  let xSize := size x in
  if xSize <? thisSize then noexcept (sv_charAt a (sub16 xSize 1))
  else if thisSize <? xSize then
    noexcept (let! c := sv_charAt x (sub16 xSize 1) in Ret (- c)%Z)
  else Ret (strncmp a x).

(** src/stringView.cpp:71-82 substring *)
Definition sv_substring (s : list N) (from to : N) : list N :=
  let thisSize := size s in
  let from := N.min from thisSize in
  let to := N.min thisSize (N.max to from) in
  ntake (to - from) (ndrop from s).

(** include/solace/stringView.hpp:242-244 *)
Definition sv_substring_from (s : list N) (from : N) : list N := sv_substring s from (size s).

(** include/solace/stringView.hpp:131-135 startsWith(char): the size is not checked. *)
Definition sv_startsWith_char (null : bool) (s after : list N) (prefix : N) : outcome bool :=
  if null then Ret (prefix =? 0) else
  let! c := peek (s ++ after) 0 in Ret (c =? prefix).

(** src/stringView.cpp:164-172 *)
Definition sv_startsWith (s prefix : list N) : bool :=
  if size s <? size prefix then false else sv_equals prefix (sv_substring s 0 (size prefix)).

(** include/solace/stringView.hpp:151-155 endsWith(char) *)
Definition sv_endsWith_char (null : bool) (s : list N) (suffix : N) : outcome bool :=
  if null || (size s =? 0) then Ret (suffix =? 0) else
  let! c := peek s (size s - 1) in Ret (c =? suffix).

(** src/stringView.cpp:175-185 *)
Definition sv_endsWith (s suffix : list N) : bool :=
  if size s <? size suffix then false
  else sv_equals suffix (sv_substring_from s (size s - size suffix)).

(** src/stringView.cpp:85-99 indexOf(char); [k] iterations are left. *)
Fixpoint sv_indexOf_char_loop (k : nat) (s : list N) (ch i : N) : outcome (option N) :=
  match k with
  | O => Ret None
  | S k' => let! c := peek s i in
            if c =? ch then Ret (Some i) else sv_indexOf_char_loop k' s ch (i + 1)
  end.
Definition sv_indexOf_char (s : list N) (ch from : N) : outcome (option N) :=
  if size s <? from then Ret None
  else sv_indexOf_char_loop (N.to_nat (size s - from)) s ch from.

(** src/stringView.cpp:147-162 lastIndexOf(char) *)
Fixpoint sv_lastIndexOf_char_loop (k : nat) (s : list N) (ch i : N) (result : option N) : outcome (option N) :=
  match k with
  | O => Ret result
  | S k' => let! c := peek s i in
            sv_lastIndexOf_char_loop k' s ch (i + 1) (if c =? ch then Some i else result)
  end.
Definition sv_lastIndexOf_char (s : list N) (ch from : N) : outcome (option N) :=
  if size s <? from then Ret None
  else sv_lastIndexOf_char_loop (N.to_nat (size s - from)) s ch from None.

(** src/stringView.cpp:114-115 and :137-138: does the needle match at index i.  The
    first characters are compared without looking at either size. *)
Definition sv_match_at (s after str strAfter : list N) (i : N) : outcome bool :=
  let! c := peek (s ++ after) i in
  let! d := peek (str ++ strAfter) 0 in
  if c =? d then Ret (sv_equals str (sv_substring s i (u16 (i + size str)))) else Ret false.

(** src/stringView.cpp:102-123 indexOf(StringView) *)
Fixpoint sv_indexOf_loop (k : nat) (s after str strAfter : list N) (i : N) : outcome (option N) :=
  match k with
  | O => Ret None
  | S k' => let! m := sv_match_at s after str strAfter i in
            if m : bool then Ret (Some i) else sv_indexOf_loop k' s after str strAfter (i + 1)
  end.
Definition sv_indexOf (s after str strAfter : list N) (from : N) : outcome (option N) :=
  if (size s <? from) || (size s <? size str) || (size s <? from + size str) then Ret None else
  let rem := u16 (size s - size str + 1) in
  sv_indexOf_loop (N.to_nat (rem - from)) s after str strAfter from.

(** src/stringView.cpp:125-144 lastIndexOf(StringView) *)
Fixpoint sv_lastIndexOf_loop (k : nat) (s after str strAfter : list N) (i : N) (result : option N) : outcome (option N) :=
  match k with
  | O => Ret result
  | S k' => let! m := sv_match_at s after str strAfter i in
            sv_lastIndexOf_loop k' s after str strAfter (i + 1) (if m : bool then Some i else result)
  end.
Definition sv_lastIndexOf (s after str strAfter : list N) (from : N) : outcome (option N) :=
  if (size s <? from) || (size s <? size str) || (size s <? from + size str) then Ret None else
  let rem := u16 (size s - size str + 1) in
  sv_lastIndexOf_loop (N.to_nat (rem - from)) s after str strAfter from None.

(** include/solace/stringView.hpp:213-223 contains *)
Definition is_some {A} (o : option A) : bool := match o with Some _ => true | None => false end.
Definition sv_contains (s after str strAfter : list N) : outcome bool :=
  let! r := sv_indexOf s after str strAfter 0 in Ret (is_some r).
Definition sv_contains_char (s : list N) (c : N) : outcome bool :=
  let! r := sv_indexOf_char s c 0 in Ret (is_some r).

(** src/char.cpp:117-119: isspace in the "C" locale (little-endian host). *)
Definition isspace (c : N) : bool := ((9 <=? c) && (c <=? 13)) || (c =? 32).

(** src/stringView.cpp:192-194 and :208-210: the leading loop *)
Fixpoint sv_trim_lead (p : N -> bool) (s : list N) : N :=
  match s with
  | [] => 0
  | c :: t => if p c then sv_trim_lead p t + 1 else 0
  end.
(** src/stringView.cpp:197-199 and :213-215: the trailing loop, [k] is toIndex *)
Fixpoint sv_trim_trail (p : N -> bool) (s : list N) (fromIndex : N) (k : nat) : outcome N :=
  match k with
  | O => Ret 0
  | S k' => let toIndex := N.of_nat k in
            if fromIndex + 1 <? toIndex then
              let! c := peek s (toIndex - 1) in
              if p c then sv_trim_trail p s fromIndex k' else Ret toIndex
            else Ret toIndex
  end.
(** src/stringView.cpp:188-202 and :204-218: the two trims differ in the predicate. *)
Definition sv_trim_by (p : N -> bool) (s : list N) : outcome (list N) :=
  let fromIndex := sv_trim_lead p s in
  let! toIndex := sv_trim_trail p s fromIndex (length s) in
  Ret (sv_substring s fromIndex toIndex).
Definition sv_trim (s : list N) := sv_trim_by isspace s.
Definition sv_trim_char (delim : N) (s : list N) := sv_trim_by (fun c => c =? delim) s.

(** src/stringView.cpp:222-232 hashCode: the char is sign extended. *)
Definition sv_hashCode (s : list N) : N :=
  fold_left (fun result c => u64 (char_to_u64 c + u64 (result * 31))) s 0.

(** include/solace/stringView.hpp:319-321, the loop for an empty delimiter *)
Fixpoint sv_split_chars (k : nat) (s : list N) (to : N) : list (list N) :=
  match k with
  | O => []
  | S k' => sv_substring s to (u16 (to + 1)) :: sv_split_chars k' s (u16 (to + 1))
  end.

(** include/solace/stringView.hpp:329-341; the result is the list of pieces handed
    to the callback and the returned count. *)
Fixpoint sv_split_loop (fuel : nat) (delim s : list N) (to from count : N) : outcome (list (list N) * N) :=
  match fuel with
  | O => OutOfFuel
  | S fuel' =>
      let toInc := size delim - 1 in
      if to + size delim <=? size s then
        if sv_equals delim (sv_substring s to (u16 (to + toInc + 1))) then
          let to' := u16 (to + toInc) in
          let! r := sv_split_loop fuel' delim s (u16 (to' + 1)) (u16 (to' + 1)) (u16 (count + 1)) in
          Ret (sv_substring s from to :: fst r, snd r)
        else sv_split_loop fuel' delim s (u16 (to + 1)) from count
      else Ret ([sv_substring_from s from], count)
  end.

(** include/solace/stringView.hpp:303-342 split(StringView, callback(piece)) *)
Definition sv_split (fuel : nat) (delim s : list N) : outcome (list (list N) * N) :=
  if size s <? size delim then Ret ([s], 1) else
  if size delim =? 0 then Ret (sv_split_chars (length s) s 0, size s) else
  sv_split_loop fuel delim s 0 0 1.

(** include/solace/stringView.hpp:351-356: counting delimiters; delimLength - 1 is -1
    for an empty delimiter and the sum is converted back to uint16. *)
Fixpoint sv_count_loop (fuel : nat) (delim s : list N) (i delimCount : N) : outcome N :=
  match fuel with
  | O => OutOfFuel
  | S fuel' =>
      if (i <? size s) && (i + size delim <=? size s) then
        if sv_equals delim (sv_substring s i (u16 (i + size delim))) then
          sv_count_loop fuel' delim s (u16 (sub16 (i + size delim) 1 + 1)) (u16 (delimCount + 1))
        else sv_count_loop fuel' delim s (u16 (i + 1)) delimCount
      else Ret delimCount
  end.

(** include/solace/stringView.hpp:358-371; each callback gets the piece, its index and
    the number of pieces. *)
Fixpoint sv_split3_loop (fuel : nat) (delim s : list N) (delimCount to from i : N) : outcome (list (list N * N * N)) :=
  match fuel with
  | O => OutOfFuel
  | S fuel' =>
      if (to <? size s) && (to + size delim <=? size s) then
        if sv_equals delim (sv_substring s to (u16 (to + size delim))) then
          let to' := sub16 (to + size delim) 1 in
          let! r := sv_split3_loop fuel' delim s delimCount (u16 (to' + 1)) (u16 (to' + 1)) (u16 (i + 1)) in
          Ret ((sv_substring s from to, i, u16 (delimCount + 1)) :: r)
        else sv_split3_loop fuel' delim s delimCount (u16 (to + 1)) from i
      else Ret [(sv_substring_from s from, delimCount, u16 (delimCount + 1))]
  end.

(** include/solace/stringView.hpp:344-372 split(StringView, callback(piece, i, n)) *)
Definition sv_split3 (fuel : nat) (delim s : list N) : outcome (list (list N * N * N) * N) :=
  let! delimCount := sv_count_loop fuel delim s 0 0 in
  let! r := sv_split3_loop fuel delim s delimCount 0 0 0 in
  Ret (r, u16 (delimCount + 1)).

(** include/solace/stringView.hpp:384-395 split(char, callback); [k] iterations left *)
Fixpoint sv_split_char_loop (k : nat) (delim : N) (s : list N) (to from count : N) : outcome (list (list N) * N) :=
  match k with
  | O => Ret ([sv_substring_from s from], count)
  | S k' =>
      let! c := peek s to in
      if c =? delim then
        let! r := sv_split_char_loop k' delim s (u16 (to + 1)) (u16 (to + 1)) (u16 (count + 1)) in
        Ret (sv_substring s from to :: fst r, snd r)
      else sv_split_char_loop k' delim s (u16 (to + 1)) from count
  end.
(** include/solace/stringView.hpp:379-396 *)
Definition sv_split_char (delim : N) (s : list N) : outcome (list (list N) * N) :=
  sv_split_char_loop (length s) delim s 0 0 1.
