(** Model of Char (include/solace/char.hpp, src/char.cpp). *)
From Verif Require Import Base ByteIOModel.

(** include/solace/char.hpp:266-269: the union of a uint32 and of an array of five bytes.
    [c_four]: the four bytes the two members share.  [c_fifth]: the last byte of the array,
    which no constructor from a value writes; None is an indeterminate byte. *)
Record char := mkChar { c_four : list N; c_fifth : option N }.

(** include/solace/char.hpp:46-48 Char() *)
Definition char_new : char := mkChar [0; 0; 0; 0] None.
(** include/solace/char.hpp:51-56 Char(byte) *)
Definition char_byte (b : N) : char := mkChar [b; 0; 0; 0] None.
(** src/char.cpp:42-45 Char(char): [b] is the char as an unsigned byte *)
Definition char_char (b : N) : char := mkChar [b; 0; 0; 0] (Some 0).
(** src/char.cpp:36-40 Char(value_type): the value in the byte order of the host *)
Definition char_code (be : bool) (v : N) : char :=
  mkChar (if be then rev (le_store 4 v) else le_store 4 v) None.

(** Store of the byte [b] to _bytes[i]; outside the array it is undefined. *)
(** src/char.cpp:42-56: an assignment to _bytes[i] *)
Definition char_put (i b : N) (c : char) : outcome char :=
  if i <? 4 then Ret (mkChar (overwrite (c_four c) i [b]) (c_fifth c))
  else if i =? 4 then Ret (mkChar (c_four c) (Some b))
  else UB.
(** src/char.cpp:53-55: the loop over the bytes, [i] its index *)
Fixpoint char_fill (i : N) (bs : list N) (c : char) : outcome char :=
  match bs with
  | [] => Ret c
  | b :: t => let! c' := char_put i b c in char_fill (i + 1) t c'
  end.
(** src/char.cpp:48-56 Char(MemoryView); a copy into a Char of more than five bytes runs
    off the array. *)
Definition char_view (bs : list N) : outcome char := char_fill 0 bs (mkChar [0; 0; 0; 0] (Some 0)).

(** include/solace/char.hpp:65-74 copy and move constructors: only the value is copied *)
Definition char_copy (c : char) : char := mkChar (c_four c) None.
(** src/char.cpp:59-63 swap: exchanges the values; the fifth bytes stay *)
Definition char_swap (a b : char) : char * char :=
  (mkChar (c_four b) (c_fifth a), mkChar (c_four a) (c_fifth b)).
(** include/solace/char.hpp:179-183 copy assignment: swap with a temporary *)
Definition char_assign (a b : char) : char := snd (char_swap (char_copy b) a).
(** include/solace/char.hpp:186-188 move assignment: a swap *)
Definition char_move_assign (a b : char) : char * char := char_swap a b.

(** include/solace/char.hpp:83-85 getValue *)
Definition char_value (be : bool) (c : char) : N :=
  if be then le_load (rev (c_four c)) else le_load (c_four c).
(** include/solace/char.hpp:98-117, 197-199: equals and the four comparisons *)
Definition char_equals (be : bool) (a b : char) : bool := char_value be a =? char_value be b.
Definition char_lt (be : bool) (a b : char) : bool := char_value be a <? char_value be b.
Definition char_le (be : bool) (a b : char) : bool := char_value be a <=? char_value be b.
Definition char_gt (be : bool) (a b : char) : bool := char_value be b <? char_value be a.
Definition char_ge (be : bool) (a b : char) : bool := char_value be b <=? char_value be a.

(** src/char.cpp:69-71: bytes before the first zero, at most [n] of them *)
Fixpoint count_bytes (n : nat) (bs : list N) : N :=
  match n, bs with
  | S n', b :: t => if b =? 0 then 0 else count_bytes n' t + 1
  | _, _ => 0
  end.
(** src/char.cpp:66-74 getBytesCount *)
Definition char_bytesCount (c : char) : N := count_bytes 4 (c_four c).
(** src/char.cpp:82-84 getBytes: the bytes of the view returned *)
Definition char_getBytes (c : char) : list N := ntake (char_bytesCount c) (c_four c).

(** src/char.cpp:77-79 c_str, read as a C string by the caller: undefined when an
    indeterminate byte is read or the array has no zero *)
Definition char_c_str (c : char) : outcome (list N) :=
  if char_bytesCount c <? 4 then Ret (char_getBytes c)
  else match c_fifth c with
       | Some 0 => Ret (c_four c)
       | Some _ => UB
       | None => UB
       end.

(** ** The C library's classification functions in the "C" locale (not in /repo) *)
(** src/char.cpp:87-164 calls these functions; a range of characters *)
Definition between (a b c : N) : bool := (a <=? c) && (c <=? b).
(** src/char.cpp:87-164 calls the C library function isdigit *)
Definition c_isdigit (c : N) : bool := between 48 57 c.
(** src/char.cpp:87-164 calls the C library function isupper *)
Definition c_isupper (c : N) : bool := between 65 90 c.
(** src/char.cpp:87-164 calls the C library function islower *)
Definition c_islower (c : N) : bool := between 97 122 c.
(** src/char.cpp:87-164 calls the C library function isalpha *)
Definition c_isalpha (c : N) : bool := c_isupper c || c_islower c.
(** src/char.cpp:87-164 calls the C library function isalnum *)
Definition c_isalnum (c : N) : bool := c_isalpha c || c_isdigit c.
(** src/char.cpp:87-164 calls the C library function isxdigit *)
Definition c_isxdigit (c : N) : bool := c_isdigit c || between 65 70 c || between 97 102 c.
(** src/char.cpp:87-164 calls the C library function isspace *)
Definition c_isspace (c : N) : bool := between 9 13 c || (c =? 32).
(** src/char.cpp:87-164 calls the C library function iscntrl *)
Definition c_iscntrl (c : N) : bool := (c <? 32) || (c =? 127).
(** src/char.cpp:87-164 calls the C library function isgraph *)
Definition c_isgraph (c : N) : bool := between 33 126 c.
(** src/char.cpp:87-164 calls the C library function isprint *)
Definition c_isprint (c : N) : bool := between 32 126 c.
(** src/char.cpp:87-164 calls the C library function ispunct *)
Definition c_ispunct (c : N) : bool := c_isgraph c && negb (c_isalnum c).
(** src/char.cpp:87-164 calls the C library function tolower *)
Definition c_tolower (c : N) : N := if c_isupper c then c + 32 else c.
(** src/char.cpp:87-164 calls the C library function toupper *)
Definition c_toupper (c : N) : N := if c_islower c then c - 32 else c.
(** (int)EOF as a uint32: src/char.cpp:33 Char::Eof *)
Definition eof : N := 4294967295.
Definition char_eof (be : bool) : char := char_code be eof.
(** A call of such a function: its argument has to be representable as an unsigned char or
    to be EOF (C11 7.4), anything else is undefined. *)
(** src/char.cpp:87-164: the call with _value *)
Definition ctype (f : N -> bool) (v : N) : outcome bool :=
  if v <? 256 then Ret (f v) else if v =? eof then Ret false else UB.
(** src/char.cpp:87-164: the call with _value *)
Definition ctype_map (f : N -> N) (v : N) : outcome N :=
  if v <? 256 then Ret (f v) else if v =? eof then Ret eof else UB.

(** ** Classification of a Char *)
(** src/char.cpp:87-119, 137-154 *)
Definition char_isDigit be c := ctype c_isdigit (char_value be c).
Definition char_isXDigit be c := ctype c_isxdigit (char_value be c).
Definition char_isLetter be c := ctype c_isalpha (char_value be c).
Definition char_isLetterOrDigit be c := ctype c_isalnum (char_value be c).
Definition char_isUpperCase be c := ctype c_isupper (char_value be c).
Definition char_isLowerCase be c := ctype c_islower (char_value be c).
Definition char_isWhitespace be c := ctype c_isspace (char_value be c).
Definition char_isCntrl be c := ctype c_iscntrl (char_value be c).
Definition char_isGraphical be c := ctype c_isgraph (char_value be c).
Definition char_isPrintable be c := ctype c_isprint (char_value be c).
Definition char_isPunctuation be c := ctype c_ispunct (char_value be c).
(** _bytes[0] == x && _bytes[1] == 0 *)
(** src/char.cpp:42-56 *)
Definition char_is_byte (x : N) (c : char) : bool :=
  match c_four c with b0 :: b1 :: _ => (b0 =? x) && (b1 =? 0) | _ => false end.
(** src/char.cpp:122-124 isSymbol *)
Definition char_isSymbol be c : outcome bool :=
  let! l := char_isLetterOrDigit be c in Ret (l || char_is_byte 95 c).
(** src/char.cpp:127-129 isFirstSymbol *)
Definition char_isFirstSymbol be c : outcome bool :=
  let! l := char_isLetter be c in Ret (l || char_is_byte 95 c).
(** src/char.cpp:132-134 isNewLine *)
Definition char_isNewLine (c : char) : bool := char_is_byte 10 c.
(** src/char.cpp:157-164 toLower, toUpper *)
Definition char_toLower be c : outcome char :=
  let! v := ctype_map c_tolower (char_value be c) in Ret (char_code be v).
Definition char_toUpper be c : outcome char :=
  let! v := ctype_map c_toupper (char_value be c) in Ret (char_code be v).

(** ** Histories of Char variables *)
(** include/solace/char.hpp:46-80, 176-188: construction, copy, move and swap *)
Inductive chop :=
  | ChView (i : nat) (bs : list N)     (* x_i = Char(view) *)
  | ChChar (i : nat) (b : N)           (* x_i = Char(char) *)
  | ChByte (i : nat) (b : N)           (* x_i = Char(byte) *)
  | ChCopy (i j : nat)                 (* x_i = x_j *)
  | ChMove (i j : nat)                 (* x_i = mv(x_j) *)
  | ChSwap (i j : nat).                (* x_i.swap(x_j), swap(x_i, x_j) *)

(** include/solace/char.hpp:176-188: assignment to a variable *)
Definition put_at {A} (i : nat) (x : A) (l : list A) : list A :=
  firstn i l ++ (match skipn i l with [] => [] | _ :: t => x :: t end).

(** include/solace/char.hpp:173-188, 274-276: one statement on an array of Chars; an
    assignment from a temporary is a move assignment. *)
Definition char_op (o : chop) (st : list char) : outcome (list char) :=
  match o with
  | ChView i bs => let! t := char_view bs in
      match nth_error st i with Some c => Ret (put_at i (fst (char_move_assign c t)) st) | None => UB end
  | ChChar i b => match nth_error st i with
      | Some c => Ret (put_at i (fst (char_move_assign c (char_char b))) st) | None => UB end
  | ChByte i b => match nth_error st i with
      | Some c => Ret (put_at i (fst (char_move_assign c (char_byte b))) st) | None => UB end
  | ChCopy i j => match nth_error st i, nth_error st j with
      | Some a, Some b => Ret (put_at i (char_assign a b) st) | _, _ => UB end
  | ChMove i j => match nth_error st i, nth_error st j with
      | Some a, Some b =>
        if Nat.eqb i j then Ret st
        else let (a', b') := char_move_assign a b in Ret (put_at j b' (put_at i a' st))
      | _, _ => UB end
  | ChSwap i j => match nth_error st i, nth_error st j with
      | Some a, Some b =>
        if Nat.eqb i j then Ret st
        else let (a', b') := char_swap a b in Ret (put_at j b' (put_at i a' st))
      | _, _ => UB end
  end.
Fixpoint char_run (os : list chop) (st : list char) : outcome (list char) :=
  match os with [] => Ret st | o :: t => let! st' := char_op o st in char_run t st' end.
