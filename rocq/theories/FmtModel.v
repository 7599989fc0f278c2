(** Model of the C library formatting and number parsing used by the library:
    snprintf of an unsigned integer (src/stringBuilder.cpp:56-69, 102-130) and
    strtoul in base 10 (src/version.cpp:115-132).  Modelled from the C standard. *)
From Verif Require Import Base.

(** Digits produced from the right; [fuel] bounds the number of digits. *)
(** src/stringBuilder.cpp:56-130, src/errorString.cpp:53-121 call snprintf (C library, not in /repo) *)
Fixpoint dec_loop (fuel : nat) (v : N) (acc : list N) : list N :=
  match fuel with
  | O => acc
  | S fuel' =>
      let acc' := 48 + v mod 10 :: acc in
      if v <? 10 then acc' else dec_loop fuel' (v / 10) acc'
  end.
(** The text of "%u" for [v] *)
(** src/stringBuilder.cpp:56-130, src/errorString.cpp:53-121 call snprintf (C library, not in /repo) *)
Definition dec (v : N) : list N := dec_loop (S (N.size_nat v)) v [].

(** snprintf(buf + pos, cap, fmt, ...) where the formatted text is [t]: at most
    [cap - 1] characters and a terminating NUL are stored, the return value is the
    length of the whole text. *)
(** src/stringBuilder.cpp:56-130, src/errorString.cpp:53-121 call snprintf (C library, not in /repo) *)
Definition snprintf (buf : list N) (pos cap : N) (t : list N) : list N * N :=
  (if cap =? 0 then buf else overwrite buf pos (ntake (cap - 1) t ++ [0]), size t).

(** isspace in the C locale *)
(** src/version.cpp:116-123 calls strtoul (C library, not in /repo) *)
Definition c_space (c : N) : bool := ((9 <=? c) && (c <=? 13)) || (c =? 32).
(** src/version.cpp:116-123 calls strtoul (C library, not in /repo) *)
Definition c_digit (c : N) : bool := (48 <=? c) && (c <=? 57).

(** The stages of strtoul; [mem] is the memory from the pointer on, reading past its
    end is undefined.  Each stage returns what is left and how many bytes it used. *)
(** src/version.cpp:116-123 calls strtoul (C library, not in /repo) *)
Fixpoint skip_spaces (mem : list N) (used : N) : outcome (list N * N) :=
  match mem with
  | [] => UB
  | c :: t => if c_space c then skip_spaces t (used + 1) else Ret (mem, used)
  end.
(** src/version.cpp:116-123 calls strtoul (C library, not in /repo) *)
Fixpoint scan_digits (mem : list N) (acc used : N) : outcome (N * N) :=
  match mem with
  | [] => UB
  | c :: t => if c_digit c then scan_digits t (acc * 10 + (c - 48)) (used + 1) else Ret (acc, used)
  end.
(** strtoul(p, &end, 10): value and end - p; ULONG_MAX on overflow, a minus sign
    negates modulo 2^64, without digits the end pointer is p. *)
(** src/version.cpp:116-123 calls strtoul (C library, not in /repo) *)
Definition strtoul (mem : list N) : outcome (N * N) :=
  let! p := skip_spaces mem 0 in
  match fst p with
  | [] => UB
  | c :: t =>
      let signed := (c =? 43) || (c =? 45) in
      let! q := scan_digits (if signed then t else fst p) 0 0 in
      if snd q =? 0 then Ret (0, 0) else
      let v := if 2 ^ 64 <=? fst q then 2 ^ 64 - 1
               else if c =? 45 then sub64 0 (fst q) else fst q in
      Ret (v, snd p + (if signed then 1 else 0) + snd q)
  end.
