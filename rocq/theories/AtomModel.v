(** Model of atoms (include/solace/atom.hpp, src/atom.cpp). *)
From Verif Require Import Base MemViewModel.

(** A char operand of a 64-bit expression: char is signed, so bytes above 127
    are sign extended. *)
(** include/solace/atom.hpp:47-60, src/atom.cpp:64-73: a char converted to uint64 *)
Definition char_to_u64 (c : N) : N := if c <? 128 then c else 2 ^ 64 - 256 + c.

(** include/solace/atom.hpp:53-55 (in detail::wrap): the loop
    while (i < N && i < len && str[i]) n = (n << CHAR_BIT) | str[i++];
    [mem] are the bytes from str on; [k] counts down the remaining i < N. *)
Fixpoint wrap_loop (k : nat) (mem : list N) (i len n : N) : outcome (N * N) :=
  match k with
  | O => Ret (n, i)
  | S k' =>
      if i <? len then
        match mem with
        | [] => UB
        | c :: rest =>
            if c =? 0 then Ret (n, i)
            else wrap_loop k' rest (i + 1) len (N.lor (u64 (N.shiftl n 8)) (char_to_u64 c))
        end
      else Ret (n, i)
  end.

(** include/solace/atom.hpp:47-60 detail::wrap<uintmax_t>; shifting by (N - i) * 8 < 64. *)
Definition atom_wrap (mem : list N) (len : N) : outcome N :=
  let! p := wrap_loop 8 mem 0 len 0 in
  let '(n, i) := p in
  Ret (if i =? 0 then 0 else u64 (N.shiftl n ((8 - i) * 8))).

(** include/solace/atom.hpp:62-73 detail::unwrap<uintmax_t>: the nine bytes stored into buffer. *)
Definition atom_unwrap (n : N) : list N :=
  map (fun i => u8 (N.shiftr n ((8 - i - 1) * 8))) [0; 1; 2; 3; 4; 5; 6; 7] ++ [0].

(** include/solace/atom.hpp:79-87 atom("..."): a literal of at most 7 characters and its terminating NUL
    (static_assert), wrapped with the default length 8. *)
Definition atom_literal (chars : list N) : outcome N := atom_wrap (chars ++ [0]) 8.

(** src/atom.cpp:64-73 tryParseAtom; [str] are the viewed characters.  The memory
    behind the view is not read because of i < len. *)
Definition tryParseAtom (str : list N) : outcome (result N) :=
  if 8 <? size str then Ret (Err 0) else
  let! v := atom_wrap str (size str) in Ret (Ok v).

(** include/solace/atom.hpp:89-92 atomToString *)
Definition atomToString (a : N) : list N := atom_unwrap a.
