(** Model of the comparison operators between the text types (include/solace/string.hpp,
    include/solace/stringView.hpp) and of the measuring functions of StringBuilder. *)
From Verif Require Import Base ByteIOModel StringModel StringViewModel FmtModel BuilderModel.

(** The operands: a String (include/solace/string.hpp:351-352), a StringView
    (include/solace/stringView.hpp:35-38), a StringLiteral (stringView.hpp:451-463, a
    StringView whose text is an array known at compile time) and a [const char*], null or
    pointing at the start of the given memory. *)
Inductive operand :=
| OStr (s : str) | OView (s : list N) | OLit (s : list N) | OCstr (p : option (list N)).

(** src/stringView.cpp:29-35: strlen reads up to the first zero byte, leaving the memory
    when there is none *)
Fixpoint strlen (m : list N) : outcome N :=
  match m with
  | [] => UB
  | b :: m' => if b =? 0 then Ret 0 else let! n := strlen m' in Ret (n + 1)
  end.

(** src/stringView.cpp:29-35: null is the empty text; the length becomes an uint16
    (stringView.hpp:38) *)
Definition view_of_cstr (p : option (list N)) : outcome (list N) :=
  match p with
  | None => Ret []
  | Some m => let! n := strlen m in Ret (ntake (u16 n) m)
  end.

(** The StringView an operand is turned into: string.hpp:328-330 for a String,
    stringView.cpp:29-35 for a C string *)
Definition view_of (o : operand) : outcome (list N) :=
  match o with
  | OStr s => Ret (str_view s)
  | OView s => Ret s
  | OLit s => Ret s
  | OCstr p => view_of_cstr p
  end.

(** src/string.cpp:119-121, string.hpp:118-123 String::equals and stringView.cpp:38-52
    StringView::equals, of the object [x] given the argument [y] *)
Definition equals_of (x y : operand) : outcome bool :=
  let! b := view_of y in
  let! a := view_of x in
  Ret (sv_equals a b).

(** operator==: string.hpp:362-395 and stringView.hpp:477-528.  [None]: the program does
    not compile (StringLiteral against const char* is ambiguous) or the operator is the
    built-in one on pointers.  The operators are noexcept. *)
Definition op_eq (x y : operand) : option (outcome bool) :=
  match x, y with
  | OStr _, OStr _ => Some (noexcept (equals_of x y))    (* string.hpp:362-365 *)
  | OStr _, OView _ => Some (noexcept (equals_of x y))   (* string.hpp:367-370 *)
  | OView _, OStr _ => Some (noexcept (equals_of y x))   (* string.hpp:372-375 *)
  | OStr _, OLit _ => Some (noexcept (equals_of x y))    (* string.hpp:377-380 *)
  | OLit _, OStr _ => Some (noexcept (equals_of y x))    (* string.hpp:382-385 *)
  | OStr _, OCstr _ => Some (noexcept (equals_of x y))   (* string.hpp:387-390 *)
  | OCstr _, OStr _ => Some (noexcept (equals_of y x))   (* string.hpp:392-395 *)
  | OView _, OView _ => Some (noexcept (equals_of x y))  (* stringView.hpp:477-480 *)
  | OLit _, OView _ => Some (noexcept (equals_of x y))   (* stringView.hpp:487-490 *)
  | OView _, OLit _ => Some (noexcept (equals_of x y))   (* stringView.hpp:497-500 *)
  | OLit _, OLit _ => Some (noexcept (equals_of x y))    (* stringView.hpp:508-511 *)
  | OCstr _, OView _ => Some (noexcept (equals_of y x))  (* stringView.hpp:519-522 *)
  | OView _, OCstr _ => Some (noexcept (equals_of x y))  (* stringView.hpp:524-527 *)
  | OLit _, OCstr _ | OCstr _, OLit _ | OCstr _, OCstr _ => None
  end.

(** The negation in `return !lhv.equals(rhv)` (string.hpp:398-401) *)
Definition not_equals_of (x y : operand) : outcome bool :=
  let! b := equals_of x y in Ret (negb b).

(** operator!=: string.hpp:398-421 and stringView.hpp:482-537.  Against a StringLiteral a
    String uses the overload for StringView, the base class. *)
Definition op_ne (x y : operand) : option (outcome bool) :=
  match x, y with
  | OStr _, OStr _ => Some (noexcept (not_equals_of x y))    (* string.hpp:398-401 *)
  | OStr _, OView _ => Some (noexcept (not_equals_of x y))   (* string.hpp:403-406 *)
  | OStr _, OLit _ => Some (noexcept (not_equals_of x y))    (* string.hpp:403-406 *)
  | OView _, OStr _ => Some (noexcept (not_equals_of y x))   (* string.hpp:408-411 *)
  | OLit _, OStr _ => Some (noexcept (not_equals_of y x))    (* string.hpp:408-411 *)
  | OStr _, OCstr _ => Some (noexcept (not_equals_of x y))   (* string.hpp:413-416 *)
  | OCstr _, OStr _ => Some (noexcept (not_equals_of y x))   (* string.hpp:418-421 *)
  | OView _, OView _ => Some (noexcept (not_equals_of x y))  (* stringView.hpp:482-485 *)
  | OLit _, OView _ => Some (noexcept (not_equals_of x y))   (* stringView.hpp:492-495 *)
  | OView _, OLit _ => Some (noexcept (not_equals_of x y))   (* stringView.hpp:502-505 *)
  | OLit _, OLit _ => Some (noexcept (not_equals_of x y))    (* stringView.hpp:513-516 *)
  | OCstr _, OView _ => Some (noexcept (not_equals_of y x))  (* stringView.hpp:529-532 *)
  | OView _, OCstr _ => Some (noexcept (not_equals_of x y))  (* stringView.hpp:534-537 *)
  | OLit _, OCstr _ | OCstr _, OLit _ | OCstr _, OCstr _ => None
  end.

(** include/solace/stringView.hpp:540-559 the ordering operators of StringView *)
Inductive rel := Lt | Le | Gt | Ge.

(** include/solace/stringView.hpp:540-543 <, 546-549 <=, 551-554 >, 556-559 >= : the
    result of compareTo against zero *)
Definition op_ord (r : rel) (a b : list N) : outcome bool :=
  let! z := sv_compareTo a b in
  Ret match r with
      | Lt => Z.ltb z 0 | Le => Z.leb z 0 | Gt => Z.ltb 0 z | Ge => Z.leb 0 z
      end.

(** include/solace/string.hpp:356-359 operator< on Strings, through src/string.cpp:123-125 *)
Definition str_lt (a b : str) : outcome bool :=
  noexcept (let! z := sv_compareTo (str_view a) (str_view b) in Ret (Z.ltb z 0)).

(** What can be measured and appended: a char (include/solace/stringBuilder.hpp:39), a
    StringView (40), a number (42-47) and a string in quotes (49-52) *)
Inductive item := IChar (c : N) | IText (s : list N) | INum (v : N) | IQuoted (s : list N).

(** include/solace/stringBuilder.hpp:39-52; the size of the array of a quoted string
    includes the terminating zero *)
Definition sb_measure_item (i : item) : N :=
  match i with
  | IChar _ => 1
  | IText s => size s
  | INum v => sb_measure v
  | IQuoted s => u16 (size s + 1)
  end.

(** The call append(x) for the same value: src/stringBuilder.cpp:85-130, a quoted string
    becomes a StringView (include/solace/stringView.hpp:84) *)
Definition sb_append_item (host_be : bool) (w : writer) (i : item) : outcome writer :=
  match i with
  | IChar c => sb_append host_be w (PChar c)
  | IText s => sb_append host_be w (PText s)
  | INum v => sb_append host_be w (PNum v)
  | IQuoted s => let! t := view_of_cstr (Some (s ++ [0])) in sb_append host_be w (PText t)
  end.

(** A sequence of calls of append, src/stringBuilder.cpp:85-130 *)
Fixpoint sb_append_items (host_be : bool) (w : writer) (l : list item) : outcome writer :=
  match l with
  | [] => Ret w
  | i :: l' => let! w' := sb_append_item host_be w i in sb_append_items host_be w' l'
  end.
