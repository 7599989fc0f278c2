(** Model of String and the functions that build strings (include/solace/string.hpp,
    src/string.cpp).  [alloc n] stands for the system heap manager: a block of [n]
    bytes of arbitrary content, or an error (malloc(0) is taken to be non-null). *)
From Verif Require Import Base ByteIOModel StringViewModel.

(** include/solace/string.hpp:351-352: owned buffer and uint16 size *)
Record str := mkStr { st_buf : list N; st_size : N }.

(** include/solace/string.hpp:328-330 view(): the slice (0, size()) of the buffer *)
Definition str_view (s : str) : list N := ntake (N.min (size (st_buf s)) (st_size s)) (st_buf s).

Definition heap := N -> result (list N).

(** src/string.cpp:29-43 makeString(StringView); the copy is MutableMemoryView::write
    (src/mutableMemoryView.cpp:39-59) into the fresh block. *)
Definition str_make (alloc : heap) (s : list N) : outcome (result str) :=
  match alloc (size s) with
  | Err e => Ret (Err e)
  | Ok block =>
      if size block <? size s then Ret (Err E_DOM)
      else Ret (Ok (mkStr (overwrite block 0 s) (size s)))
  end.

(** src/string.cpp:52-74 makeStringReplace(StringView, char, char): a byte (0..255) is
    compared with a signed char. *)
Definition str_replace_char (alloc : heap) (s : list N) (what with_ : N) : outcome (result str) :=
  match alloc (size s) with
  | Err e => Ret (Err e)
  | Ok block =>
      if size block <? size s then Ret (Err E_DOM)
      else Ret (Ok (mkStr (map (fun b => if Z.eqb (Z.of_N b) (schar what) then with_ else b) (overwrite block 0 s)) (size s)))
  end.

(** An argument of makeString(a, b, ...): a character or a string *)
(** include/solace/string.hpp:641-782: an argument of makeStringJoin *)
Inductive arg := AChar (c : N) | AText (s : list N).

(** include/solace/string.hpp:488-522 totalSize: the sum is converted to uint16. *)
Definition arg_size (a : arg) : N := match a with AChar _ => 1 | AText s => size s end.
Definition total_size (args : list arg) : N := u16 (fold_right (fun a n => arg_size a + n) 0 args).

(** include/solace/string.hpp:524-537 writeArg *)
Definition write_arg (host_be : bool) (w : writer) (a : arg) : outcome (result unit * writer) :=
  match a with
  | AChar c => w_writeRaw host_be W8 c w
  | AText s => w_write w s
  end.

(** include/solace/string.hpp:539-545 writeAllArgs: stops at the first failure *)
Fixpoint write_args (host_be : bool) (w : writer) (args : list arg) : outcome (bool * writer) :=
  match args with
  | [] => Ret (true, w)
  | a :: args' =>
      let! p := write_arg host_be w a in
      match fst p with
      | Ok _ => write_args host_be (snd p) args'
      | Err _ => Ret (false, snd p)
      end
  end.

(** include/solace/string.hpp:552-582 makeString(lhs, rhs, args...): the outcome of
    writing is ignored. *)
Definition str_concat (host_be : bool) (alloc : heap) (args : list arg) : outcome (result str) :=
  let totalStrLen := total_size args in
  match alloc totalStrLen with
  | Err e => Ret (Err e)
  | Ok block =>
      let! p := write_args host_be (writer_make block) args in
      Ret (Ok (mkStr (w_buf (snd p)) totalStrLen))
  end.

(** src/string.cpp:198-213, the loop of makeStringJoin over an array of strings *)
Fixpoint join_loop (w : writer) (by_ : list N) (l : list (list N)) (count : N) : outcome (result unit * writer) :=
  match l with
  | [] => Ret (Ok tt, w)
  | s :: l' =>
      let! p := w_write w s in
      match fst p with
      | Err e => Ret (Err e, snd p)
      | Ok _ =>
          let count' := sub64 count 1 in
          if 0 <? count' then
            let! q := w_write (snd p) by_ in
            match fst q with
            | Err e => Ret (Err e, snd q)
            | Ok _ => join_loop (snd q) by_ l' count'
            end
          else join_loop (snd p) by_ l' count'
      end
  end.

(** src/string.cpp:184-216 makeStringJoin(StringView, ArrayView<String>): list.size() - 1
    is computed in 64 bits, the length in 16. *)
Definition str_join (alloc : heap) (by_ : list N) (l : list (list N)) : outcome (result str) :=
  let totalStrLen := fold_left (fun n s => u16 (n + size s)) l (u16 (u64 (size by_ * sub64 (size l) 1))) in
  match alloc totalStrLen with
  | Err e => Ret (Err e)
  | Ok block =>
      let! p := join_loop (writer_make block) by_ l (size l) in
      match fst p with
      | Err e => Ret (Err e)
      | Ok _ => Ret (Ok (mkStr (w_buf (snd p)) totalStrLen))
      end
  end.

(** include/solace/string.hpp:672-739 writeJointArgs for an argument list given as
    (is a String, text): after a String the outcome of writing the separator is
    dropped, after a StringView it is checked. *)
Fixpoint write_joint (w : writer) (by_ : list N) (l : list (bool * list N)) : outcome (result unit * writer) :=
  match l with
  | [] => Ret (Ok tt, w)
  | [(_, s)] => w_write w s
  | (isString, s) :: l' =>
      let! p := w_write w s in
      match fst p with
      | Err e => Ret (Err e, snd p)
      | Ok _ =>
          let! q := w_write (snd p) by_ in
          match (if isString : bool then Ok tt else fst q) with
          | Err e => Ret (Err e, snd q)
          | Ok _ => write_joint (snd q) by_ l'
          end
      end
  end.

(** include/solace/string.hpp:641-669, 743-782 makeStringJoin(by, args...): no argument
    gives the empty string, one argument is copied. *)
Definition str_join_args (alloc : heap) (by_ : list N) (l : list (bool * list N)) : outcome (result str) :=
  match l with
  | [] => Ret (Ok (mkStr [] 0))
  | [(_, s)] => str_make alloc s
  | _ =>
      let len := u16 (fold_right (fun a n => size (snd a) + n) 0 l) in
      let totalStrLen := u16 (size by_ * (size l - 1) + len) in
      match alloc totalStrLen with
      | Err e => Ret (Err e)
      | Ok block =>
          let! p := write_joint (writer_make block) by_ l in
          match fst p with
          | Err e => Ret (Err e)
          | Ok _ => Ret (Ok (mkStr (w_buf (snd p)) totalStrLen))
          end
      end
  end.

(** src/string.cpp:97-108, the copying loop of makeStringReplace: the outcome of the
    writes is ignored *)
Fixpoint replace_loop (fuel : nat) (w : writer) (s what by_ : list N) (to from : N) : outcome (writer * N) :=
  match fuel with
  | O => OutOfFuel
  | S fuel' =>
      if (to <? size s) && (to + size what <=? size s) then
        if sv_equals what (sv_substring s to (u16 (to + size what))) then
          let tokLen := sub16 to from in
          let! p := w_write w (sv_substring s from (u16 (from + tokLen))) in
          let! q := w_write (snd p) by_ in
          let to' := sub16 (to + size what) 1 in
          replace_loop fuel' (snd q) s what by_ (u16 (to' + 1)) (u16 (to' + 1))
        else replace_loop fuel' w s what by_ (u16 (to + 1)) from
      else Ret (w, from)
  end.

(** src/string.cpp:77-116 makeStringReplace(StringView, StringView, StringView).  Lines
    82-87 count the occurrences with the same loop as StringView::split
    (stringView.hpp:351-356).  The new length is computed in int: overflow is undefined
    behaviour; it is then cut to uint16.  A failed allocation raises an exception
    (unwrap). *)
Definition str_replace (fuel : nat) (alloc : heap) (s what by_ : list N) : outcome (result str) :=
  let! delimCount := sv_count_loop fuel what s 0 0 in
  if 2 ^ 31 <=? size s + size by_ * delimCount then UB else
  let newStrLen := Z.to_N ((Z.of_N (size s + size by_ * delimCount) - Z.of_N (size what * delimCount)) mod 2 ^ 16)%Z in
  match alloc newStrLen with
  | Err e => Throws InvalidState
  | Ok block =>
      let! p := replace_loop fuel (writer_make block) s what by_ 0 0 in
      let! q := w_write (fst p) (sv_substring_from s (snd p)) in
      match fst q with
      | Err e => Ret (Err e)
      | Ok _ => Ret (Ok (mkStr (w_buf (snd q)) newStrLen))
      end
  end.
