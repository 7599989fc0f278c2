(** Model of the environment: src/env.cpp, include/solace/env.hpp.

    The C library functions it calls (setenv, unsetenv, clearenv) follow the GNU C
    library on Linux: they are part of the environment of the code, not of it. *)
From Verif Require Import Base StringViewModel.

(** The global environ: null, or the strings it lists (without their NUL), and
    errno. *)
(** src/env.cpp:34-49: environ and errno *)
Record process := mkProcess { p_environ : option (list (list N)); p_errno : N }.

(** A StringView argument: a null pointer, or characters followed in memory by
    [after]. *)
(** include/solace/stringView.hpp:425-426 *)
Inductive sview := NullView | View (chars after : list N).
(** include/solace/stringView.hpp:104-114 *)
Definition chars_of (v : sview) : list N := match v with NullView => [] | View s _ => s end.

(** A C string read from memory: up to the first NUL. *)
(** src/env.cpp:70, 114, 121: the C library, or strlen, reading an argument *)
Fixpoint cstring (mem : list N) : outcome (list N) :=
  match mem with
  | [] => UB
  | c :: t => if c =? 0 then Ret [] else let! r := cstring t in Ret (c :: r)
  end.
(** data() handed to the C library, null or a string *)
(** src/env.cpp:114, 121: data() as an argument *)
Definition data_cstring (v : sview) : outcome (option (list N)) :=
  match v with
  | NullView => Ret None
  | View s after => let! r := cstring (s ++ after) in Ret (Some r)
  end.

(** ** The C library *)

(** The entry starts with the name and '=' (61). *)
(** src/env.cpp:112-124 call setenv and unsetenv (C library, not in /repo) *)
Fixpoint c_named (name entry : list N) : bool :=
  match name, entry with
  | [], c :: _ => c =? 61
  | x :: n, c :: e => (x =? c) && c_named n e
  | _, [] => false
  end.
(** src/env.cpp:114, 121: the names setenv and unsetenv refuse (C library, not in /repo) *)
Definition c_bad_name (name : option (list N)) : bool :=
  match name with
  | None | Some [] => true
  | Some n => existsb (fun c => c =? 61) n
  end.
(** src/env.cpp:136-146: the entries *)
Definition c_list (p : process) : list (list N) := match p_environ p with None => [] | Some l => l end.
(** src/env.cpp:114: what setenv stores (C library, not in /repo) *)
Fixpoint c_put (name value : list N) (replace : bool) (l : list (list N)) : list (list N) :=
  match l with
  | [] => [name ++ 61 :: value]
  | e :: t => if c_named name e then (if replace then name ++ 61 :: value else e) :: t
              else e :: c_put name value replace t
  end.
(** Memory is needed unless the variable exists and is kept. *)
(** src/env.cpp:114: setenv (C library, not in /repo) *)
Definition c_setenv (nomem : bool) (p : process) (name : option (list N)) (value : list N) (replace : bool) : Z * process :=
  match name with
  | Some n =>
      if c_bad_name name then ((-1)%Z, mkProcess (p_environ p) E_INVAL) else
      if nomem && (replace || negb (existsb (c_named n) (c_list p))) then ((-1)%Z, mkProcess (p_environ p) E_NOMEM)
      else (0%Z, mkProcess (Some (c_put n value replace (c_list p))) (p_errno p))
  | None => ((-1)%Z, mkProcess (p_environ p) E_INVAL)
  end.
(** src/env.cpp:121: unsetenv (C library, not in /repo) *)
Definition c_unsetenv (p : process) (name : list N) : Z * process :=
  if c_bad_name (Some name) then ((-1)%Z, mkProcess (p_environ p) E_INVAL)
  else (0%Z, mkProcess (option_map (filter (fun e => negb (c_named name e))) (p_environ p)) (p_errno p)).
(** src/env.cpp:128-133: clearenv (C library, not in /repo) *)
Definition c_clearenv (p : process) : Z * process := (0%Z, mkProcess None (p_errno p)).

(** ** Env *)

(** src/env.cpp:136-146: the counter is a uint16; [fuel] iterations *)
Fixpoint env_size_loop (fuel : nat) (p : process) (n : N) : outcome N :=
  match fuel with
  | O => OutOfFuel
  | S fuel' =>
      match p_environ p with
      | None => Ret n
      | Some l =>
          (* environ[size] past the last string is the null pointer that ends it *)
          match nnth l n with
          | Some _ => env_size_loop fuel' p (u16 (n + 1))
          | None => Ret n
          end
      end
  end.
(** src/env.cpp:136-146 *)
Definition env_size (fuel : nat) (p : process) : outcome N := env_size_loop fuel p 0.
(** include/solace/env.hpp:141-143 *)
Definition env_empty (fuel : nat) (p : process) : outcome bool :=
  let! n := env_size fuel p in Ret (n =? 0).

(** src/env.cpp:65-82 operator->: the parts numbered 0 and 1 of the entry split
    at '='.  The length of the entry is converted to uint16. *)
Definition env_var (entry : list N) : outcome (list N * list N) :=
  let s := ntake (u16 (size entry)) entry in
  let! r := sv_split3 (S (length s)) [61] s in
  Ret (fold_left (fun (var : list N * list N) (piece : list N * N * N) =>
         let '(v, i, _) := piece in
         if i =? 0 then (v, snd var) else if i =? 1 then (fst var, v) else var)
       (fst r) ([], [])).
(** src/env.cpp:65-82 operator->, after the range check *)
Definition env_deref (p : process) (sz index : N) : outcome (list N * list N) :=
  if sz <=? index then Throws IndexOutOfRange else
  match p_environ p with
  | None => UB
  | Some l =>
      match nnth l index with
      | Some e => env_var e
      | None =>
          (* environ[size] is the null pointer that ends it, shown as an empty text; what
             follows is not part of it *)
          if index =? size l then env_var [] else UB
      end
  end.
(** src/env.cpp:55-62 operator++ *)
Definition env_next (sz index : N) : outcome N :=
  if sz <=? index then Throws IndexOutOfRange else Ret (u16 (index + 1)).

(** include/solace/env.hpp:166-195 forEach: what the callback is given by the
    iteration from begin() to end(); [fuel] iterations *)
Fixpoint env_iterate (fuel : nat) (p : process) (sz last index : N) : outcome (list (list N * list N)) :=
  match fuel with
  | O => OutOfFuel
  | S fuel' =>
      if index =? last then Ret [] else
      let! v := env_deref p sz index in
      let! i := env_next sz index in
      let! r := env_iterate fuel' p sz last i in
      Ret (v :: r)
  end.
(** include/solace/env.hpp:156-163 begin() and end() *)
Definition env_forEach (fuel : nat) (p : process) : outcome (list (list N * list N)) :=
  let! b := env_size fuel p in
  let! e := env_size fuel p in
  env_iterate fuel p b e 0.

(** include/solace/env.hpp:166-195 forEach with a callback [f] that may do anything to the
    environment: it is given the index and the variable.  begin() and end() are evaluated
    once; [fuel] iterations *)
Fixpoint env_walk {S : Type} (f : S -> N -> list N * list N -> process -> outcome (S * process))
  (fuel : nat) (st : S) (p : process) (sz last index : N) : outcome (S * process) :=
  match fuel with
  | O => OutOfFuel
  | Datatypes.S fuel' =>
      if index =? last then Ret (st, p) else
      let! v := env_deref p sz index in
      let! r := f st index v p in
      let! i := env_next sz index in
      env_walk f fuel' (fst r) (snd r) sz last i
  end.
(** include/solace/env.hpp:156-195 *)
Definition env_forEach_do {S : Type} f (fuel : nat) (st : S) (p : process) : outcome (S * process) :=
  let! b := env_size fuel p in
  let! e := env_size fuel p in
  env_walk f fuel st p b e 0.

(** src/env.cpp:90-109 get *)
Fixpoint env_get_loop (fuel : nat) (p : process) (name : list N) (sz last index : N) : outcome (option (list N)) :=
  match fuel with
  | O => OutOfFuel
  | S fuel' =>
      if index =? last then Ret None else
      let! v := env_deref p sz index in
      if sv_equals (fst v) name then Ret (Some (snd v)) else
      let! i := env_next sz index in
      env_get_loop fuel' p name sz last i
  end.
Definition env_get (fuel : nat) (p : process) (name : list N) : outcome (option (list N)) :=
  noexcept (
    let! b := env_size fuel p in
    let! e := env_size fuel p in
    env_get_loop fuel p name b e 0).

(** src/env.cpp:112-117 set *)
Definition env_set (nomem : bool) (p : process) (name value : sview) (replace : bool) : outcome (result unit * process) :=
  let! n := data_cstring name in
  let! v := (if sv_empty (chars_of value) then Ret (Some []) else data_cstring value) in
  match v with
  | None => UB
  | Some v =>
      let '(r, p') := c_setenv nomem p n v replace in
      Ret (if (r =? 0)%Z then Ok tt else Err (p_errno p'), p')
  end.
(** src/env.cpp:120-124 unset *)
Definition env_unset (p : process) (name : sview) : outcome (result unit * process) :=
  let! n := (if sv_empty (chars_of name) then Ret (Some []) else data_cstring name) in
  match n with
  | None => UB
  | Some n =>
      let '(r, p') := c_unsetenv p n in
      Ret (if (r =? 0)%Z then Ok tt else Err (p_errno p'), p')
  end.
(** src/env.cpp:128-133 clear *)
Definition env_clear (p : process) : outcome (result unit * process) :=
  let '(r, p') := c_clearenv p in
  Ret (if negb (r =? 0)%Z then Ok tt else Err (p_errno p'), p').
