(** The environment as what it is in the process: a list of strings, of any form, length
    and number. *)
From Verif Require Import Base EnvModel.

(** The characters before the first '=', and those after it. *)
Fixpoint cut_name (s : list N) : list N :=
  match s with [] => [] | c :: t => if c =? 61 then [] else c :: cut_name t end.
Fixpoint cut_value (s : list N) : list N :=
  match s with [] => [] | c :: t => if c =? 61 then t else cut_value t end.
(** How a string of the environment is shown: as a name and a value.  Its length is cut to
    16 bits, and the value ends at a second '='. *)
Definition shown (e : list N) : list N * list N :=
  let s := firstn (N.to_nat (N.of_nat (length e) mod 2 ^ 16)) e in (cut_name s, cut_name (cut_value s)).
(** The value shown for the first string shown with that name. *)
Fixpoint value_of (name : list N) (l : list (list N)) : option (list N) :=
  match l with
  | [] => None
  | e :: t => if list_eq_dec N.eq_dec (fst (shown e)) name then Some (snd (shown e)) else value_of name t
  end.

(** ** Arguments: memory with characters and what follows them *)
(** The C string that starts there. *)
Definition text_of (v : sview) (t : list N) : Prop :=
  exists s after rest, v = View s after /\ s ++ after = t ++ 0 :: rest /\ ~ In 0 t.
(** Reading it leaves the memory. *)
Definition runs_away (v : sview) : Prop := exists s after, v = View s after /\ ~ In 0 (s ++ after).

(** ** Calls *)
Inductive call :=
| CSet (name value : sview) (replace nomem : bool)
| CUnset (name : sview)
| CClear.
(** The call leaves the memory of its arguments. *)
Definition undefined (c : call) : Prop :=
  match c with
  | CSet name value _ _ => runs_away name \/ (chars_of value <> [] /\ runs_away value)
  | CUnset name => chars_of name <> [] /\ runs_away name
  | CClear => False
  end.
(** The string is that of the variable [n]. *)
Definition of_ (n e : list N) : Prop := exists v, e = n ++ 61 :: v.
Definition is_name (n : list N) : Prop := n <> [] /\ ~ In 61 n.
(** The value argument: nothing is read if it is empty. *)
Definition value_text (v : sview) (t : list N) : Prop := if list_eq_dec N.eq_dec (chars_of v) [] then t = [] else text_of v t.

(** [l] without the strings of [n], in order *)
Inductive kept : list N -> list (list N) -> list (list N) -> Prop :=
| kept_nil n : kept n [] []
| kept_drop n x l l' : of_ n x -> kept n l l' -> kept n (x :: l) l'
| kept_keep n x l l' : ~ of_ n x -> kept n l l' -> kept n (x :: l) (x :: l').

(** What a call does to the list of strings and to errno, and what it returns. *)
Inductive effect : call -> list (list N) * N -> result unit -> list (list N) * N -> Prop :=
| set_new name value replace l e n v : text_of name n -> value_text value v -> is_name n -> (forall x, In x l -> ~ of_ n x) ->
    effect (CSet name value replace false) (l, e) (Ok tt) (l ++ [n ++ 61 :: v], e)
| set_over name value replace nomem e n v a old b : text_of name n -> value_text value v -> is_name n -> (forall x, In x a -> ~ of_ n x) ->
    nomem = false \/ replace = false ->
    effect (CSet name value replace nomem) (a ++ (n ++ 61 :: old) :: b, e) (Ok tt)
           (a ++ (n ++ 61 :: if replace : bool then v else old) :: b, e)
| set_nomem name value replace l e n v : text_of name n -> value_text value v -> is_name n ->
    replace = true \/ (forall x, In x l -> ~ of_ n x) ->
    effect (CSet name value replace true) (l, e) (Err E_NOMEM) (l, E_NOMEM)
| set_refused name value replace nomem l e v : value_text value v -> name = NullView \/ (exists n, text_of name n /\ ~ is_name n) ->
    effect (CSet name value replace nomem) (l, e) (Err E_INVAL) (l, E_INVAL)
| unset_gone name l l' e n : text_of name n -> chars_of name <> [] -> is_name n -> kept n l l' -> effect (CUnset name) (l, e) (Ok tt) (l', e)
| unset_refused name l e : chars_of name = [] \/ (exists n, text_of name n /\ ~ is_name n) -> effect (CUnset name) (l, e) (Err E_INVAL) (l, E_INVAL)
| cleared l e : effect CClear (l, e) (Err e) ([], e).

Inductive history : list (list N) * N -> list call -> list (result unit) -> list (list N) * N -> Prop :=
| history_nil s : history s [] [] s
| history_cons s c r s1 cs rs s2 : effect c s r s1 -> history s1 cs rs s2 -> history s (c :: cs) (r :: rs) s2.

(** The calls on the model. *)
Definition run_call (p : process) (c : call) : outcome (result unit * process) :=
  match c with
  | CSet name value replace nomem => env_set nomem p name value replace
  | CUnset name => env_unset p name
  | CClear => env_clear p
  end.
Fixpoint run_calls (p : process) (cs : list call) : outcome (list (result unit) * process) :=
  match cs with
  | [] => Ret ([], p)
  | c :: t => let! x := run_call p c in let! y := run_calls (snd x) t in Ret (fst x :: fst y, snd y)
  end.
