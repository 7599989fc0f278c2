(** What a user expects of the environment: a map from names to values. *)
From Verif Require Import Base EnvModel.

Definition name_char (c : N) : Prop := c <> 0 /\ c <> 61.

(** One string of the environment: name=value. *)
Definition entry (var : list N * list N) : list N := fst var ++ 61 :: snd var.

(** A process whose environment lists these variables; names without '=', no
    string and no list too long for 16 bits. *)
Definition lists (p : process) (vars : list (list N * list N)) : Prop :=
  match p_environ p with Some l => l = map entry vars | None => vars = [] end /\ size vars < 2 ^ 16 /\
  Forall (fun var => ~ In 61 (fst var) /\ size (entry var) < 2 ^ 16) vars.

(** The first variable of that name. *)
Definition lookup (vars : list (list N * list N)) (name : list N) : option (list N) :=
  option_map snd (find (fun var => if list_eq_dec N.eq_dec (fst var) name then true else false) vars).

(** The characters before the first '='. *)
Fixpoint until_eq (s : list N) : list N :=
  match s with [] => [] | c :: t => if c =? 61 then [] else c :: until_eq t end.

(** ** The environment as a map, and the operations on it *)
Definition env_map := list N -> option (list N).
Inductive env_op :=
| Set_ (name value : list N) (replace : bool)
| Unset (name : list N)
| Clear.
Definition on (name : list N) (x : option (list N)) (m : env_map) : env_map :=
  fun n => if list_eq_dec N.eq_dec n name then x else m n.
Definition m_step (m : env_map) (op : env_op) : env_map :=
  match op with
  | Set_ n v replace => match m n with Some _ => if replace then on n (Some v) m else m | None => on n (Some v) m end
  | Unset n => on n None m
  | Clear => fun _ => None
  end.

(** Arguments the operations are meant for. *)
Definition op_ok (op : env_op) : Prop :=
  match op with
  | Set_ n v _ => n <> [] /\ Forall name_char n /\ Forall (fun c => c <> 0) v /\ size n + size v + 1 < 2 ^ 16
  | Unset n => n <> [] /\ Forall name_char n
  | Clear => True
  end.
Definition no_eq_value (op : env_op) : Prop := match op with Set_ _ v _ => ~ In 61 v | _ => True end.

(** Running the operations: string arguments end with a NUL, whatever comes after
    it; there is memory. *)
Definition zstring (s junk : list N) : sview := View s (0 :: junk).
Definition env_step (junk : list N) (p : process) (op : env_op) : outcome (result unit * process) :=
  match op with
  | Set_ n v replace => env_set false p (zstring n junk) (zstring v junk) replace
  | Unset n => env_unset p (zstring n junk)
  | Clear => env_clear p
  end.
Fixpoint env_run (junk : list N) (p : process) (ops : list env_op) : outcome (list (result unit) * process) :=
  match ops with
  | [] => Ret ([], p)
  | op :: t =>
      let! x := env_step junk p op in
      let! y := env_run junk (snd x) t in
      Ret (fst x :: fst y, snd y)
  end.
