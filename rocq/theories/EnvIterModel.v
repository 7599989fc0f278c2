(** Model of iterators over the environment as objects of a program:
    include/solace/env.hpp:52-94, src/env.cpp:55-82. *)
From Verif Require Import Base EnvModel EnvAllSpec.

(** include/solace/env.hpp:91-93: the position and the number of variables *)
Record eiter := mkEIter { ei_index : N; ei_size : N }.
(** include/solace/env.hpp:156-158 begin() *)
Definition ei_begin (fuel : nat) (p : process) : outcome eiter := let! n := env_size fuel p in Ret (mkEIter 0 n).
(** include/solace/env.hpp:160-163 end() *)
Definition ei_end (fuel : nat) (p : process) : outcome eiter := let! n := env_size fuel p in Ret (mkEIter n n).
(** include/solace/env.hpp:70-72, 66-68: positions are compared, nothing else *)
Definition ei_eq (a b : eiter) : bool := ei_index a =? ei_index b.
Definition ei_ne (a b : eiter) : bool := negb (ei_index a =? ei_index b).
(** src/env.cpp:55-62 operator++ *)
Definition ei_next (a : eiter) : outcome eiter := let! i := env_next (ei_size a) (ei_index a) in Ret (mkEIter i (ei_size a)).
(** src/env.cpp:65-82, include/solace/env.hpp:78-80: operator-> and operator* *)
Definition ei_deref (p : process) (a : eiter) : outcome (list N * list N) := env_deref p (ei_size a) (ei_index a).

(** What a program does with iterators, which it numbers in the order in which it makes them:
    begin() and end(), copy construction, assignment (of an lvalue, and of an rvalue, which
    exchanges the two, as swap does), ++, *, ==, !=, getIndex(); and calls that change the
    environment. *)
(** include/solace/env.hpp:54-94, 104-163 *)
Inductive iop :=
| IBegin | IEnd | ICopy (i : nat) | IAssign (i j : nat) | ISwap (i j : nat)
| INext (i : nat) | ILook (i : nat) | IEqual (i j : nat) | IDiffer (i j : nat) | IIndex (i : nat)
| ICall (c : call).
(** What it is told. *)
(** include/solace/env.hpp:54-94 *)
Inductive ians := IDone | IRaised | IVar (v : list N * list N) | IBool (b : bool) | INum (n : N) | IResult (r : result unit).

(** replacing an element of the list of iterators *)
(** include/solace/env.hpp:62-65: what an assignment changes *)
Fixpoint put_at {A} (l : list A) (i : nat) (x : A) : list A :=
  match l, i with
  | [], _ => []
  | _ :: t, O => x :: t
  | y :: t, S i' => y :: put_at t i' x
  end.
(** the iterator of that number; there is no such operation on others *)
(** include/solace/env.hpp:52 *)
Definition with_iter {B} (its : list eiter) (i : nat) (f : eiter -> outcome B) : outcome B :=
  match nth_error its i with Some a => f a | None => UB end.
(** Exceptions are caught by the program, which goes on. *)
(** include/solace/env.hpp:54-94, src/env.cpp:55-82 *)
Definition i_step (fuel : nat) (o : iop) (w : process * list eiter) : outcome (ians * (process * list eiter)) :=
  let '(p, its) := w in
  match o with
  | IBegin => let! a := ei_begin fuel p in Ret (IDone, (p, its ++ [a]))
  | IEnd => let! a := ei_end fuel p in Ret (IDone, (p, its ++ [a]))
  | ICopy i => with_iter its i (fun a => Ret (IDone, (p, its ++ [a])))
  | IAssign i j => with_iter its i (fun _ => with_iter its j (fun b => Ret (IDone, (p, put_at its i b))))
  | ISwap i j => with_iter its i (fun a => with_iter its j (fun b => Ret (IDone, (p, put_at (put_at its i b) j a))))
  | INext i => with_iter its i (fun a => match ei_next a with
                                         | Ret b => Ret (IDone, (p, put_at its i b))
                                         | Throws _ => Ret (IRaised, w)
                                         | Terminates => Terminates | UB => UB | OutOfFuel => OutOfFuel
                                         end)
  | ILook i => with_iter its i (fun a => match ei_deref p a with
                                         | Ret v => Ret (IVar v, w)
                                         | Throws _ => Ret (IRaised, w)
                                         | Terminates => Terminates | UB => UB | OutOfFuel => OutOfFuel
                                         end)
  | IEqual i j => with_iter its i (fun a => with_iter its j (fun b => Ret (IBool (ei_eq a b), w)))
  | IDiffer i j => with_iter its i (fun a => with_iter its j (fun b => Ret (IBool (ei_ne a b), w)))
  | IIndex i => with_iter its i (fun a => Ret (INum (ei_index a), w))
  | ICall c => let! x := run_call p c in Ret (IResult (fst x), (snd x, its))
  end.
(** include/solace/env.hpp:54-94 *)
Fixpoint i_run (fuel : nat) (os : list iop) (w : process * list eiter) : outcome (list ians * (process * list eiter)) :=
  match os with
  | [] => Ret ([], w)
  | o :: t => let! x := i_step fuel o w in let! y := i_run fuel t (snd x) in Ret (fst x :: fst y, snd y)
  end.
