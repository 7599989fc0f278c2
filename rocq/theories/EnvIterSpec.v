(** What iterators over the environment mean: an iterator is a position and the number of
    variables there were when it (or the one it was copied from) was made. *)
From Verif Require Import Base EnvModel EnvAllSpec EnvIterModel.

Record estate := mkE {
  listed : bool;                  (* there is a list of strings at all: not after clear() *)
  strings : list (list N);
  errno : N;
  iters : list (nat * nat) }.     (* position, number of variables *)

Definition with_iters (s : estate) (its : list (nat * nat)) : estate := mkE (listed s) (strings s) (errno s) its.
(** [l] with [x] in the place [i] *)
Definition changed {A} (l l' : list A) (i : nat) (x : A) : Prop :=
  length l' = length l /\ nth_error l' i = Some x /\ forall j, j <> i -> nth_error l' j = nth_error l j.

Inductive verdict := Says (a : ians) (s : estate) | Undefined | Endless.

Inductive tells (s : estate) : iop -> verdict -> Prop :=
(** begin() and end() count the variables; more than 65535 are counted for ever *)
| t_begin : size (strings s) < 2 ^ 16 -> tells s IBegin (Says IDone (with_iters s (iters s ++ [(0%nat, length (strings s))])))
| t_end : size (strings s) < 2 ^ 16 -> tells s IEnd (Says IDone (with_iters s (iters s ++ [(length (strings s), length (strings s))])))
| t_begin_many : 2 ^ 16 <= size (strings s) -> tells s IBegin Endless
| t_end_many : 2 ^ 16 <= size (strings s) -> tells s IEnd Endless
(** copies and assignments *)
| t_copy i a : nth_error (iters s) i = Some a -> tells s (ICopy i) (Says IDone (with_iters s (iters s ++ [a])))
| t_assign i j a b its : nth_error (iters s) i = Some a -> nth_error (iters s) j = Some b -> changed (iters s) its i b ->
    tells s (IAssign i j) (Says IDone (with_iters s its))
| t_swap i j a b its : nth_error (iters s) i = Some a -> nth_error (iters s) j = Some b ->
    length its = length (iters s) -> nth_error its i = Some b -> nth_error its j = Some a ->
    (forall k, k <> i -> k <> j -> nth_error its k = nth_error (iters s) k) ->
    tells s (ISwap i j) (Says IDone (with_iters s its))
(** one step on, or an exception at the end *)
| t_next i k n its : nth_error (iters s) i = Some (k, n) -> (k < n)%nat -> changed (iters s) its i (Datatypes.S k, n) ->
    tells s (INext i) (Says IDone (with_iters s its))
| t_next_end i k n : nth_error (iters s) i = Some (k, n) -> (n <= k)%nat -> tells s (INext i) (Says IRaised s)
(** looking: the variable that is there now; nothing right behind the last one; undefined further
    on, and when there is no list any more; an exception at the end *)
| t_look i k n e : nth_error (iters s) i = Some (k, n) -> (k < n)%nat -> nth_error (strings s) k = Some e ->
    tells s (ILook i) (Says (IVar (shown e)) s)
| t_look_behind i k n : nth_error (iters s) i = Some (k, n) -> (k < n)%nat -> listed s = true -> k = length (strings s) ->
    tells s (ILook i) (Says (IVar ([], [])) s)
| t_look_lost i k n : nth_error (iters s) i = Some (k, n) -> (k < n)%nat -> (length (strings s) < k)%nat \/ listed s = false ->
    tells s (ILook i) Undefined
| t_look_end i k n : nth_error (iters s) i = Some (k, n) -> (n <= k)%nat -> tells s (ILook i) (Says IRaised s)
(** positions are compared, nothing else *)
| t_equal i j k n k' n' : nth_error (iters s) i = Some (k, n) -> nth_error (iters s) j = Some (k', n') ->
    tells s (IEqual i j) (Says (IBool (Nat.eqb k k')) s)
| t_differ i j k n k' n' : nth_error (iters s) i = Some (k, n) -> nth_error (iters s) j = Some (k', n') ->
    tells s (IDiffer i j) (Says (IBool (negb (Nat.eqb k k'))) s)
| t_index i k n : nth_error (iters s) i = Some (k, n) -> tells s (IIndex i) (Says (INum (N.of_nat k)) s)
(** calls change the environment (see C138) and no iterator *)
| t_call c r l e : effect c (strings s, errno s) r (l, e) ->
    tells s (ICall c) (Says (IResult r)
      (mkE (match c, r with CClear, _ => false | CSet _ _ _ _, Ok _ => true | _, _ => listed s end) l e (iters s)))
| t_call_undefined c : undefined c -> tells s (ICall c) Undefined.

(** A program: the answers up to its end, or that it is undefined or goes on for ever. *)
Inductive course := Ends (xs : list ians) (s : estate) | Breaks | Hangs.
Inductive runs : estate -> list iop -> course -> Prop :=
| runs_nil s : runs s [] (Ends [] s)
| runs_undefined s o os : tells s o Undefined -> runs s (o :: os) Breaks
| runs_endless s o os : tells s o Endless -> runs s (o :: os) Hangs
| runs_on s o a s1 os xs s2 : tells s o (Says a s1) -> runs s1 os (Ends xs s2) -> runs s (o :: os) (Ends (a :: xs) s2)
| runs_breaks s o a s1 os : tells s o (Says a s1) -> runs s1 os Breaks -> runs s (o :: os) Breaks
| runs_hangs s o a s1 os : tells s o (Says a s1) -> runs s1 os Hangs -> runs s (o :: os) Hangs.

(** Programs use iterators they have made. *)
Definition uses (n : nat) (o : iop) : Prop :=
  match o with
  | IBegin | IEnd | ICall _ => True
  | ICopy i | INext i | ILook i | IIndex i => (i < n)%nat
  | IAssign i j | ISwap i j | IEqual i j | IDiffer i j => (i < n)%nat /\ (j < n)%nat
  end.
Definition makes (o : iop) : nat := match o with IBegin | IEnd | ICopy _ => 1 | _ => 0 end.
Fixpoint proper (n : nat) (os : list iop) : Prop :=
  match os with [] => True | o :: t => uses n o /\ proper (n + makes o) t end.
