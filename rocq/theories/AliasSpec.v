(** A bounded sequence whose operations may be given its own elements. *)
From Verif Require Import Base AliasModel.

(** The value an argument stands for, if there is one. *)
Definition meant {A} (l : list A) (a : arg A) : option A :=
  match a with Value x => Some x | Elem j => nth_error l (N.to_nat j) end.
(** The place of the first element equal to [x]. *)
Fixpoint position {A} (eqb : A -> A -> bool) (x : A) (l : list A) : option N :=
  match l with
  | [] => None
  | y :: t => if eqb x y then Some 0 else match position eqb x t with Some i => Some (1 + i) | None => None end
  end.
Definition replaced {A} (i : N) (x : A) (l : list A) : list A := firstn (N.to_nat i) l ++ x :: skipn (S (N.to_nat i)) l.
(** Element [i] is to be replaced by itself. *)
Definition itself {A} (i : N) (a : arg A) : bool := match a with Elem j => i =? j | Value _ => false end.

(** One statement on the sequence [l] of at most [cap] elements: the new sequence and the
    answer; None if the statement is undefined. *)
Definition aspec {A} (eqb : A -> A -> bool) (cap : N) (l : list A) (o : aop A) : option (list A * aans A) :=
  let n := N.of_nat (length l) in
  let given a k := match meant l a with Some x => k x | None => Some (l, AThrew IndexOutOfRange) end in
  match o with
  | APush a => given a (fun x => Some (if n <? cap then (l ++ [x], ADone) else (l, AFull)))
  | APop => Some (removelast l, ADone)
  | AReplace i a =>
      given a (fun x =>
        if i <? n then if itself i a then None else Some (replaced i x l, ADone)
        else Some (l, AThrew IndexOutOfRange))
  | ASet i a => given a (fun x => if i <? n then Some (replaced i x l, ADone) else Some (l, AThrew IndexOutOfRange))
  | AFill a => given a (fun x => Some (repeat x (length l), ADone))
  | AFind a => given a (fun x => Some (l, AIndex (position eqb x l)))
  | AGet i => Some (l, match nth_error l (N.to_nat i) with Some x => AValue x | None => AThrew IndexOutOfRange end)
  end.
Fixpoint aspec_run {A} (eqb : A -> A -> bool) (cap : N) (l : list A) (ops : list (aop A)) : option (list A * list (aans A)) :=
  match ops with
  | [] => Some (l, [])
  | o :: ops' =>
      match aspec eqb cap l o with
      | None => None
      | Some (l', a) => match aspec_run eqb cap l' ops' with Some (l2, r) => Some (l2, a :: r) | None => None end
      end
  end.
