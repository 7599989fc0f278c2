(** Specification vocabulary for Dictionary: a list of entries in the order of insertion. *)
From Verif Require Import Base ContainerModel DictModel.

Inductive dop (K V : Type) := DPut (key : option K) (value : option V) | DFind (k : K) | DContains (k : K).
Arguments DPut {K V}. Arguments DFind {K V}. Arguments DContains {K V}.
Inductive dans (V : Type) := DDone | DRefused (e : N) | DThrew (x : exn) | DFound (o : option V) | DHas (b : bool).
Arguments DDone {V}. Arguments DRefused {V}. Arguments DThrew {V}. Arguments DFound {V}. Arguments DHas {V}.

(** The value of the oldest entry whose key equals [k]. *)
Fixpoint lookup {K V} (eqb : K -> K -> bool) (k : K) (l : list (K * V)) : option V :=
  match l with [] => None | (k', v) :: l' => if eqb k' k then Some v else lookup eqb k l' end.

(** One operation on a map of at most [cap] entries.  A put into a full map is refused; if
    making the value throws, either answer is possible there. *)
Definition dspec {K V} (eqb : K -> K -> bool) (cap : N) (l : list (K * V)) (o : dop K V) (l' : list (K * V)) (a : dans V) : Prop :=
  match o with
  | DPut k v =>
      if cap <=? N.of_nat (length l) then l' = l /\ (a = DRefused BasicOverflow \/ v = None /\ a = DThrew UserException)
      else match k, v with
           | Some k, Some v => l' = l ++ [(k, v)] /\ a = DDone
           | _, _ => l' = l /\ a = DThrew UserException
           end
  | DFind k => l' = l /\ a = DFound (lookup eqb k l)
  | DContains k => l' = l /\ a = DHas (existsb (fun e => eqb k (fst e)) l)
  end.
(** What is seen after an operation: the entries an iteration meets, keys(), values(), size()
    and empty(). *)
Record dobs (K V : Type) := mkDobs { do_entries : list (K * V); do_keys : list K; do_values : list V; do_size : N; do_empty : bool }.
Arguments mkDobs {K V}. Arguments do_entries {K V}.
Definition observe {K V} (l : list (K * V)) : dobs K V :=
  mkDobs l (map fst l) (map snd l) (N.of_nat (length l)) (match l with [] => true | _ => false end).
Inductive dbehaves {K V} (eqb : K -> K -> bool) (cap : N) : list (K * V) -> list (dop K V) -> list (dobs K V * dans V) -> Prop :=
| dbehaves_nil l : dbehaves eqb cap l [] []
| dbehaves_step l o l' a ops r : dspec eqb cap l o l' a -> dbehaves eqb cap l' ops r -> dbehaves eqb cap l (o :: ops) ((observe l', a) :: r).

(** Moving the key into the dictionary does not throw. *)
Definition sturdy_key {K V} (o : dop K V) : Prop := match o with DPut None _ => False | _ => True end.

(** The modelled Dictionary under the same operations: after each, what is seen, and the answer. *)
Definition dict_op {K V} (eqb : K -> K -> bool) (szk szv : N) (next : nat) (d : dict K V) (o : dop K V) : outcome (dict K V * nat * dans V) :=
  match o with
  | DPut k v => let! p := dict_put szk szv next d k v in
      let '(d', nx, a) := p in Ret (d', nx, match a with AOk => DDone | AError e => DRefused e | ARaised x => DThrew x end)
  | DFind k => let! o := dict_find eqb szk d k in Ret (d, next, DFound o)
  | DContains k => let! b := dict_contains eqb szk d k in Ret (d, next, DHas b)
  end.
Fixpoint dict_run {K V} (eqb : K -> K -> bool) (szk szv : N) (next : nat) (d : dict K V) (ops : list (dop K V))
  : outcome (list (dobs K V * dans V)) :=
  match ops with
  | [] => Ret []
  | o :: ops' =>
      let! p := dict_op eqb szk szv next d o in
      let '(d', nx, a) := p in
      let! l := dict_entries szk szv d' in
      let! ks := dict_keys szk d' in
      let! vs := dict_values szv d' in
      let! r := dict_run eqb szk szv nx d' ops' in
      Ret ((mkDobs l ks vs (dict_size d') (dict_empty d'), a) :: r)
  end.
