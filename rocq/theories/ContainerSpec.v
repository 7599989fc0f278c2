(** Specification vocabulary for containers. *)
From Verif Require Import Base ContainerModel.

(** Constructions and destructions in a log. *)
Definition built (log : list life) : list nat := flat_map (fun e => match e with Ctor i => [i] | Dtor _ => [] end) log.
Definition destroyed (log : list life) : list nat := flat_map (fun e => match e with Ctor _ => [] | Dtor i => [i] end) log.

(** The elements living in the containers of a program. *)
Definition slot_ids {A} (l : list (slot A)) : list nat := flat_map (fun s => match s with Some e => [fst e] | None => [] end) l.
Definition obj_ids {A} (o : option (kind * cont A)) : list nat := match o with Some (_, c) => slot_ids (b_slots (c_buf c)) | None => [] end.
Definition alive {A} (w : world A) : list nat := flat_map obj_ids (w_objs w).

(** Operations covered: sizes fit the machine; the two operations that break element
    lifetimes (see the refutations in ContainerProps.v) are left out. *)
Definition orderly {A} (sz : N) (o : cop A) : Prop :=
  match o with
  | MakeVec bytes => bytes < 2 ^ 64
  | MakeVecOf args | MakeArrOf args => sz * N.of_nat (length args) < 2 ^ 64
  | ArrNull _ => False
  | ViewEmplace _ _ None => False
  | _ => True
  end.

(** The bounded sequence a Vector is meant to be. *)
Inductive vop (A : Type) := VEmplace (arg : option A) | VPop | VClear | VAt (i : N) | VIndexOf (x : A) | VSet (i : N) (arg : option A).
Arguments VEmplace {A}. Arguments VPop {A}. Arguments VClear {A}. Arguments VAt {A}. Arguments VIndexOf {A}. Arguments VSet {A}.
Inductive vans (A : Type) := VDone | VOverflow | VThrew (x : exn) | VElem (a : A) | VIndex (o : option N).
Arguments VDone {A}. Arguments VOverflow {A}. Arguments VThrew {A}. Arguments VElem {A}. Arguments VIndex {A}.

(** [o] is the index of the first element equal to [x], or None if there is none. *)
Definition first_index {A} (eqb : A -> A -> bool) (x : A) (l : list A) (o : option N) : Prop :=
  match o with
  | Some i => exists y, nth_error l (N.to_nat i) = Some y /\ eqb x y = true /\
      forall j z, (j < N.to_nat i)%nat -> nth_error l j = Some z -> eqb x z = false
  | None => forall y, In y l -> eqb x y = false
  end.

(** One step of a sequence of at most [cap] elements. *)
Definition vspec {A} (eqb : A -> A -> bool) (cap : N) (l : list A) (o : vop A) (l' : list A) (a : vans A) : Prop :=
  match o with
  | VEmplace arg =>
      if cap <=? N.of_nat (length l) then l' = l /\ a = VOverflow
      else match arg with
           | Some x => l' = l ++ [x] /\ a = VDone
           | None => l' = l /\ a = VThrew UserException
           end
  | VPop => l' = removelast l /\ a = VDone
  | VClear => l' = [] /\ a = VDone
  | VAt i => l' = l /\ a = match nth_error l (N.to_nat i) with Some x => VElem x | None => VThrew IndexOutOfRange end
  | VIndexOf x => l' = l /\ exists r, a = VIndex r /\ first_index eqb x l r
  | VSet i arg =>
      match nth_error l (N.to_nat i), arg with
      | None, _ => l' = l /\ a = VThrew IndexOutOfRange
      | Some _, None => l' = l /\ a = VThrew UserException
      | Some _, Some x => l' = firstn (N.to_nat i) l ++ x :: skipn (S (N.to_nat i)) l /\ a = VDone
      end
  end.

(** What can be observed of a vector after a step: size(), empty(), capacity(), full() and
    the elements an iteration meets. *)
Record vobs (A : Type) := mkObs { o_size : N; o_empty : bool; o_capacity : N; o_full : bool; o_contents : list A }.
Arguments mkObs {A}.
Definition observed {A} (cap : N) (l : list A) : vobs A :=
  mkObs (N.of_nat (length l)) (match l with [] => true | _ => false end) cap (cap =? N.of_nat (length l)) l.

(** [behaves cap l ops obs]: started as the sequence [l], the operations give the answers
    and observations a sequence of at most [cap] elements gives. *)
Inductive behaves {A} (eqb : A -> A -> bool) (cap : N) : list A -> list (vop A) -> list (vans A * vobs A) -> Prop :=
| behaves_nil l : behaves eqb cap l [] []
| behaves_step l o l' a ops obs : vspec eqb cap l o l' a -> behaves eqb cap l' ops obs ->
    behaves eqb cap l (o :: ops) ((a, observed cap l') :: obs).

(** The same operations performed on the modelled Vector, with what can be observed after
    each.  [next] numbers the objects constructed. *)
Definition vec_op {A} (eqb : A -> A -> bool) (sz : N) (next : nat) (c : cont A) (o : vop A) : outcome (cont A * nat * vans A) :=
  match o with
  | VEmplace arg => let! p := vec_emplace sz next c arg in
      let '(c', _, nx, a) := p in Ret (c', nx, match a with AOk => VDone | AError _ => VOverflow | ARaised x => VThrew x end)
  | VPop => let! p := vec_pop sz c in Ret (fst p, next, VDone)
  | VClear => let! p := vec_clear (S (N.to_nat (c_n c))) sz c in Ret (fst p, next, VDone)
  | VAt i => match elem_at sz c i with Ret x => Ret (c, next, VElem x) | Throws x => Ret (c, next, VThrew x) | Terminates => Terminates | UB => UB | OutOfFuel => OutOfFuel end
  | VIndexOf x => let! o := elem_indexOf eqb sz c x in Ret (c, next, VIndex o)
  | VSet i arg => let! p := elem_set sz c i arg in Ret (fst p, next, match snd p with AOk => VDone | AError _ => VOverflow | ARaised x => VThrew x end)
  end.
Definition vec_obs {A} (sz : N) (c : cont A) : outcome (vobs A) :=
  let! l := contents_of sz c in Ret (mkObs (vec_size c) (vec_empty c) (vec_capacity sz c) (vec_full sz c) l).
Fixpoint vec_run {A} (eqb : A -> A -> bool) (sz : N) (next : nat) (c : cont A) (ops : list (vop A)) : outcome (list (vans A * vobs A)) :=
  match ops with
  | [] => Ret []
  | o :: ops' =>
      let! p := vec_op eqb sz next c o in
      let '(c', nx, a) := p in
      let! ob := vec_obs sz c' in
      let! r := vec_run eqb sz nx c' ops' in
      Ret ((a, ob) :: r)
  end.
