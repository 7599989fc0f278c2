(** Specification vocabulary for Optional and Result. *)
From Verif Require Import Base MemoryModel OptResModel.

(** What an Optional or a Result stands for.  Every such object a program can get hold of
    stands for something (C45). *)
Definition opt_is {A} (o : optional A) (m : option A) : Prop :=
  engaged o = match m with Some _ => true | None => false end /\ storage o = m.
Definition res_is {V E} (r : resultv V E) (s : V + E) : Prop :=
  match s with
  | inl v => r_ok r = true /\ r_store r = HasValue v
  | inr e => r_ok r = false /\ r_store r = HasError e
  end.
(** Two optionals that stand for the same. *)
Definition opt_same {A} (o o' : optional A) : Prop := exists m, opt_is o m /\ opt_is o' m.

(** A log is lawful: no object is constructed twice, and an object is used or destroyed
    only after its construction and before its destruction. *)
Definition legal (log : list life) : Prop :=
  forall a e b, log = a ++ e :: b ->
    match e with
    | Born x => ~ In (Born x) a
    | Used x | Died x => In (Born x) a /\ ~ In (Died x) a
    end.
(** The payloads held by the Optionals and Results of a program. *)
Definition payload_ids {A} (x : option (obj A)) : list nat :=
  match x with
  | Some (OOpt o) => match storage o with Some p => [fst p] | None => [] end
  | Some (ORes r) => match r_store r with HasValue p | HasError p => [fst p] | Raw => [] end
  | None => []
  end.
Definition held {A} (w : oworld A) : list nat := flat_map payload_ids (ow_objs w).

(** Operations covered: those that move do not throw inside a function declared noexcept;
    no optional is assigned from its own payload and no result is swapped with itself. *)
Definition o_orderly {A} (nm : bool) (o : oop A) : Prop :=
  match o with
  | OptOf None | OptInPlace None | ResOk None | ResErr None => nm = false
  | OptSwap _ _ fail => mthrow nm fail = false
  | ResSwap i j fail => mthrow nm fail = false /\ i <> j
  | OptAssignFrom i j _ => i <> j
  | _ => True
  end.

(** What the operations mean, on optional values and on disjoint sums. *)
Inductive aobj (A : Type) := AOpt (m : option A) | ARes (s : A + A).
Arguments AOpt {A}. Arguments ARes {A}.
Definition same_class {A} (x y : aobj A) : bool :=
  match x, y with AOpt _, AOpt _ | ARes _, ARes _ => true | _, _ => false end.
Definition side {A} (s : A + A) (f : A -> A) : A + A := match s with inl v => inl (f v) | inr e => inr (f e) end.
Definition made {A} (aw : list (option (aobj A))) (arg : option A) (mk : A -> aobj A) : list (option (aobj A)) * oans A :=
  match arg with Some v => (aw ++ [Some (mk v)], ODone) | None => (aw, ORaised UserException) end.
Definition astep {A} (mvd : A -> A) (nm : bool) (aw : list (option (aobj A))) (o : oop A) : list (option (aobj A)) * oans A :=
  match o with
  | OptEmpty => (aw ++ [Some (AOpt None)], ODone)
  | OptOf arg | OptInPlace arg => made aw arg (fun v => AOpt (Some v))
  | OptCopy i fail =>
      match get aw i with
      | Some (AOpt (Some v)) => if fail then (aw, ORaised UserException) else (aw ++ [Some (AOpt (Some v))], ODone)
      | Some (AOpt None) => (aw ++ [Some (AOpt None)], ODone)
      | _ => (aw, ODone)
      end
  | OptMove i fail =>
      match get aw i with
      | Some (AOpt (Some v)) =>
          if mthrow nm fail then (aw, ORaised UserException)
          else (upd aw i (Some (AOpt (Some (mvd v)))) ++ [Some (AOpt (Some v))], ODone)
      | Some (AOpt None) => (aw ++ [Some (AOpt None)], ODone)
      | _ => (aw, ODone)
      end
  | OptReset i => match get aw i with Some (AOpt _) => (upd aw i (Some (AOpt None)), ODone) | _ => (aw, ODone) end
  | OptSwap i j _ =>
      match get aw i, get aw j with
      | Some (AOpt x), Some (AOpt y) => (upd (upd aw i (Some (AOpt y))) j (Some (AOpt x)), ODone)
      | _, _ => (aw, ODone)
      end
  | OptAssign i v fail =>
      match get aw i with
      | Some (AOpt _) => if mthrow nm fail then (upd aw i (Some (AOpt None)), ORaised UserException) else (upd aw i (Some (AOpt (Some v))), ODone)
      | _ => (aw, ODone)
      end
  | OptAssignFrom i j fail =>
      match get aw i, get aw j with
      | Some (AOpt _), Some (AOpt None) => (aw, ORaised InvalidState)
      | Some (AOpt _), Some (AOpt (Some v)) =>
          if mthrow nm fail then (upd aw i (Some (AOpt None)), ORaised UserException)
          else (upd (upd aw j (Some (AOpt (Some (mvd v))))) i (Some (AOpt (Some v))), ODone)
      | _, _ => (aw, ODone)
      end
  | OptGet i =>
      match get aw i with
      | Some (AOpt (Some v)) => (aw, OGot v)
      | Some (AOpt None) => (aw, ORaised InvalidState)
      | _ => (aw, ODone)
      end
  | ResOk arg | ResOkInPlace arg => made aw arg (fun v => ARes (inl v))
  | ResErr arg | ResErrInPlace arg => made aw arg (fun v => ARes (inr v))
  | ResMove i fail =>
      match get aw i with
      | Some (ARes s) =>
          if mthrow nm fail then (aw, ORaised UserException)
          else (upd aw i (Some (ARes (side s mvd))) ++ [Some (ARes s)], ODone)
      | _ => (aw, ODone)
      end
  | ResSwap i j _ =>
      match get aw i, get aw j with
      | Some (ARes x), Some (ARes y) => (upd (upd aw i (Some (ARes y))) j (Some (ARes x)), ODone)
      | _, _ => (aw, ODone)
      end
  | ResUnwrap i =>
      match get aw i with
      | Some (ARes (inl v)) => (aw, OGot v)
      | Some (ARes (inr _)) => (aw, ORaised InvalidState)
      | _ => (aw, ODone)
      end
  | ResGetError i =>
      match get aw i with
      | Some (ARes (inr v)) => (aw, OGot v)
      | Some (ARes (inl _)) => (aw, ORaised InvalidState)
      | _ => (aw, ODone)
      end
  | DropO i => (upd aw i None, ODone)
  end.
Fixpoint arun {A} (mvd : A -> A) (nm : bool) (aw : list (option (aobj A))) (ops : list (oop A)) : list (option (aobj A)) * list (oans A) :=
  match ops with
  | [] => (aw, [])
  | o :: ops' => let '(aw1, a) := astep mvd nm aw o in let '(aw2, r) := arun mvd nm aw1 ops' in (aw2, a :: r)
  end.
(** The object stands for the abstract one. *)
Definition stands_for {A} (x : option (obj A)) (y : option (aobj A)) : Prop :=
  match x, y with
  | Some (OOpt o), Some (AOpt m) => exists p, opt_is o p /\ m = option_map snd p
  | Some (ORes r), Some (ARes s) => exists p, res_is r p /\ s = match p with inl v => inl (snd v) | inr e => inr (snd e) end
  | None, None => True
  | _, _ => False
  end.

(** The Optional or Result that came out of a combinator. *)
Definition came_out {A B} (m : outcome (A * B)) : outcome A := let! p := m in Ret (fst p).
(** A callback that has no effect: it returns, and leaves the payload as it was. *)
Definition pure {A B} (g : A -> B) : A -> outcome (B * A) := fun a => Ret (g a, a).
Definition agree {V E} (veq : V -> V -> bool) (eeq : E -> E -> bool) (s t : V + E) : bool :=
  match s, t with inl x, inl y => veq x y | inr x, inr y => eeq x y | _, _ => false end.
