(** What String objects and views of them mean: a variable holds a text or nothing. *)
From Verif Require Import Base StringViewModel StringObjModel.

(** A text is a literal, or was made at run time (the n-th one). *)
Inductive origin := Literal | Made (n : nat).
(** [t_vars]: not existing, existing without a text, holding a text.  [t_views]: a view of a
    text, or of nothing.  [t_dead]: the made texts whose variable was destroyed. *)
Record tstate := mkT {
  t_vars : nat -> option (option (origin * list N)); t_views : nat -> option (origin * list N);
  t_next : nat; t_dead : list nat }.
Definition text_of (x : option (origin * list N)) : list N := match x with Some (_, s) => s | None => [] end.
(** The characters a view shows: undefined when its text is gone (and the view is not empty). *)
Definition t_read (t : tstate) (v : option (origin * list N)) : outcome (list N) :=
  match v with
  | None | Some (_, []) => Ret []
  | Some (Literal, s) => Ret s
  | Some (Made n, s) => if existsb (Nat.eqb n) (t_dead t) then UB else Ret s
  end.
Definition part (from to : N) (v : option (origin * list N)) : option (origin * list N) :=
  match v with
  | Some (o, s) => Some (o, firstn (N.to_nat to - N.to_nat from) (skipn (N.to_nat from) s))
  | None => None
  end.
Definition t_set_vars t f := mkT f (t_views t) (t_next t) (t_dead t).
Definition t_set_views t f := mkT (t_vars t) f (t_next t) (t_dead t).
Definition t_make t i s := mkT (vset (t_vars t) i (Some (Some (Made (t_next t), s)))) (t_views t) (S (t_next t)) (t_dead t).
Definition text_eqb (a b : list N) : bool := if list_eq_dec N.eq_dec a b then true else false.

Definition t_step (lits : list (list N)) (o : sop) (t : tstate) : outcome (sans * tstate) :=
  match o with
  | SNew i => match t_vars t i with Some _ => UB | None => Ret (AUnit, t_set_vars t (vset (t_vars t) i (Some None))) end
  | SMake i s ok => match t_vars t i with Some _ => UB | None => if ok then Ret (AUnit, t_make t i s) else Ret (ARefused E_NOMEM, t) end
  | SLit i k =>
      match t_vars t i, nth_error lits k with
      | None, Some s => Ret (AUnit, t_set_vars t (vset (t_vars t) i (Some (Some (Literal, s)))))
      | _, _ => UB
      end
  | SCopy i j ok =>
      match t_vars t i, t_vars t j with
      | None, Some x => if ok then Ret (AUnit, t_make t i (text_of x)) else Ret (ARefused E_NOMEM, t)
      | _, _ => UB
      end
  | SMove i j =>
      match t_vars t i, t_vars t j with
      | None, Some x => Ret (AUnit, t_set_vars t (vset (vset (t_vars t) j (Some None)) i (Some x)))
      | _, _ => UB
      end
  | SAssign i j | SSwap i j =>
      match t_vars t i, t_vars t j with
      | Some x, Some y => Ret (AUnit, t_set_vars t (vset (vset (t_vars t) i (Some y)) j (Some x)))
      | _, _ => UB
      end
  | SDrop i =>
      match t_vars t i with
      | Some x => Ret (AUnit, mkT (vset (t_vars t) i None) (t_views t) (t_next t)
                                  (match x with Some (Made n, _) => n :: t_dead t | _ => t_dead t end))
      | None => UB
      end
  | SView v i => match t_vars t i with Some x => Ret (AUnit, t_set_views t (vset (t_views t) v x)) | None => UB end
  | SSub v i from len => match t_vars t i with Some x => Ret (AUnit, t_set_views t (vset (t_views t) v (part from len x))) | None => UB end
  | SSubFrom v i from =>
      match t_vars t i with Some x => Ret (AUnit, t_set_views t (vset (t_views t) v (part from (size (text_of x)) x))) | None => UB end
  | SSubView v u from to => Ret (AUnit, t_set_views t (vset (t_views t) v (part from to (t_views t u))))
  | SRead v => let! s := t_read t (t_views t v) in Ret (AText s, t)
  | SText i => match t_vars t i with Some x => Ret (AText (text_of x), t) | None => UB end
  | SSize i => match t_vars t i with Some x => Ret (ASize (size (text_of x)), t) | None => UB end
  | SEmpty i => match t_vars t i with Some x => Ret (ABool (text_eqb (text_of x) []), t) | None => UB end
  | SCharAt i k =>
      match t_vars t i with
      | Some x => Ret (match nth_error (text_of x) (N.to_nat k) with Some c => AChar (schar c) | None => ARaised IndexOutOfRange end, t)
      | None => UB
      end
  | SEquals i j =>
      match t_vars t i, t_vars t j with
      | Some x, Some y => Ret (ABool (text_eqb (text_of x) (text_of y)), t)
      | _, _ => UB
      end
  end.
Fixpoint t_run (lits : list (list N)) (os : list sop) (t : tstate) : outcome (list sans * tstate) :=
  match os with
  | [] => Ret ([], t)
  | o :: r => let! p := t_step lits o t in let! q := t_run lits r (snd p) in Ret (fst p :: fst q, snd q)
  end.
Definition t_start : tstate := mkT (fun _ => None) (fun _ => None) 0 [].
