(** What C166 says: a result is the name of an element, or an error.  Names are copied and
    exchanged freely; only writing through a name changes the element. *)
From Coq Require Import List. Import ListNotations.
From Verif Require Import Base RefResModel.

(** The list with another item at a place that it has. *)
Definition replaced_at {X} (l : list X) (i : nat) (x : X) : list X := firstn i l ++ x :: skipn (S i) l.

Record names (A E : Type) := mkNames { n_elems : list A; n_vars : list (nat + E) }.
Arguments mkNames {A E}. Arguments n_elems {A E}. Arguments n_vars {A E}.

(** The state with one more result, with another result at [i], with another element at [c]. *)
Definition more {A E} (s : names A E) (v : nat + E) := mkNames (n_elems s) (n_vars s ++ [v]).
Definition other {A E} (s : names A E) (i : nat) (v : nat + E) := mkNames (n_elems s) (replaced_at (n_vars s) i v).
Definition written {A E} (s : names A E) (c : nat) (x : A) := mkNames (replaced_at (n_elems s) c x) (n_vars s).

(** One operation; None: the operation is undefined, because it names a result or an element
    that is not there or assigns a result to itself.  [moved] is what moving leaves of an error. *)
Definition says {A E} (moved : E -> E) (s : names A E) (o : rrop A E) : option (rrans A E * names A E) :=
  match o with
  | RRBind c => if nth_error (n_elems s) c then Some (RRDone, more s (inl c)) else None
  | RRFail e => Some (RRDone, more s (inr e))
  | RRMove i =>
      match nth_error (n_vars s) i with
      | Some (inl c) => Some (RRDone, more s (inl c))
      | Some (inr e) => Some (RRDone, more (other s i (inr (moved e))) (inr e))
      | None => None
      end
  | RRAssign i j =>
      match nth_error (n_vars s) i, nth_error (n_vars s) j with
      | Some v, Some v' => if Nat.eqb i j then None else Some (RRDone, other (other s i v') j v)
      | _, _ => None
      end
  | RRRead i =>
      match nth_error (n_vars s) i with
      | Some (inl c) => option_map (fun x => (RRGot x, s)) (nth_error (n_elems s) c)
      | Some (inr _) => Some (RRRaised InvalidState, s)
      | None => None
      end
  | RRWrite i x =>
      match nth_error (n_vars s) i with
      | Some (inl c) => if nth_error (n_elems s) c then Some (RRDone, written s c x) else None
      | Some (inr _) => Some (RRRaised InvalidState, s)
      | None => None
      end
  | RRGetError i =>
      match nth_error (n_vars s) i with
      | Some (inl _) => Some (RRRaised InvalidState, s)
      | Some (inr e) => Some (RRErr e, s)
      | None => None
      end
  | RRValue i =>
      match nth_error (n_vars s) i with
      | Some (inl c) => option_map (fun x => (RRGot x, s)) (nth_error (n_elems s) c)
      | Some (inr e) => Some (RRErr e, other s i (inr (moved e)))
      | None => None
      end
  | RRThen i f =>
      match nth_error (n_vars s) i with
      | Some (inl c) => option_map (fun x => (RRGot (snd (f x)), written s c (fst (f x)))) (nth_error (n_elems s) c)
      | Some (inr e) => Some (RRErr e, other s i (inr (moved e)))
      | None => None
      end
  | RRMapError i f =>
      match nth_error (n_vars s) i with
      | Some (inl c) => Some (RRDone, more s (inl c))
      | Some (inr e) => Some (RRDone, more s (inr (f e)))
      | None => None
      end
  | RROrElse i f =>
      match nth_error (n_vars s) i with
      | Some (inl c) => Some (RRDone, more s (inl c))
      | Some (inr e) => if nth_error (n_elems s) (f e) then Some (RRDone, more (other s i (inr (moved e))) (inl (f e))) else None
      | None => None
      end
  end.
Fixpoint says_all {A E} (moved : E -> E) (s : names A E) (os : list (rrop A E)) : option (list (rrans A E) * names A E) :=
  match os with
  | [] => Some ([], s)
  | o :: os =>
      match says moved s o with
      | Some (a, s') => option_map (fun q => (a :: fst q, snd q)) (says_all moved s' os)
      | None => None
      end
  end.

(** The element that a result refers to, through which an operation may write. *)
Definition writes {A E} (o : rrop A E) (i : nat) : Prop :=
  match o with RRWrite k _ => k = i | RRThen k _ => k = i | _ => False end.
(** Result [i] is Ok and refers to element [c]. *)
Definition refers {A E} (w : rrworld A E) (i c : nat) : Prop := nth_error (rr_vars w) i = Some (OptResModel.mkRes true (OptResModel.HasValue c)).
(** A world that some program leads to. *)
Definition reached {A E} (moved : E -> E) (w : rrworld A E) : Prop := exists elems os l, rr_run moved (rr_start elems) os = Ret (l, w).
