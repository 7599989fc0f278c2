(** Paths and iterators without addresses.  Every sequence of components that was made has a number; it
    belongs to one Path object at a time; an iterator is a sequence and a position in it. *)
From Verif Require Import Base PathIterModel.

Record sequence := mkSeq { s_alive : bool; s_comps : list (list N) }.
Record sworld := mkSW { sw_seqs : list sequence; sw_paths : list (option (option nat)); sw_iters : list (N * option nat) }.
Definition sw0 : sworld := mkSW [] [] [].

(** A Path without components has no sequence. *)
Definition comps_of (seqs : list sequence) (b : option nat) : list (list N) :=
  match b with None => [] | Some k => match nth_error seqs k with Some q => s_comps q | None => [] end end.
Definition alive_of (seqs : list sequence) (b : option nat) : bool :=
  match b with None => true | Some k => match nth_error seqs k with Some q => s_alive q | None => false end end.
Definition set_seq (seqs : list sequence) (b : option nat) (q : sequence) : list sequence :=
  match b with None => seqs | Some k => change_at seqs k q end.

(** [None]: the program looks at a component of a sequence that has been destroyed. *)
Definition spath (w : sworld) (a : nat) (f : option nat -> option (sworld * pans)) : option (sworld * pans) :=
  match nth_error (sw_paths w) a with Some (Some b) => f b | _ => Some (w, QNoObject) end.
Definition siter (w : sworld) (i : nat) (f : N -> option nat -> option (sworld * pans)) : option (sworld * pans) :=
  match nth_error (sw_iters w) i with Some (k, b) => f k b | None => Some (w, QNoObject) end.
Definition look (seqs : list sequence) (b : option nat) (i : N) : option pans :=
  match nth_error (comps_of seqs b) (N.to_nat i) with
  | None => Some (QThrew IndexOutOfRange)
  | Some t => if alive_of seqs b then Some (QText t) else None
  end.

Definition sstep (w : sworld) (o : pop) : option (sworld * pans) :=
  let 'mkSW seqs ps its := w in
  match o with
  | PMake comps => Some (mkSW (seqs ++ [mkSeq true comps]) (ps ++ [Some (Some (length seqs))]) its, QDone)
  | PNull => Some (mkSW seqs (ps ++ [Some None]) its, QDone)
  | PMove a => spath w a (fun b => Some (mkSW seqs (change_at ps a (Some None) ++ [Some b]) its, QDone))
  | PSwap a b | PMoveAssign a b =>
      spath w a (fun x => spath w b (fun y => Some (mkSW seqs (change_at (change_at ps a (Some y)) b (Some x)) its, QDone)))
  | PDrop a => spath w a (fun b => Some (mkSW (set_seq seqs b (mkSeq false (comps_of seqs b))) (change_at ps a None) its, QDone))
  | PTake a => spath w a (fun b =>
      Some (mkSW (set_seq seqs b (mkSeq true (map (fun _ => []) (comps_of seqs b)))) ps its, QTexts (comps_of seqs b)))
  | PWalk a => spath w a (fun b => Some (w, QTexts (comps_of seqs b)))
  | PCount a => spath w a (fun b => Some (w, QNum (size (comps_of seqs b))))
  | PComponent a i => spath w a (fun b => option_map (pair w) (look seqs b i))
  | IBegin a => spath w a (fun b => Some (mkSW seqs ps (its ++ [(0, b)]), QDone))
  | IEnd a => spath w a (fun b => Some (mkSW seqs ps (its ++ [(size (comps_of seqs b), b)]), QDone))
  | ICopy i => siter w i (fun k b => Some (mkSW seqs ps (its ++ [(k, b)]), QDone))
  | IAssign i j => siter w i (fun _ _ => siter w j (fun k b => Some (mkSW seqs ps (change_at its i (k, b)), QDone)))
  | IMoveAssign i j =>
      siter w i (fun k b => siter w j (fun l c => Some (mkSW seqs ps (change_at (change_at its i (l, c)) j (k, b)), QDone)))
  | INext i => siter w i (fun k b => Some (mkSW seqs ps (change_at its i ((k + 1) mod 2 ^ 64, b)), QDone))
  | IDeref i => siter w i (fun k b => option_map (pair w) (look seqs b k))
  | IEq i j => siter w i (fun k _ => siter w j (fun l _ => Some (w, QBool (k =? l))))
  | INe i j => siter w i (fun k _ => siter w j (fun l _ => Some (w, QBool (negb (k =? l)))))
  | IIndex i => siter w i (fun k _ => Some (w, QNum k))
  end.

Fixpoint srun (w : sworld) (ops : list pop) : option (list pans) :=
  match ops with
  | [] => Some []
  | o :: rest =>
      match sstep w o with
      | None => None
      | Some (w', x) => option_map (cons x) (srun w' rest)
      end
  end.

(** An allocator never gives out a place that is in use. *)
Definition alloc_ok (alloc : strings -> N -> N) : Prop :=
  forall mem n i, i < n -> slot mem (alloc mem n + i) = None.
