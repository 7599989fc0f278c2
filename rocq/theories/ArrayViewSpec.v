(** What a user means by a view of elements. *)
From Verif Require Import Base MemViewModel MemViewSpec ArrayViewModel.

(** The view shows the elements [l], which lie in memory after [pre] and before [post].
    The bytes left over when the size of the view is no multiple of [sz] belong to none. *)
Definition shows {A} (sz : N) (v : view) (pre l post mem : list A) : Prop :=
  mem = pre ++ l ++ post /\ v_size v / sz = size l /\ (l <> [] -> v_addr v = Some (sz * size pre)).

(** Elements [from, to) of a sequence replaced by what [f] makes of them. *)
Definition inside_range {A B} (from to : N) (f : list A -> list A * B) (l : list A) : list A * B :=
  let a := N.min from (size l) in
  let b := N.min (N.max to a) (size l) in
  let r := f (ntake (b - a) (ndrop a l)) in
  (ntake a l ++ fst r ++ ndrop b l, snd r).
(** The operations on a sequence. *)
Definition imap {A B} (f : N -> A -> B) (l : list A) : list B :=
  map (fun p => f (N.of_nat (fst p)) (snd p)) (combine (seq 0 (length l)) l).
Definition seq_op {A} (o : avop) (l : list A) : list A * option exn :=
  match o with
  | ASet i f =>
      match nnth l i, f with
      | None, _ => (l, Some IndexOutOfRange)
      | Some _, None => (l, Some UserException)
      | Some _, Some x => (ntake i l ++ x :: ndrop (i + 1) l, None)
      end
  | AFill x => (map (fun _ => x) l, None)
  | AFillWith f => (imap (fun i _ => f i) l, None)
  | AForEach f => (map f l, None)
  | AForEachIndex _ => (l, None)
  end.
Fixpoint seq_op_in {A} (path : list (N * N)) (o : avop) (l : list A) : list A * option exn :=
  match path with
  | [] => seq_op o l
  | (from, to) :: path' => inside_range from to (seq_op_in path' o) l
  end.
Fixpoint seq_run {A} (l : list A) (ops : list (list (N * N) * avop)) : list A * list (option exn) :=
  match ops with
  | [] => (l, [])
  | (path, o) :: ops' => let p := seq_op_in path o l in let q := seq_run (fst p) ops' in (fst q, snd p :: snd q)
  end.

(** What a callback that may throw sees and leaves when it is handed the elements in turn. *)
Fixpoint visit {A St} (f : St -> N -> A -> St * A * bool) (st : St) (i : N) (l : list A) : list A * St * bool :=
  match l with
  | [] => ([], st, false)
  | x :: l' =>
      let '(st', x', threw) := f st i x in
      if threw : bool then (x' :: l', st', true) else
      let '(l'', st'', t) := visit f st' (i + 1) l' in (x' :: l'', st'', t)
  end.
