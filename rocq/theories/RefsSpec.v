(** What a program with vectors, arrays and references to their elements means, without
    memory: a vector or array has a content, which keeps its name when it moves to another
    object; a reference is the name of a content and a position in it. *)
From Verif Require Import Base MemoryModel ContainerModel RefsModel.

(** A content: its name, how many elements it can have, and its elements. *)
Record content (A : Type) := mkContent { k_name : nat; k_cap : N; k_elems : list A }.
Arguments mkContent {A}. Arguments k_name {A}. Arguments k_cap {A}. Arguments k_elems {A}.
(** The objects, how many contents there have been, and the references. *)
Record swld (A : Type) := mkS { s_objs : list (option (kind * option (content A))); s_made : nat; s_refs : list (option (nat * nat)) }.
Arguments mkS {A}. Arguments s_objs {A}. Arguments s_made {A}. Arguments s_refs {A}.
Definition swld0 {A} : swld A := mkS [] 0 [].

Definition elems_of {A} (c : option (content A)) : list A := match c with Some k => k_elems k | None => [] end.
Definition cap_of {A} (c : option (content A)) : N := match c with Some k => k_cap k | None => 0 end.
Definition change {A} (c : option (content A)) (l : list A) : option (content A) :=
  match c with Some k => Some (mkContent (k_name k) (k_cap k) l) | None => None end.

(** The elements of the content with the given name, if it is in a living object. *)
Fixpoint lookup {A} (objs : list (option (kind * option (content A)))) (name : nat) : option (list A) :=
  match objs with
  | [] => None
  | Some (_, Some k) :: t => if Nat.eqb (k_name k) name then Some (k_elems k) else lookup t name
  | _ :: t => lookup t name
  end.
(** What a reference shows. *)
Definition shown {A} (objs : list (option (kind * option (content A)))) (r : nat * nat) : option A :=
  match lookup objs (fst r) with Some l => nth_error l (snd r) | None => None end.
(** The elements of that content replaced. *)
Definition rewritten {A} (r : nat * nat) (x : A) (o : option (kind * option (content A))) : option (kind * option (content A)) :=
  match o with
  | Some (k, Some c) => if Nat.eqb (k_name c) (fst r) then Some (k, Some (mkContent (k_name c) (k_cap c) (upd (k_elems c) (snd r) x))) else o
  | _ => o
  end.

(** One statement; [None]: undefined, because a reference is used whose element is gone. *)
Definition sstep {A} (sz : N) (s : swld A) (o : rop A) : option (swld A * rans A) :=
  let objs := s_objs s in
  let keep l := mkS l (s_made s) (s_refs s) in
  match o with
  | RMake bytes => Some (mkS (objs ++ [Some (Vec, Some (mkContent (s_made s) (bytes / sz) []))]) (S (s_made s)) (s_refs s), RDone)
  | RPush i x =>
      match get objs i with
      | Some (Vec, c) =>
          if N.of_nat (length (elems_of c)) <? cap_of c
          then Some (keep (upd objs i (Some (Vec, change c (elems_of c ++ [x])))), RDone) else Some (s, RFull)
      | _ => Some (s, RNothing)
      end
  | RPop i =>
      match get objs i with
      | Some (Vec, c) => Some (keep (upd objs i (Some (Vec, change c (removelast (elems_of c))))), RDone)
      | _ => Some (s, RNothing)
      end
  | RNull i =>
      match get objs i with
      | Some (Vec, c) => Some (keep (upd objs i (Some (Vec, change c []))), RDone)
      | _ => Some (s, RNothing)
      end
  | RMove i =>
      match get objs i with
      | Some (k, c) => Some (keep (upd objs i (Some (k, None)) ++ [Some (k, c)]), RDone)
      | None => Some (s, RNothing)
      end
  | RSwap i j =>
      match get objs i, get objs j with
      | Some (Vec, c), Some (Vec, d) => Some (keep (upd (upd objs i (Some (Vec, d))) j (Some (Vec, c))), RDone)
      | Some (Arr, c), Some (Arr, d) => Some (keep (upd (upd objs i (Some (Arr, d))) j (Some (Arr, c))), RDone)
      | _, _ => Some (s, RNothing)
      end
  | RToArray i =>
      match get objs i with
      | Some (Vec, c) => Some (keep (upd objs i (Some (Vec, None)) ++ [Some (Arr, c)]), RDone)
      | _ => Some (s, RNothing)
      end
  | RDrop i =>
      match get objs i with Some _ => Some (keep (upd objs i None), RDone) | None => Some (s, RNothing) end
  | RGet i k =>
      match get objs i with
      | Some (_, c) => Some (s, match nth_error (elems_of c) (N.to_nat k) with Some x => RValue x | None => RThrew IndexOutOfRange end)
      | None => Some (s, RNothing)
      end
  | RRef i k =>
      match get objs i with
      | Some (_, Some c) =>
          if k <? N.of_nat (length (k_elems c)) then Some (mkS objs (s_made s) (s_refs s ++ [Some (k_name c, N.to_nat k)]), RDone)
          else Some (mkS objs (s_made s) (s_refs s ++ [None]), RThrew IndexOutOfRange)
      | Some (_, None) => Some (mkS objs (s_made s) (s_refs s ++ [None]), RThrew IndexOutOfRange)
      | None => Some (s, RNothing)
      end
  | RRead q =>
      match get (s_refs s) q with
      | Some r => match shown objs r with Some x => Some (s, RValue x) | None => None end
      | None => Some (s, RNothing)
      end
  | RWrite q x =>
      match get (s_refs s) q with
      | Some r => match shown objs r with Some _ => Some (keep (map (rewritten r x) objs), RDone) | None => None end
      | None => Some (s, RNothing)
      end
  end.
Fixpoint srun {A} (sz : N) (s : swld A) (ops : list (rop A)) : option (swld A * list (rans A)) :=
  match ops with
  | [] => Some (s, [])
  | o :: ops' =>
      match sstep sz s o with
      | None => None
      | Some (s1, a) => match srun sz s1 ops' with Some (s2, r) => Some (s2, a :: r) | None => None end
      end
  end.

(** Buffers fit the machine. *)
Definition small {A} (o : rop A) : Prop := match o with RMake bytes => bytes < 2 ^ 64 | _ => True end.
