(** Specification vocabulary for C153: what every program with Vectors and Arrays does. *)
From Verif Require Import Base MemoryModel ContainerModel ContainerSpec.

(** A container as its user sees it: its class, the bytes of its buffer, its size() and its
    elements in order.  [None] is a hole: an element that is counted but was destroyed. *)
Record shown (A : Type) := mkShown { h_kind : kind; h_room : N; h_size : N; h_vals : list (option A) }.
Arguments mkShown {A}. Arguments h_kind {A}. Arguments h_room {A}. Arguments h_size {A}. Arguments h_vals {A}.

(** No holes. *)
Definition whole {A} (l : list (option A)) : bool := forallb (fun x => match x with Some _ => true | None => false end) l.

(** The operations on what is shown; [None]: a destroyed element is touched. *)
Definition shows {A} (sz : N) (aw : list (option (shown A))) (o : cop A) : option (list (option (shown A)) * ans) :=
  let built_of k room n args :=
    if whole args then Some (aw ++ [Some (mkShown k room n args)], AOk) else Some (aw, ARaised UserException) in
  match o with
  | MakeVec bytes => Some (aw ++ [Some (mkShown Vec bytes 0 [])], AOk)
  | MakeVecN n => Some (aw ++ [Some (mkShown Vec ((n * sz) mod 2 ^ 64) 0 [])], AOk)
  | MakeVecOf args => built_of Vec (N.of_nat (length args) * sz) (N.of_nat (length args)) args
  | MakeArrOf args => built_of Arr (N.of_nat (length args) * sz) (N.of_nat (length args)) args
  | MakeArr n f => let room := (n * sz) mod 2 ^ 64 in built_of Arr room n (map f (seq 0 (N.to_nat (room / sz))))
  | Emplace i arg =>
      match get aw i with
      | Some (mkShown Vec room n l) =>
          if room / sz <=? N.of_nat (length l) then Some (aw, AError BasicOverflow) else
          match arg with
          | None => Some (aw, ARaised UserException)
          | Some v => Some (upd aw i (Some (mkShown Vec room (n + 1) (l ++ [Some v]))), AOk)
          end
      | _ => Some (aw, AOk)
      end
  | Pop i =>
      match get aw i with
      | Some (mkShown Vec room n l) =>
          match l, last l None with
          | [], _ => Some (aw, AOk)
          | _, None => None
          | _, Some _ => Some (upd aw i (Some (mkShown Vec room (n - 1) (removelast l))), AOk)
          end
      | _ => Some (aw, AOk)
      end
  | Clear i | VecNull i =>
      match get aw i with
      | Some (mkShown Vec room n l) => if whole l then Some (upd aw i (Some (mkShown Vec room 0 [])), AOk) else None
      | _ => Some (aw, AOk)
      end
  | ArrNull i =>
      match get aw i with
      | Some (mkShown Arr room n l) => if whole l then Some (upd aw i (Some (mkShown Arr room n (map (fun _ => None) l))), AOk) else None
      | _ => Some (aw, AOk)
      end
  | ToArray i =>
      match get aw i with
      | Some (mkShown Vec room n l) => Some (upd aw i (Some (mkShown Vec 0 0 [])) ++ [Some (mkShown Arr room n l)], AOk)
      | _ => Some (aw, AOk)
      end
  | MoveC i =>
      match get aw i with
      | Some h => Some (upd aw i (Some (mkShown (h_kind h) 0 0 [])) ++ [Some h], AOk)
      | None => Some (aw, AOk)
      end
  | SwapC i j =>
      match get aw i, get aw j with
      | Some h, Some h' =>
          if Bool.eqb (is_vec (h_kind h)) (is_vec (h_kind h')) then Some (upd (upd aw i (Some h')) j (Some h), AOk) else Some (aw, AOk)
      | _, _ => Some (aw, AOk)
      end
  | SetElem i k v =>
      match get aw i with
      | Some (mkShown kd room n l) =>
          match nth_error l (N.to_nat k), v with
          | None, _ => Some (aw, ARaised IndexOutOfRange)
          | Some None, _ => None
          | Some (Some _), None => Some (aw, ARaised UserException)
          | Some (Some _), Some x => Some (upd aw i (Some (mkShown kd room n (upd l (N.to_nat k) (Some x)))), AOk)
          end
      | None => Some (aw, AOk)
      end
  | ViewEmplace i k arg =>
      match get aw i with
      | Some (mkShown kd room n l) =>
          match nth_error l (N.to_nat k) with
          | None => Some (aw, ARaised IndexOutOfRange)
          | Some None => None
          | Some (Some _) => Some (upd aw i (Some (mkShown kd room n (upd l (N.to_nat k) arg))),
              match arg with Some _ => AOk | None => ARaised UserException end)
          end
      | None => Some (aw, AOk)
      end
  | DropC i =>
      match get aw i with
      | Some h => if whole (h_vals h) then Some (upd aw i None, AOk) else None
      | None => Some (aw, AOk)
      end
  end.
Fixpoint shows_all {A} (sz : N) (aw : list (option (shown A))) (ops : list (cop A)) : option (list (option (shown A)) * list ans) :=
  match ops with
  | [] => Some (aw, [])
  | o :: rest => match shows sz aw o with
      | Some (aw1, a) => match shows_all sz aw1 rest with Some (aw2, l) => Some (aw2, a :: l) | None => None end
      | None => None
      end
  end.

(** The program, with what each operation answers. *)
Fixpoint answers_of {A} (sz : N) (w : world A) (ops : list (cop A)) : outcome (list ans) :=
  match ops with
  | [] => Ret []
  | o :: rest => let! p := cstep sz w o in let '(w1, _, a) := p in let! l := answers_of sz w1 rest in Ret (a :: l)
  end.

(** The sizes given to constructors are those of objects in an address space of 2^64 bytes. *)
Definition fits {A} (sz : N) (o : cop A) : Prop :=
  match o with
  | MakeVec bytes => bytes < 2 ^ 64
  | MakeVecOf args | MakeArrOf args => sz * N.of_nat (length args) < 2 ^ 64
  | _ => True
  end.

(** A container is [h]: class, capacity, and every element read gives the value; reading a
    hole is undefined, reading past the elements throws. *)
Definition seen_as {A} (sz : N) (x : option (kind * cont A)) (y : option (shown A)) : Prop :=
  match x, y with
  | None, None => True
  | Some (k, c), Some h =>
      k = h_kind h /\ vec_capacity sz c = h_room h / sz /\ c_n c = h_size h /\ (k = Vec -> h_size h = N.of_nat (length (h_vals h))) /\
      (forall i, elem_at sz c i = match nth_error (h_vals h) (N.to_nat i) with
         | None => Throws IndexOutOfRange | Some None => UB | Some (Some v) => Ret v end) /\
      (forall l, h_vals h = map Some l -> contents_of sz c = Ret l) /\ (whole (h_vals h) = false -> contents_of sz c = UB)
  | _, _ => False
  end.
