(** Vectors and arrays as values: a program sees lists of elements. *)
From Verif Require Import Base MemoryModel ContainerModel ContainerSpec ContainerValueModel.

(** A variable of the program: vector or array, the bytes of its memory, its elements. *)
Record val (A : Type) := mkVal { v_kind : kind; v_room : N; v_elems : list A }.
Arguments mkVal {A}. Arguments v_kind {A}. Arguments v_room {A}. Arguments v_elems {A}.
(** The variables in the order of their creation; [None]: destroyed. *)
Notation vals A := (list (option (val A))).

(** All the values, unless one of the constructors throws. *)
Fixpoint all_made {A} (l : list (option A)) : option (list A) :=
  match l with
  | [] => Some []
  | None :: _ => None
  | Some x :: t => option_map (cons x) (all_made t)
  end.
Definition vget {A} (s : vals A) (i : nat) : option (val A) := nth i s None.
(** Variable [i] becomes [x]. *)
Definition vput {A} (s : vals A) (i : nat) (x : option (val A)) : vals A := firstn i s ++ x :: skipn (S i) s.
Definition room {A} (sz : N) (l : list A) : N := sz * N.of_nat (length l).
Definition made {A} (sz : N) (k : kind) (s : vals A) (r : option (list A)) : vals A * cans :=
  match r with
  | Some l => (s ++ [Some (mkVal k (room sz l) l)], Answered (A := A) AOk)
  | None => (s, Answered (ARaised UserException))
  end.
Definition kind_eqb (k k' : kind) : bool := match k, k' with Vec, Vec | Arr, Arr => true | _, _ => false end.
Fixpoint list_eqb {A} (eqb : A -> A -> bool) (l l' : list A) : bool :=
  match l, l' with
  | [], [] => true
  | x :: t, y :: t' => (eqb x y && list_eqb eqb t t')%bool
  | _, _ => false
  end.

Section Spec.
Context {A : Type}.
Variable eqb : A -> A -> bool.
Variable sz : N.
Definition vec_of (s : vals A) (i : nat) : option (val A) :=
  match vget s i with Some x => if kind_eqb (v_kind x) Vec then Some x else None | None => None end.
(** What a program means. *)
Definition plain_step (s : vals A) (o : cop A) : vals A * cans :=
  let skip := (s, Answered (A := A) AOk) in
  match o with
  | MakeVec bytes => (s ++ [Some (mkVal Vec bytes [])], Answered AOk)
  | MakeVecN n => (s ++ [Some (mkVal Vec (n * sz mod 2 ^ 64) [])], Answered AOk)
  | MakeVecOf args => made sz Vec s (all_made args)
  | MakeArr n f => made sz Arr s (all_made (map f (seq 0 (N.to_nat n))))
  | MakeArrOf args => made sz Arr s (all_made args)
  | Emplace i arg =>
      match vec_of s i with
      | Some x =>
          if v_room x / sz <=? N.of_nat (length (v_elems x)) then (s, Answered (AError BasicOverflow)) else
          match arg with
          | Some v => (vput s i (Some (mkVal Vec (v_room x) (v_elems x ++ [v]))), Answered AOk)
          | None => (s, Answered (ARaised UserException))
          end
      | None => skip
      end
  | Pop i => match vec_of s i with Some x => (vput s i (Some (mkVal Vec (v_room x) (removelast (v_elems x)))), Answered AOk) | None => skip end
  | Clear i | VecNull i => match vec_of s i with Some x => (vput s i (Some (mkVal Vec (v_room x) [])), Answered AOk) | None => skip end
  | ToArray i =>
      match vec_of s i with
      | Some x => (vput s i (Some (mkVal Vec 0 [])) ++ [Some (mkVal Arr (v_room x) (v_elems x))], Answered AOk)
      | None => skip
      end
  | MoveC i =>
      match vget s i with
      | Some x => (vput s i (Some (mkVal (v_kind x) 0 [])) ++ [Some x], Answered AOk)
      | None => skip
      end
  | SwapC i j =>
      match vget s i, vget s j with
      | Some x, Some y => if kind_eqb (v_kind x) (v_kind y) then (vput (vput s i (Some y)) j (Some x), Answered AOk) else skip
      | _, _ => skip
      end
  | ArrNull _ => skip  (* left out, see [tidy] *)
  | SetElem i k v | ViewEmplace i k v =>
      match vget s i with
      | Some x =>
          if N.of_nat (length (v_elems x)) <=? k then (s, Answered (ARaised IndexOutOfRange)) else
          match v with
          | Some y => (vput s i (Some (mkVal (v_kind x) (v_room x) (firstn (N.to_nat k) (v_elems x) ++ y :: skipn (S (N.to_nat k)) (v_elems x)))), Answered AOk)
          | None => (s, Answered (ARaised UserException))
          end
      | None => skip
      end
  | DropC i => match vget s i with Some _ => (vput s i None, Answered AOk) | None => skip end
  end.
Definition says (s : vals A) (o : option bool) : vals A * cans (A := A) :=
  (s, match o with Some b => Said b | None => NoSuch end).
Definition equal_vals (s : vals A) (i j : nat) : option bool :=
  match vget s i, vget s j with
  | Some x, Some y => if kind_eqb (v_kind x) (v_kind y) then Some (Nat.eqb i j || list_eqb eqb (v_elems x) (v_elems y))%bool else None
  | _, _ => None
  end.
(** A vector is null when it has no elements, an array when it has no memory. *)
Definition null_val (x : val A) : bool :=
  match v_kind x with Vec => match v_elems x with [] => true | _ => false end | Arr => v_room x =? 0 end.
Definition val_step (s : vals A) (o : vcop) : vals A * cans :=
  match o with
  | Plain o => plain_step s o
  | CopyC i ok fail =>
      match vget s i with
      | Some x =>
          if negb ok then (s, Answered (AError E_NOMEM)) else
          if match fail with Some k => Nat.ltb k (length (v_elems x)) | None => false end then (s, Answered (ARaised UserException)) else
          (s ++ [Some (mkVal (v_kind x) (room sz (v_elems x)) (v_elems x))], Answered AOk)
      | None => (s, NoSuch)
      end
  | EqualC i j => says s (equal_vals s i j)
  | DiffersC i j => says s (option_map negb (equal_vals s i j))
  | EqualList i vs =>
      match vget s i with
      | Some x => says s (match v_kind x with Arr => Some (list_eqb eqb (v_elems x) vs) | Vec => None end)
      | None => (s, NoSuch)
      end
  | IsNull i => says s (option_map null_val (vget s i))
  | IsNotNull i => says s (option_map (fun x => negb (null_val x)) (vget s i))
  | LookC i =>
      match vget s i with
      | Some x => (s, Saw (N.of_nat (length (v_elems x))) (v_elems x))
      | None => (s, NoSuch)
      end
  end.
Fixpoint val_run (s : vals A) (os : list vcop) : vals A * list cans :=
  match os with
  | [] => (s, [])
  | o :: t => let p := val_step s o in let q := val_run (fst p) t in (fst q, snd p :: snd q)
  end.

(** The programs covered: sizes fit the machine, and the operations that break arrays (C39, C67)
    are left out. *)
Definition tidy (o : vcop (A := A)) : Prop :=
  match o with
  | Plain (MakeArr n f) => n * sz < 2 ^ 64
  | Plain o => orderly sz o
  | _ => True
  end.
(** The operation names variable [i]. *)
Definition names (o : vcop (A := A)) (i : nat) : Prop :=
  match o with
  | Plain (Emplace j _) | Plain (Pop j) | Plain (Clear j) | Plain (ToArray j) | Plain (MoveC j) | Plain (VecNull j) | Plain (ArrNull j)
  | Plain (SetElem j _ _) | Plain (ViewEmplace j _ _) | Plain (DropC j) => j = i
  | Plain (SwapC j k) => j = i \/ k = i
  | _ => False
  end.
End Spec.
