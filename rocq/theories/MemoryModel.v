(** Model of owned memory: MemoryResource (include/solace/memoryResource.hpp) and
    MemoryManager (include/solace/memoryManager.hpp, src/memoryManager.cpp).

    A program holds any number of managers and resources.  Objects are named by the order
    of their construction; [None] marks one whose lifetime has ended.  Blocks of the
    system allocator are named by the order of their allocation (simplification: an
    address is never given out twice, so names rather than addresses are compared).
    Contents of blocks are not modelled here (see MemViewModel.v). *)
From Verif Require Import Base.

(** include/solace/memoryManager.hpp:168-179: [m_self] is _disposer._self. *)
Record mgr := mkMgr { m_cap : N; m_size : N; m_locked : bool; m_self : nat }.
(** include/solace/memoryResource.hpp:117-118: the address (None: nullptr) and size of
    _data, and the manager whose _disposer member _disposer points to. *)
Record res := mkRes { r_addr : option nat; r_len : N; r_disp : option nat }.
(** [h_live]: the blocks malloc returned and free has not taken back. *)
(** include/solace/memoryManager.hpp:40-181, include/solace/memoryResource.hpp:57-118: the objects of a program *)
Record st := mkSt { s_mgrs : list (option mgr); s_ress : list (option res); s_next : nat; h_live : list nat }.
(** include/solace/memoryManager.hpp:40-181, include/solace/memoryResource.hpp:57-118: none at the start *)
Definition st0 : st := mkSt [] [] 0 [].

(** What an observer of the system allocator sees: manager [m] was given block [a] of
    [n] bytes, block [a] was returned to the system. *)
(** src/memoryManager.cpp:31-138: malloc and free *)
Inductive event := EvMalloc (m a : nat) (n : N) | EvFree (a : nat).
(** What the caller sees. *)
(** src/memoryManager.cpp:97-115: how a call ends *)
Inductive answer := Done | Refused (e : N) | Raised.

(** include/solace/memoryManager.hpp:40-181, include/solace/memoryResource.hpp:57-118: a variable assigned *)
Fixpoint upd {A} (l : list A) (i : nat) (x : A) : list A :=
  match l, i with
  | [], _ => []
  | _ :: l', O => x :: l'
  | y :: l', S i' => y :: upd l' i' x
  end.
(** The object with the given name, if it is alive. *)
(** include/solace/memoryManager.hpp:40-181, include/solace/memoryResource.hpp:57-118: a variable *)
Definition get {A} (l : list (option A)) (i : nat) : option A := nth i l None.

(** include/solace/memoryManager.hpp:40-181, include/solace/memoryResource.hpp:57-118: a manager changed *)
Definition set_mgr (s : st) (i : nat) (m : mgr) : st := mkSt (upd (s_mgrs s) i (Some m)) (s_ress s) (s_next s) (h_live s).
(** include/solace/memoryManager.hpp:40-181, include/solace/memoryResource.hpp:57-118: a resource changed *)
Definition set_res (s : st) (i : nat) (r : res) : st := mkSt (s_mgrs s) (upd (s_ress s) i (Some r)) (s_next s) (h_live s).
(** include/solace/memoryManager.hpp:40-181, include/solace/memoryResource.hpp:57-118: a resource made *)
Definition add_res (s : st) (r : res) : st := mkSt (s_mgrs s) (s_ress s ++ [Some r]) (s_next s) (h_live s).

(** include/solace/memoryManager.hpp:96-98 limit *)
Definition mgr_limit (m : mgr) : N := sub64 (m_cap m) (m_size m).

(** ::free (C library): nullptr is ignored, anything but a live block is undefined. *)
(** src/memoryManager.cpp:83-94: ::free *)
Definition sys_free (s : st) (a : option nat) : outcome (st * list event) :=
  match a with
  | None => Ret (s, [])
  | Some a =>
      if in_dec Nat.eq_dec a (h_live s)
      then Ret (mkSt (s_mgrs s) (s_ress s) (s_next s) (remove Nat.eq_dec a (h_live s)), [EvFree a])
      else UB
  end.

(** src/memoryManager.cpp:83-94: dispose and free.  [d] is the manager holding the
    disposer.  Using a manager whose lifetime has ended is undefined. *)
Definition mgr_dispose (s : st) (d : nat) (r : res) : outcome (st * list event) :=
  match get (s_mgrs s) d with
  | None => UB
  | Some md =>
      let! p := sys_free s (r_addr r) in
      let (s1, ev) := p in
      match get (s_mgrs s) (m_self md) with
      | None => UB
      | Some m =>
          Ret (set_mgr s1 (m_self md) (mkMgr (m_cap m) (sub64 (m_size m) (r_len r)) (m_locked m) (m_self m)), ev)
      end
  end.

(** src/memoryManager.cpp:97-115 allocate; [sys] is whether malloc returns memory. *)
Definition mgr_allocate (s : st) (i : nat) (m : mgr) (n : N) (sys : bool) : st * list event * answer :=
  if mgr_limit m <? n then (s, [], Refused E_NOMEM)
  else if m_locked m then (s, [], Refused E_PERM)
  else if andb (negb sys) (negb (n =? 0)) then (s, [], Refused E_NOMEM)
  else
    let s1 := set_mgr s i (mkMgr (m_cap m) (u64 (m_size m + n)) (m_locked m) (m_self m)) in
    if sys
    then (mkSt (s_mgrs s1) (s_ress s1 ++ [Some (mkRes (Some (s_next s)) n (Some i))]) (S (s_next s)) (s_next s :: h_live s),
          [EvMalloc i (s_next s) n], Done)
    else (add_res s1 (mkRes None n (Some i)), [], Done).

Inductive op :=
| NewManager (cap : N)          (** MemoryManager{cap} *)
| Allocate (m : nat) (n : N) (sys : bool)
| Lock (m : nat) | Unlock (m : nat)
| SwapManagers (a b : nat)      (** swap and move assignment *)
| MoveManager (m : nat)         (** MemoryManager{mv(m)} *)
| DropManager (m : nat)
| NewResource                   (** MemoryResource{} *)
| ViewResource (r : nat)        (** MemoryResource{r.view()}: no disposer *)
| MoveResource (r : nat)        (** MemoryResource{mv(r)} *)
| SwapResources (a b : nat)     (** swap and move assignment *)
| DropResource (r : nat).

(** One operation of the program.  An operation on an object that does not exist (any
    more) cannot be written and is skipped.  [sysmem] is the amount of memory of the
    machine. *)
(** src/memoryManager.cpp:31-138, include/solace/memoryResource.hpp:57-118; lines per case below *)
Definition step (sysmem : N) (s : st) (o : op) : outcome (st * list event * answer) :=
  match o with
  | NewManager cap =>
      (* src/memoryManager.cpp:31-39 *)
      if cap <? sysmem
      then Ret (mkSt (s_mgrs s ++ [Some (mkMgr cap 0 false (length (s_mgrs s)))]) (s_ress s) (s_next s) (h_live s), [], Done)
      else Ret (s, [], Raised)
  | Allocate i n sys =>
      match get (s_mgrs s) i with
      | None => Ret (s, [], Done)
      | Some m => Ret (mgr_allocate s i m n sys)
      end
  | Lock i =>
      (* src/memoryManager.cpp:118-120 *)
      match get (s_mgrs s) i with
      | None => Ret (s, [], Done)
      | Some m => Ret (set_mgr s i (mkMgr (m_cap m) (m_size m) true (m_self m)), [], Done)
      end
  | Unlock i =>
      (* src/memoryManager.cpp:127-129 *)
      match get (s_mgrs s) i with
      | None => Ret (s, [], Done)
      | Some m => Ret (set_mgr s i (mkMgr (m_cap m) (m_size m) false (m_self m)), [], Done)
      end
  | SwapManagers a b =>
      (* src/memoryManager.cpp:42-50 and include/solace/memoryManager.hpp:65-67: the
         disposers are not swapped *)
      match get (s_mgrs s) a, get (s_mgrs s) b with
      | Some x, Some y =>
          Ret (set_mgr (set_mgr s a (mkMgr (m_cap y) (m_size y) (m_locked y) (m_self x)))
                       b (mkMgr (m_cap x) (m_size x) (m_locked x) (m_self y)), [], Done)
      | _, _ => Ret (s, [], Done)
      end
  | MoveManager a =>
      (* include/solace/memoryManager.hpp:64: defaulted, copies every member *)
      match get (s_mgrs s) a with
      | None => Ret (s, [], Done)
      | Some m => Ret (mkSt (s_mgrs s ++ [Some m]) (s_ress s) (s_next s) (h_live s), [], Done)
      end
  | DropManager a =>
      (* include/solace/memoryManager.hpp:53 *)
      Ret (mkSt (upd (s_mgrs s) a None) (s_ress s) (s_next s) (h_live s), [], Done)
  | NewResource =>
      (* include/solace/memoryResource.hpp:68 *)
      Ret (add_res s (mkRes None 0 None), [], Done)
  | ViewResource a =>
      (* include/solace/memoryResource.hpp:85-88 with no disposer *)
      match get (s_ress s) a with
      | None => Ret (s, [], Done)
      | Some r => Ret (add_res s (mkRes (r_addr r) (r_len r) None), [], Done)
      end
  | MoveResource a =>
      (* include/solace/memoryResource.hpp:70-74; the source's view becomes empty
         (include/solace/memoryView.hpp:109-113) *)
      match get (s_ress s) a with
      | None => Ret (s, [], Done)
      | Some r => Ret (add_res (set_res s a (mkRes None 0 None)) r, [], Done)
      end
  | SwapResources a b =>
      (* include/solace/memoryResource.hpp:76-78 and 90-96 *)
      match get (s_ress s) a, get (s_ress s) b with
      | Some x, Some y => Ret (set_res (set_res s a y) b x, [], Done)
      | _, _ => Ret (s, [], Done)
      end
  | DropResource a =>
      (* include/solace/memoryResource.hpp:57-61 *)
      match get (s_ress s) a with
      | None => Ret (s, [], Done)
      | Some r =>
          let s1 := mkSt (s_mgrs s) (upd (s_ress s) a None) (s_next s) (h_live s) in
          match r_disp r with
          | None => Ret (s1, [], Done)
          | Some d => let! p := mgr_dispose s1 d r in Ret (p, Done)
          end
      end
  end.

(** A history: the final state and everything the allocator saw, oldest first. *)
(** src/memoryManager.cpp:31-138: a sequence of operations *)
Fixpoint run (sysmem : N) (s : st) (ops : list op) : outcome (st * list event) :=
  match ops with
  | [] => Ret (s, [])
  | o :: ops' =>
      let! p := step sysmem s o in
      let '(s1, ev, _) := p in
      let! q := run sysmem s1 ops' in
      Ret (fst q, ev ++ snd q)
  end.
