(** Paths and their iterators.  An iterator keeps the address of the components and their number; the
    components belong to a Path object and move with its buffer.  Memory is a collection of live Strings,
    each at its own place; which places a new buffer gets is up to the allocator, which may use a place
    again as soon as the String there has been destroyed. *)
From Verif Require Import Base.

(** include/solace/path.hpp:58-60, 381: the Strings that are alive, with their places (in units of a
    String; the bytes of one are not looked at here) *)
Definition strings := list (N * list N).
(** include/solace/arrayView.hpp:166-170, include/solace/string.hpp:328-330: the String at a place *)
Fixpoint slot (mem : strings) (p : N) : option (list N) :=
  match mem with
  | [] => None
  | (q, t) :: rest => if q =? p then Some t else slot rest p
  end.
(** include/solace/vector.hpp:211-228: Strings constructed one after the other *)
Fixpoint construct (mem : strings) (p : N) (comps : list (list N)) : strings :=
  match comps with
  | [] => mem
  | c :: rest => (p, c) :: construct mem (p + 1) rest
  end.
(** include/solace/array.hpp:64, 288-293: the destructor of Array destroys its elements; destroying what is
    not alive is undefined *)
Fixpoint destroy (mem : strings) (p : N) (n : nat) : outcome strings :=
  match n with
  | O => Ret mem
  | S n' =>
      match slot mem p with
      | None => UB
      | Some _ => destroy (filter (fun e => negb (fst e =? p)) mem) (p + 1) n'
      end
  end.
(** include/solace/path.hpp:343-351 with a callback that takes every component; a String that was moved
    from is empty (include/solace/string.hpp:55-60) *)
Fixpoint take_all (mem : strings) (p : N) (n : nat) : outcome (strings * list (list N)) :=
  match n with
  | O => Ret (mem, [])
  | S n' =>
      match slot mem p with
      | None => UB
      | Some t =>
          let! r := take_all ((p, []) :: mem) (p + 1) n' in
          Ret (fst r, t :: snd r)
      end
  end.
(** include/solace/path.hpp:333-341: every component is shown to the callback *)
Fixpoint walk (mem : strings) (p : N) (n : nat) : outcome (list (list N)) :=
  match n with
  | O => Ret []
  | S n' =>
      match slot mem p with
      | None => UB
      | Some t => let! r := walk mem (p + 1) n' in Ret (t :: r)
      end
  end.

(** include/solace/path.hpp:381, include/solace/array.hpp:298-301: a Path object, the place of its
    components and their number *)
Record pobj := mkPObj { po_at : option N; po_n : N }.
(** include/solace/path.hpp:104-106: an Iterator *)
Record pit := mkPit { it_index : N; it_at : option N; it_n : N }.
(** include/solace/path.hpp:132-145: memory, the Path objects a program has made ([None] when
    destroyed) and the iterators *)
Record pworld := mkPWorld { pw_mem : strings; pw_paths : list (option pobj); pw_iters : list pit }.

(** What a program does.
    include/solace/path.hpp:62-106, 132-163, 298-351 *)
Inductive pop :=
| PMake (comps : list (list N)) | PNull | PMove (a : nat) | PSwap (a b : nat) | PMoveAssign (a b : nat) | PDrop (a : nat)
| PTake (a : nat) | PWalk (a : nat) | PCount (a : nat) | PComponent (a : nat) (i : N)
| IBegin (a : nat) | IEnd (a : nat) | ICopy (i : nat) | IAssign (i j : nat) | IMoveAssign (i j : nat)
| INext (i : nat) | IDeref (i : nat) | IEq (i j : nat) | INe (i j : nat) | IIndex (i : nat).
(** include/solace/path.hpp:62-106, 298-351: what it sees; [QNoObject] for an object that does not exist *)
Inductive pans := QDone | QNoObject | QText (t : list N) | QTexts (l : list (list N)) | QNum (n : N) | QBool (b : bool) | QThrew (e : exn).

(** include/solace/path.hpp:147-160: an object gets a new value *)
Fixpoint change_at {A} (l : list A) (k : nat) (x : A) : list A :=
  match l, k with
  | [], _ => []
  | _ :: t, O => x :: t
  | y :: t, S k' => y :: change_at t k' x
  end.

(** include/solace/path.hpp:132-351: the object [a], if it is alive *)
Definition with_path (w : pworld) (a : nat) (f : pobj -> outcome (pworld * pans)) : outcome (pworld * pans) :=
  match nth_error (pw_paths w) a with Some (Some o) => f o | _ => Ret (w, QNoObject) end.
(** include/solace/path.hpp:62-106: the iterator [i] *)
Definition with_iter (w : pworld) (i : nat) (f : pit -> outcome (pworld * pans)) : outcome (pworld * pans) :=
  match nth_error (pw_iters w) i with Some it => f it | None => Ret (w, QNoObject) end.
(** include/solace/arrayView.hpp:166-170 through src/path.cpp:106-109, 316-318: checked access *)
Definition comp_at (mem : strings) (at_ : option N) (n i : N) : outcome pans :=
  if n <=? i then Ret (QThrew IndexOutOfRange) else
  match at_ with
  | None => UB
  | Some p => match slot mem (p + i) with Some t => Ret (QText t) | None => UB end
  end.

(** include/solace/array.hpp:288-293: no components, no work *)
Definition on_buffer {A} (o : pobj) (none : A) (f : N -> nat -> outcome A) : outcome A :=
  match po_at o with None => Ret none | Some p => f p (N.to_nat (po_n o)) end.

(** One operation.  [alloc mem n] is the place the allocator finds for [n] Strings.
    include/solace/path.hpp:62-106, 138-160, 298-351, include/solace/array.hpp:72-95, src/path.cpp:98-109 *)
Definition pstep (alloc : strings -> N -> N) (w : pworld) (o : pop) : outcome (pworld * pans) :=
  let 'mkPWorld mem ps its := w in
  match o with
  | PMake comps =>
      let p := alloc mem (size comps) in
      Ret (mkPWorld (construct mem p comps) (ps ++ [Some (mkPObj (Some p) (size comps))]) its, QDone)
  | PNull => Ret (mkPWorld mem (ps ++ [Some (mkPObj None 0)]) its, QDone)
  | PMove a => with_path w a (fun o => Ret (mkPWorld mem (change_at ps a (Some (mkPObj None 0)) ++ [Some o]) its, QDone))
  | PSwap a b | PMoveAssign a b =>
      with_path w a (fun x => with_path w b (fun y => Ret (mkPWorld mem (change_at (change_at ps a (Some y)) b (Some x)) its, QDone)))
  | PDrop a => with_path w a (fun o =>
      let! mem' := on_buffer o mem (destroy mem) in Ret (mkPWorld mem' (change_at ps a None) its, QDone))
  | PTake a => with_path w a (fun o =>
      let! r := on_buffer o (mem, []) (take_all mem) in Ret (mkPWorld (fst r) ps its, QTexts (snd r)))
  | PWalk a => with_path w a (fun o => let! l := on_buffer o [] (walk mem) in Ret (w, QTexts l))
  | PCount a => with_path w a (fun o => Ret (w, QNum (po_n o)))
  | PComponent a i => with_path w a (fun o => let! x := comp_at mem (po_at o) (po_n o) i in Ret (w, x))
  | IBegin a => with_path w a (fun o => Ret (mkPWorld mem ps (its ++ [mkPit 0 (po_at o) (po_n o)]), QDone))
  | IEnd a => with_path w a (fun o => Ret (mkPWorld mem ps (its ++ [mkPit (po_n o) (po_at o) (po_n o)]), QDone))
  | ICopy i => with_iter w i (fun x => Ret (mkPWorld mem ps (its ++ [x]), QDone))
  | IAssign i j => with_iter w i (fun _ => with_iter w j (fun y => Ret (mkPWorld mem ps (change_at its i y), QDone)))
  | IMoveAssign i j =>
      with_iter w i (fun x => with_iter w j (fun y => Ret (mkPWorld mem ps (change_at (change_at its i y) j x), QDone)))
  | INext i => with_iter w i (fun x => Ret (mkPWorld mem ps (change_at its i (mkPit (u64 (it_index x + 1)) (it_at x) (it_n x))), QDone))
  | IDeref i => with_iter w i (fun x => let! r := comp_at mem (it_at x) (it_n x) (it_index x) in Ret (w, r))
  | IEq i j => with_iter w i (fun x => with_iter w j (fun y => Ret (w, QBool (it_index x =? it_index y))))
  | INe i j => with_iter w i (fun x => with_iter w j (fun y => Ret (w, QBool (negb (it_index x =? it_index y)))))
  | IIndex i => with_iter w i (fun x => Ret (w, QNum (it_index x)))
  end.

(** include/solace/path.hpp:56-381: a whole program, and its answers *)
Fixpoint prun (alloc : strings -> N -> N) (w : pworld) (ops : list pop) : outcome (list pans) :=
  match ops with
  | [] => Ret []
  | o :: rest => let! r := pstep alloc w o in let! l := prun alloc (fst r) rest in Ret (snd r :: l)
  end.
(** include/solace/path.hpp:56-381: nothing has been made *)
Definition pw0 : pworld := mkPWorld [] [] [].
