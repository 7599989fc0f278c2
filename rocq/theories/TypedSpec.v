(** What a user relies on when many views of elements look at the same memory. *)
From Verif Require Import Base MemViewModel MemViewSpec TypedModel.
From Verif Require ViewsSpec.

(** [mem] with the bytes [bs] put at position [p]. *)
Notation put_at := ViewsSpec.put_at.

(** Where variable [i] starts, how many bytes it covers, and these bytes. *)
Definition t_window (w : tworld) (i : nat) : option (option N * N) :=
  match tw_vars w i with Some (_, v) => Some (v_addr v, v_size v) | None => None end.
Definition t_shown (w : tworld) (i : nat) : list N :=
  match tw_vars w i with Some (_, v) => contents (tw_mem w) v | None => [] end.
Definition t_first (w : tworld) (i : nat) : N :=
  match tw_vars w i with Some (_, v) => match v_addr v with Some a => a | None => 0 end | None => 0 end.
Definition t_kind (w : tworld) (i : nat) : option tkind := option_map fst (tw_vars w i).
Definition t_width (w : tworld) (i : nat) : N := match t_kind w i with Some k => t_sz k | None => 1 end.

(** The bytes cut into pieces of [sz], an incomplete last piece left out. *)
Fixpoint pieces (fuel : nat) (sz : nat) (bs : list N) : list (list N) :=
  match fuel with
  | O => []
  | S fuel' => if (sz <=? length bs)%nat then firstn sz bs :: pieces fuel' sz (skipn sz bs) else []
  end.
(** The elements variable [i] shows. *)
Definition elems (w : tworld) (i : nat) : list (list N) :=
  pieces (length (t_shown w i)) (N.to_nat (t_width w i)) (t_shown w i).

Definition t_new (w : tworld) (i : nat) : Prop := tw_vars w i = None.
(** The types of C++: the size is a multiple of the alignment, a power of two. *)
Definition t_good (k : tkind) : Prop := 0 < t_sz k < 2 ^ 64 /\ t_sz k mod t_al k = 0 /\ exists e, e < 64 /\ t_al k = 2 ^ e.
Definition t_mutable (w : tworld) (i : nat) : Prop := exists k, t_kind w i = Some k /\ t_const k = false.
(** Variable [i] has [sz]-byte elements. *)
Definition t_value (w : tworld) (i : nat) (bs : list N) : Prop := N.of_nat (length bs) = t_width w i.
(** [j] can be used where the type of [i] is wanted: the same, or with const added. *)
Definition t_usable (w : tworld) (i j : nat) : Prop :=
  exists k kj, t_kind w i = Some k /\ t_kind w j = Some kj /\ (kj = k \/ k = mkT (t_sz kj) (t_al kj) true).

(** The operation compiles. *)
Definition t_typed (w : tworld) (o : top) : Prop :=
  match o with
  | TNew i k | TWrap i k _ _ | TRange i k _ _ | TBytes i k _ _ => t_new w i /\ t_good k
  | TCopy i j | TConst i j | TMove i j | TSlice i j _ _ _ => t_new w i /\ ~ t_new w j
  | TAssign i j | TMoveAssign i j | TEquals i j => t_usable w i j
  | TSwap i j => ~ t_new w i /\ t_kind w i = t_kind w j
  | TSet i _ f => t_mutable w i /\ match f with Some bs => t_value w i bs | None => True end
  | TEmplace i _ bs | TFill i bs => t_mutable w i /\ t_value w i bs
  | TEmplaceAll i l => t_mutable w i /\ Forall (fun f => match f with Some bs => t_value w i bs | None => True end) l
  | TFillWith i f => t_mutable w i /\ forall n, t_value w i (f n)
  | TForEach i f => t_mutable w i /\ forall bs, t_value w i bs -> t_value w i (f bs)
  | TIndexOf i bs | TContains i bs => ~ t_new w i /\ t_value w i bs
  | TView i | TAt i _ | TIsNull i | TSize i | TEmpty i | TBool i => ~ t_new w i
  end.

(** The caller's side of the contract: pointers and counts designate aligned memory of the
    program. *)
Definition t_honest (w : tworld) (o : top) : Prop :=
  let mine k a n := a mod t_al k = 0 /\ a + n <= N.of_nat (length (tw_mem w)) in
  match o with
  | TWrap _ k (Some a) n => mine k a (t_sz k * n)
  | TRange _ k (Some a) (Some b) => exists n, b = a + t_sz k * n /\ mine k a (t_sz k * n)
  | TRange _ _ None None => True
  | TRange _ _ _ _ => False
  | TBytes _ k (Some a) n => mine k a n
  | _ => True
  end.
(** A use the code does not check: more values than the view has elements. *)
Definition t_bounded (w : tworld) (o : top) : Prop :=
  match o with TEmplaceAll i l => (length l <= length (elems w i))%nat | _ => True end.

(** [P] holds of every operation of the program in the state in which it is executed. *)
Fixpoint t_along (P : tworld -> top -> Prop) (os : list top) (w : tworld) : Prop :=
  match os with
  | [] => True
  | o :: t => P w o /\ forall a w', t_step o w = Ret (a, w') -> t_along P t w'
  end.
Definition t_fair (w : tworld) (o : top) : Prop := t_typed w o /\ t_honest w o /\ t_bounded w o.
(** The states such programs get into, on a memory that fits the address space. *)
Definition t_reachable (w : tworld) : Prop :=
  exists mem os xs, N.of_nat (length mem) < 2 ^ 64 /\
    t_along t_fair os (t_start mem) /\ t_run os (t_start mem) = Ret (xs, w).

(** The address of a byte inside one of the ranges a program was given, for writing when [wr]. *)
Definition t_given (wr : bool) (os : list top) (x : N) : Prop :=
  exists i k a, (wr = true -> t_const k = false) /\
    ((exists n, In (TWrap i k (Some a) n) os /\ a <= x < a + t_sz k * n) \/
     (exists b, In (TRange i k (Some a) (Some b)) os /\ a <= x < b) \/
     (exists n, In (TBytes i k (Some a) n) os /\ a <= x < a + n)).

(** The values constructed before one throws. *)
Fixpoint t_made (l : list (option (list N))) : list (list N) :=
  match l with Some bs :: l' => bs :: t_made l' | _ => [] end.
(** The bytes an operation puts, and where. *)
Definition t_puts (w : tworld) (o : top) : N * list N :=
  match o with
  | TSet i n (Some bs) | TEmplace i n bs =>
      if n <? N.of_nat (length (elems w i)) then (t_first w i + n * t_width w i, bs) else (0, [])
  | TEmplaceAll i l => (t_first w i, concat (t_made l))
  | TFill i bs => (t_first w i, concat (repeat bs (length (elems w i))))
  | TFillWith i f => (t_first w i, concat (map (fun n => f (N.of_nat n)) (seq 0 (length (elems w i)))))
  | TForEach i f => (t_first w i, concat (map f (elems w i)))
  | _ => (0, [])
  end.
(** What an operation answers. *)
Definition t_says (w : tworld) (o : top) (a : tans) : Prop :=
  match o with
  | TView i => t_window w i = Some match a with TWhere p n => (p, n) | _ => (None, 1) end
  | TAt i n => a = match nth_error (elems w i) (N.to_nat n) with Some bs => TElem bs | None => TRaised IndexOutOfRange end
  | TSet i n f =>
      a = if n <? N.of_nat (length (elems w i)) then match f with Some _ => TDone | None => TRaised UserException end
          else TRaised IndexOutOfRange
  | TEmplace i n _ => a = if n <? N.of_nat (length (elems w i)) then TDone else TRaised IndexOutOfRange
  | TEmplaceAll i l => (a = TDone /\ ~ In None l) \/ (a = TRaised UserException /\ In None l)
  | TFill _ _ | TFillWith _ _ | TForEach _ _ => a = TDone
  | TIndexOf i bs =>
      (a = TIndex None /\ ~ In bs (elems w i)) \/
      exists l r, a = TIndex (Some (N.of_nat (length l))) /\ elems w i = l ++ bs :: r /\ ~ In bs l
  | TContains i bs => exists b, a = TFlag b /\ (b = true <-> In bs (elems w i))
  | TEquals i j => exists b, a = TFlag b /\ (b = true <-> elems w i = elems w j)
  | TSize i => a = TNum (N.of_nat (length (elems w i)))
  | TEmpty i | TIsNull i => exists b, a = TFlag b /\ (b = true <-> t_shown w i = [])
  | TBool i => exists b, a = TFlag b /\ (b = true <-> exists p n, t_window w i = Some (Some p, n))
  | TBytes _ _ None n => a = if n =? 0 then TDone else TRaised AssertFailed
  | TWrap _ k None n => n <> 0 -> t_sz k * n < 2 ^ 64 -> a = TRaised AssertFailed
  | TAssign _ _ | TMoveAssign _ _ | TSwap _ _ => a = TDone
  | _ => True
  end.

(** Byte offsets that 64 bits can hold. *)
Definition t_small (w : tworld) (o : top) : Prop :=
  match o with
  | TSlice _ j _ from to => from * t_width w j < 2 ^ 64 /\ to * t_width w j < 2 ^ 64
  | _ => True
  end.
(** The variable an operation makes, its type, and the elements it is to show. *)
Definition t_makes (w : tworld) (o : top) : option (nat * tkind * list (list N)) :=
  let cut k bs := pieces (length bs) (N.to_nat (t_sz k)) bs in
  let typed j (f : tkind -> tkind) := match t_kind w j with Some k => f k | None => mkT 1 1 true end in
  match o with
  | TNew i k | TRange i k None None => Some (i, k, [])
  | TWrap i k (Some a) n => Some (i, k, cut k (range a (a + t_sz k * n) (tw_mem w)))
  | TWrap i k None n => if n =? 0 then Some (i, k, []) else None
  | TRange i k (Some a) (Some b) => Some (i, k, cut k (range a b (tw_mem w)))
  | TBytes i k (Some a) n => Some (i, k, cut k (range a (a + n) (tw_mem w)))
  | TBytes i k None n => if n =? 0 then Some (i, k, []) else None
  | TCopy i j | TMove i j => Some (i, typed j (fun k => k), elems w j)
  | TConst i j => Some (i, typed j as_const, elems w j)
  | TSlice i j c from to =>
      Some (i, typed j (fun k => if c then as_const k else k),
            firstn (N.to_nat to - N.to_nat from) (skipn (N.to_nat from) (elems w j)))
  | _ => None
  end.

(** The variables an operation may give another window. *)
Definition t_touches (o : top) (k : nat) : Prop :=
  match o with
  | TNew i _ | TWrap i _ _ _ | TRange i _ _ _ | TBytes i _ _ _ | TCopy i _ | TConst i _ | TSlice i _ _ _ _ | TAssign i _ => k = i
  | TMove i j | TMoveAssign i j | TSwap i j => k = i \/ k = j
  | _ => False
  end.

(** The list [l] with its [n]-th element replaced, if it has one. *)
Fixpoint t_replace {A} (n : nat) (x : A) (l : list A) : list A :=
  match l, n with
  | [], _ => []
  | _ :: t, O => x :: t
  | y :: t, S n' => y :: t_replace n' x t
  end.
(** The elements of the variable an operation writes through, afterwards. *)
Definition t_after (w : tworld) (o : top) : option (nat * list (list N)) :=
  match o with
  | TSet i n (Some bs) | TEmplace i n bs => Some (i, t_replace (N.to_nat n) bs (elems w i))
  | TEmplaceAll i l => Some (i, t_made l ++ skipn (length (t_made l)) (elems w i))
  | TFill i bs => Some (i, repeat bs (length (elems w i)))
  | TFillWith i f => Some (i, map (fun n => f (N.of_nat n)) (seq 0 (length (elems w i))))
  | TForEach i f => Some (i, map f (elems w i))
  | _ => None
  end.
(** Variables [i] and [j] share no byte. *)
Definition t_apart (w : tworld) (i j : nat) : Prop :=
  forall a n b m x, t_window w i = Some (Some a, n) -> t_window w j = Some (Some b, m) -> ~ (a <= x < a + n /\ b <= x < b + m).
(** The variable an operation writes through. *)
Definition t_writes (o : top) (i : nat) : Prop :=
  match o with
  | TSet j _ _ | TEmplace j _ _ | TEmplaceAll j _ | TFill j _ | TFillWith j _ | TForEach j _ => j = i
  | _ => False
  end.
