(** What a user relies on when many views look at the same memory. *)
From Verif Require Import Base MemViewModel MemViewSpec ViewsModel.

(** Where variable [i] starts, how many bytes it covers, and the bytes it shows. *)
Definition window (w : vworld) (i : nat) : option (option N * N) :=
  match vw_vars w i with Some (_, v) => Some (v_addr v, v_size v) | None => None end.
Definition shown (w : vworld) (i : nat) : list N :=
  match vw_vars w i with Some (_, v) => contents (vw_mem w) v | None => [] end.
Definition start (w : vworld) (i : nat) : N :=
  match vw_vars w i with Some (_, v) => match v_addr v with Some a => a | None => 0 end | None => 0 end.
Definition null (w : vworld) (i : nat) : bool :=
  match vw_vars w i with Some (_, v) => match v_addr v with Some _ => false | None => true end | None => true end.
Definition kind_of (w : vworld) (i : nat) : option vkind := option_map fst (vw_vars w i).
Definition count (w : vworld) (i : nat) : N := N.of_nat (length (shown w i)).

Definition is_new (w : vworld) (i : nat) : Prop := vw_vars w i = None.
Definition is_text (w : vworld) (i : nat) : Prop := kind_of w i = Some Tx.
Definition is_mview (w : vworld) (i : nat) : Prop := kind_of w i = Some Rw.
Definition is_view (w : vworld) (i : nat) : Prop := kind_of w i = Some Ro \/ kind_of w i = Some Rw.
(** Variable [j] can be used where a [k] is wanted. *)
Definition usable (w : vworld) (k : vkind) (j : nat) : Prop :=
  match k with Ro => is_view w j | Rw => is_mview w j | Tx => is_text w j end.

(** The operation compiles. *)
Definition typed (w : vworld) (o : vop) : Prop :=
  match o with
  | VNew i _ | VWrap i _ _ _ | VTextC i _ => is_new w i
  | VCopy i k j | VMove i k j | VSlice i k j _ _ => is_new w i /\ usable w k j
  | VSliceFor i k j _ _ _ => is_new w i /\ usable w k j /\ k <> Tx
  | VMutable i j | VText i j => is_new w i /\ is_view w j
  | VTextView i j => is_new w i /\ is_text w j
  | VAssign i j | VMoveAssign i j => exists k, kind_of w i = Some k /\ usable w k j
  | VSwap i j | VEquals i j => (is_text w i /\ is_text w j) \/ (is_view w i /\ is_view w j)
  | VFill i _ | VFillRange i _ _ _ | VSet i _ _ | VPut i _ _ | VConstruct i _ => is_mview w i
  | VWrite i j => is_mview w i /\ is_view w j
  | VRead i j => is_mview w i /\ is_mview w j
  | VIndex i _ | VSize i | VEmpty i | VBool i => ~ is_new w i
  | VData i _ _ | VAddress i _ => is_view w i
  | VCharAt i _ => is_text w i
  end.

(** The caller's side of the contract: raw pointers and sizes designate memory of the program,
    C strings are terminated. *)
Definition honest (w : vworld) (o : vop) : Prop :=
  match o with
  | VWrap _ _ (Some a) n => a + n <= N.of_nat (length (vw_mem w))
  | VTextC _ (Some a) => exists n, (N.to_nat a <= n)%nat /\ nth_error (vw_mem w) n = Some 0
  | _ => True
  end.
(** Two uses the code does not check: an offset so large that the check wraps around, and an
    index outside a text. *)
Definition unwrapped (w : vworld) (o : vop) : Prop :=
  match o with
  | VData _ (Some off) tsz => off + tsz < 2 ^ 64
  | VPut _ (Some off) bs => off + N.of_nat (length bs) < 2 ^ 64
  | VIndex i n => is_text w i -> n < count w i
  | _ => True
  end.

(** [P] holds of every operation of the program in the state in which it is executed. *)
Fixpoint along (P : vworld -> vop -> Prop) (os : list vop) (w : vworld) : Prop :=
  match os with
  | [] => True
  | o :: t => P w o /\ forall a w', v_step o w = Ret (a, w') -> along P t w'
  end.
(** An operation that compiles and is used as it should be. *)
Definition fair (w : vworld) (o : vop) : Prop := typed w o /\ honest w o /\ unwrapped w o.
(** The states such programs get into, on a memory that fits the address space. *)
Definition reachable (w : vworld) : Prop :=
  exists mem os xs, N.of_nat (length mem) < 2 ^ 64 /\
    along fair os (v_start mem) /\ v_run os (v_start mem) = Ret (xs, w).

(** The address of a byte inside one of the ranges a program was given for writing. *)
Definition given_for_writing (os : list vop) (x : N) : Prop :=
  exists i a n, In (VWrap i Rw (Some a) n) os /\ a <= x < a + n.
(** The address of a byte inside one of the ranges a program was given at all; a C string is
    the range up to its terminator. *)
Fixpoint given (os : list vop) (w : vworld) (x : N) : Prop :=
  match os with
  | [] => False
  | o :: t =>
      match o with
      | VWrap _ _ (Some a) n => a <= x < a + n
      | VTextC _ (Some a) => a <= x /\ forall y, a <= y <= x -> nth_error (vw_mem w) (N.to_nat y) <> Some 0
      | _ => False
      end \/ exists a w', v_step o w = Ret (a, w') /\ given t w' x
  end.
(** Mutable and immutable views are not exchanged, and mutable_cast is not used. *)
Definition kinds_apart (w : vworld) (o : vop) : Prop :=
  match o with
  | VMutable _ _ => False
  | VMoveAssign i j | VSwap i j => kind_of w i = kind_of w j
  | _ => True
  end.

(** [mem] with the bytes [bs] put at position [p]. *)
Definition put_at (mem : list N) (p : N) (bs : list N) : list N :=
  firstn (N.to_nat p) mem ++ bs ++ skipn (N.to_nat p + length bs) mem.
(** The bytes an operation puts, and where. *)
Definition puts (w : vworld) (o : vop) : N * list N :=
  match o with
  | VFill i b => (start w i, repeat b (length (shown w i)))
  | VFillRange i b from to =>
      if count w i <=? from then (0, []) else
      (start w i + from, repeat b (N.to_nat (N.min to (count w i) - from)))
  | VWrite i j => if (negb (null w i) && (count w j <=? count w i))%bool then (start w i, shown w j) else (0, [])
  | VRead i j => if count w j <=? count w i then (start w j, firstn (length (shown w j)) (shown w i)) else (0, [])
  | VSet i n b => if n <? count w i then (start w i + n, [b]) else (0, [])
  | VPut i off bs =>
      let off := match off with Some o => o | None => 0 end in
      if off + N.of_nat (length bs) <=? count w i then (start w i + off, bs) else (0, [])
  | VConstruct i bs => if N.of_nat (length bs) <=? count w i then (start w i, bs) else (0, [])
  | _ => (0, [])
  end.
(** What an operation that makes no view answers. *)
Definition says (w : vworld) (o : vop) (a : vans) : Prop :=
  match o with
  | VFill _ _ | VFillRange _ _ _ _ => a = VDone
  | VWrite i j => a = if (negb (null w i) && (count w j <=? count w i))%bool then VRes (Ok tt) else VRes (Err E_DOM)
  | VRead i j => a = if count w j <=? count w i then VRes (Ok tt) else VRes (Err BasicOverflow)
  | VIndex i n | VCharAt i n =>
      a = match nth_error (shown w i) (N.to_nat n) with Some b => VByte b | None => VRaised IndexOutOfRange end
  | VSet i n _ => a = if n <? count w i then VDone else VRaised IndexOutOfRange
  | VData i off tsz =>
      let off := match off with Some o => o | None => 0 end in
      a = if off + tsz <=? count w i then VBytes (range off (off + tsz) (shown w i)) else VRaised AssertFailed
  | VPut i off bs =>
      let off := match off with Some o => o | None => 0 end in
      a = if off + N.of_nat (length bs) <=? count w i then VDone else VRaised AssertFailed
  | VConstruct i bs => a = if N.of_nat (length bs) <=? count w i then VDone else VRaised AssertFailed
  | VAddress i off =>
      a = if count w i <? off then VAt None else VAt (Some (if null w i then None else Some (start w i + off)))
  | VEquals i j => exists b, a = VFlag b /\ (b = true <-> shown w i = shown w j)
  | VSize i => a = VNum (count w i)
  | VEmpty i => exists b, a = VFlag b /\ (b = true <-> shown w i = [])
  | VBool i => exists b, a = VFlag b /\ (is_text w i -> (b = true <-> shown w i <> [])) /\ (is_view w i -> b = negb (null w i))
  | _ => True
  end.

(** A C string: the bytes before the first NUL. *)
Fixpoint before_nul (l : list N) : list N :=
  match l with [] => [] | c :: t => if c =? 0 then [] else c :: before_nul t end.
(** The variable an operation makes, and the bytes it is to show. *)
Definition makes (w : vworld) (o : vop) : option (nat * vkind * list N) :=
  match o with
  | VNew i k => Some (i, k, [])
  | VWrap i k (Some a) n => Some (i, k, range a (a + n) (vw_mem w))
  | VWrap i k None n => if n =? 0 then Some (i, k, []) else None
  | VCopy i k j | VMove i k j => Some (i, k, shown w j)
  | VMutable i j => Some (i, Rw, shown w j)
  | VSlice i k j from to => Some (i, k, range from to (shown w j))
  | VSliceFor i k j tsz off cnt => Some (i, k, range (off * tsz) ((off + cnt) * tsz) (shown w j))
  | VText i j => Some (i, Tx, shown w j)
  | VTextC i (Some a) => Some (i, Tx, before_nul (skipn (N.to_nat a) (vw_mem w)))
  | VTextC i None => Some (i, Tx, [])
  | VTextView i j => Some (i, Ro, shown w j)
  | _ => None
  end.
(** Sizes and offsets that the types of the parameters can hold: 16 bits for texts, 64 bits for
    the byte offsets sliceFor computes. *)
Definition small (w : vworld) (o : vop) : Prop :=
  match o with
  | VWrap _ Tx _ n => n < 2 ^ 16
  | VSlice _ Tx _ from to => from < 2 ^ 16 /\ to < 2 ^ 16
  | VSliceFor _ _ _ tsz off cnt => (off + cnt) * tsz < 2 ^ 64
  | VText _ j => count w j < 2 ^ 16
  | VTextC _ (Some a) => N.of_nat (length (before_nul (skipn (N.to_nat a) (vw_mem w)))) < 2 ^ 16
  | _ => True
  end.

(** The variables an operation may give another window. *)
Definition touches (o : vop) (k : nat) : Prop :=
  match o with
  | VNew i _ | VWrap i _ _ _ | VTextC i _ | VCopy i _ _ | VSlice i _ _ _ _ | VSliceFor i _ _ _ _ _
  | VMutable i _ | VText i _ | VTextView i _ | VAssign i _ => k = i
  | VMove i _ j | VMoveAssign i j | VSwap i j => k = i \/ k = j
  | _ => False
  end.
