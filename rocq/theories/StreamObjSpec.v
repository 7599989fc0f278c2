(** What a user relies on when readers and writers share memory. *)
From Verif Require Import Base MemoryModel ByteIOModel ByteIOSpec StreamObjModel.

(** Variable [i] exists, and destroying it gives block [a] back. *)
Definition owns (w : bworld) (i a : nat) : Prop :=
  exists o, bw_objs w i = Some o /\ br_own (res_of o) = true /\ br_block (res_of o) = Some a.
(** Block [a] was allocated and not given back. *)
Definition in_use (w : bworld) (a : nat) : Prop := exists bs, get (bw_heap w) a = Some bs.
(** The memory behind a resource is there: it has no bytes, or somebody owns its block. *)
Definition backed (w : bworld) (r : bres) : Prop :=
  br_len r = 0 \/ exists i a, br_block r = Some a /\ owns w i a.

Definition is_mem (w : bworld) (j : nat) : Prop := exists r, bw_objs w j = Some (OMem r).
Definition is_reader (w : bworld) (j : nat) : Prop := exists p l r, bw_objs w j = Some (OReader p l r).
Definition is_writer (w : bworld) (j : nat) : Prop := exists p l r, bw_objs w j = Some (OWriter p l r).
Definition unused (w : bworld) (i : nat) : Prop := bw_objs w i = None.
(** The operation names variables that exist and are of the right type, and new ones that do not. *)
Definition well_typed (w : bworld) (o : bop) : Prop :=
  match o with
  | BAlloc i _ _ | BNewMem i | BNewReader i | BNewWriter i => unused w i
  | BOwn i j _ | BBorrow i j _ | BSlice i j _ _ _ => unused w i /\ is_mem w j
  | BWritten i j | BTake i j => unused w i /\ is_writer w j
  | BRest i j => unused w i /\ (is_writer w j \/ is_reader w j)
  | BMove i j => unused w i /\ ~ unused w j
  | BSwap i j => (is_mem w i /\ is_mem w j) \/ (is_reader w i /\ is_reader w j) \/ (is_writer w i /\ is_writer w j)
  | BDrop i => ~ unused w i
  | BRead i _ => is_reader w i
  | BWrite i _ => is_writer w i
  | BLook i => is_mem w i
  end.
(** The operation looks at bytes only where the memory is still there. *)
Definition memory_there (w : bworld) (o : bop) : Prop :=
  match o with
  | BRead i op => rop_data op = true -> forall x, bw_objs w i = Some x -> backed w (res_of x)
  | BWrite i op => wop_data op = true -> forall x, bw_objs w i = Some x -> backed w (res_of x)
  | BLook i => forall x, bw_objs w i = Some x -> backed w (res_of x)
  | _ => True
  end.

(** Allocations are of at most 2^64 - 1 bytes. *)
Definition bop_ok (o : bop) : Prop :=
  match o with BAlloc _ init _ => N.of_nat (length init) < 2 ^ 64 | _ => True end.

(** Byte [n] of block [a]. *)
Definition byte_at (w : bworld) (a : nat) (n : N) : option N :=
  match get (bw_heap w) a with Some bs => nth_error bs (N.to_nat n) | None => None end.
(** The bytes a resource shows: those of its block from its offset on. *)
Definition shown (w : bworld) (r : bres) : list N :=
  match br_block r with
  | Some a => match get (bw_heap w) a with Some bs => section bs (br_off r) (br_len r) | None => [] end
  | None => []
  end.
(** The bytes a write operation puts down. *)
Definition put_bytes (host_be : bool) (op : wop) : list N :=
  match op with
  | WWrite bs => bs
  | WWriteInt be wd v => order_bytes be (wbytes wd) v
  | WWriteRaw wd v => order_bytes host_be (wbytes wd) v
  | _ => []
  end.

(** A queue of bytes: one end writes, the other reads what was written and not yet read. *)
Inductive pop := Put (f : field) | Get (n : N) | GetInt (be : bool) (w : width).
Record queue := mkQueue { q_bytes : list N; q_room : N }.
Definition as_bytes (f : field) : list N :=
  match f with FInt be w v => order_bytes be (wbytes w) v | FBytes bs => bs end.
(** [None]: the reader asks for more than was written so far. *)
Definition q_step (q : queue) (o : pop) : option (bans * queue) :=
  match o with
  | Put f => let bs := as_bytes f in
             if q_room q <? N.of_nat (length bs) then Some (BPut (Err E_Overflow), q)
             else Some (BPut (Ok tt), mkQueue (q_bytes q ++ bs) (q_room q - N.of_nat (length bs)))
  | Get n => if N.of_nat (length (q_bytes q)) <? n then None
             else Some (BGot (Ok (OBytes (firstn (N.to_nat n) (q_bytes q)))), mkQueue (skipn (N.to_nat n) (q_bytes q)) (q_room q))
  | GetInt be w => if (length (q_bytes q) <? wbytes w)%nat then None
             else Some (BGot (Ok (OInt (order_value be (firstn (wbytes w) (q_bytes q))))), mkQueue (skipn (wbytes w) (q_bytes q)) (q_room q))
  end.
Fixpoint q_run (q : queue) (os : list pop) : option (list bans * queue) :=
  match os with
  | [] => Some ([], q)
  | o :: t => match q_step q o with
              | None => None
              | Some (x, q') => match q_run q' t with None => None | Some (xs, q'') => Some (x :: xs, q'') end
              end
  end.
(** The same on a writer [i] and a reader [j]. *)
Definition pipe_op (i j : nat) (o : pop) : bop :=
  match o with
  | Put f => BWrite i (put_field f)
  | Get n => BRead j (RRead n)
  | GetInt be w => BRead j (RReadInt be w)
  end.
Definition pop_ok (o : pop) : Prop :=
  match o with Put (FBytes bs) => N.of_nat (length bs) < 2 ^ 64 | _ => True end.

(** The states programs get into. *)
Definition reachable (host_be : bool) (w : bworld) : Prop :=
  exists os xs, Forall bop_ok os /\ b_run host_be os b_start = Ret (xs, w).
(** A reader or writer used within its contract: position <= limit <= capacity. *)
Definition within (p l : N) (r : bres) : Prop := p <= l /\ l <= br_len r.
(** Two resources showing the same memory (one of them may own it). *)
Definition same_memory (r r' : bres) : Prop := br_block r = br_block r' /\ br_off r = br_off r' /\ br_len r = br_len r'.
(** Variable [i] is a reader (or writer) at position 0 with all of [bs] before its limit. *)
Definition opened (w : bworld) (i : nat) (wr : bool) (bs : list N) : Prop :=
  exists r, bw_objs w i = Some (if wr then OWriter 0 (br_len r) r else OReader 0 (br_len r) r) /\
    shown w r = bs /\ br_len r = N.of_nat (length bs).
