(** Model of ByteReader, ByteWriter and MemoryResource objects that share memory
    (include/solace/byteReader.hpp, byteWriter.hpp, memoryResource.hpp).

    The variables of a program are named by numbers; blocks of the heap by the order of their
    allocation.  What a reader or writer does with its bytes is [r_step] and [w_step] of
    ByteIOModel.v; here they act on the part of the heap the object's storage points to.
    Simplifications: malloc(0) returns a block of its own (as glibc does); the limit of the
    memory manager and the failure of malloc are one flag; reading or writing through storage
    whose block was given back is undefined even where the operation would be refused. *)
From Verif Require Import Base MemoryModel MemViewModel ByteIOModel.

(** memoryResource.hpp:117-118: the view (block, offset in it, size; [None]: nullptr) and
    whether there is a disposer. *)
Record bres := mkBRes { br_block : option nat; br_off : N; br_len : N; br_own : bool }.
(** byteReader.hpp:260-263, byteWriter.hpp:262-265 *)
Inductive bobj := OMem (r : bres) | OReader (pos lim : N) (r : bres) | OWriter (pos lim : N) (r : bres).
Definition res_of (o : bobj) : bres := match o with OMem r | OReader _ _ r | OWriter _ _ r => r end.
(** Blocks of the heap ([None]: given back) and variables. *)
(** include/solace/byteReader.hpp:47-122, include/solace/byteWriter.hpp:45-105, include/solace/memoryResource.hpp:57-118: the objects of a program *)
Record bworld := mkBW { bw_heap : list (option (list N)); bw_objs : nat -> option bobj }.
(** include/solace/byteReader.hpp:47-122, include/solace/byteWriter.hpp:45-105, include/solace/memoryResource.hpp:57-118: a variable assigned *)
Definition bset {A} (f : nat -> A) (i : nat) (x : A) : nat -> A := fun k => if Nat.eqb k i then x else f k.
(** include/solace/byteReader.hpp:47-122, include/solace/byteWriter.hpp:45-105, include/solace/memoryResource.hpp:57-118: a variable assigned *)
Definition put_obj (w : bworld) (i : nat) (o : option bobj) : bworld := mkBW (bw_heap w) (bset (bw_objs w) i o).

(** memoryResource.hpp:68; what a moved resource is left as: 70-74 with memoryView.hpp:109-113 *)
Definition bres_null : bres := mkBRes None 0 0 false.
(** The bytes of a resource; an empty one has none. *)
(** include/solace/byteReader.hpp:47-122, include/solace/byteWriter.hpp:45-105, include/solace/memoryResource.hpp:57-118: the bytes of the storage *)
Definition bres_bytes (w : bworld) (r : bres) : outcome (list N) :=
  if br_len r =? 0 then Ret [] else
  match br_block r with
  | None => UB
  | Some a => match get (bw_heap w) a with
              | Some bs => if br_off r + br_len r <=? size bs then Ret (ntake (br_len r) (ndrop (br_off r) bs)) else UB
              | None => UB
              end
  end.
(** The heap after the bytes of a resource became [buf]. *)
(** include/solace/byteReader.hpp:47-122, include/solace/byteWriter.hpp:45-105, include/solace/memoryResource.hpp:57-118: the bytes of the storage changed *)
Definition bres_store (w : bworld) (r : bres) (buf : list N) : bworld :=
  match br_block r with
  | Some a => match get (bw_heap w) a with
              | Some bs => mkBW (upd (bw_heap w) a (Some (overwrite bs (br_off r) buf))) (bw_objs w)
              | None => w
              end
  | None => w
  end.
(** memoryResource.hpp:57-61 the destructor: freeing what is not a living block, or not a whole
    one, is undefined. *)
Definition bres_drop (w : bworld) (r : bres) : outcome bworld :=
  if br_own r then
    match br_block r with
    | None => Ret w
    | Some a => match get (bw_heap w) a with
                | Some bs => if (br_off r =? 0) then Ret (mkBW (upd (bw_heap w) a None) (bw_objs w)) else UB
                | None => UB
                end
    end
  else Ret w.
(** A view of part of a resource: [v] is relative to the resource; it has no disposer. *)
(** include/solace/byteReader.hpp:47-122, include/solace/byteWriter.hpp:45-105, include/solace/memoryResource.hpp:57-118: a part of the storage *)
Definition bres_sub (r : bres) (v : view) : bres :=
  mkBRes (br_block r) (br_off r + match v_addr v with Some k => k | None => 0 end) (v_size v) false.
(** Bytes standing for the storage where only its size is looked at. *)
(** include/solace/byteReader.hpp:47-122, include/solace/byteWriter.hpp:45-105, include/solace/memoryResource.hpp:57-118: fresh memory *)
Definition blank (r : bres) : list N := repeat 0 (N.to_nat (br_len r)).

(** byteReader.hpp:71-95, byteWriter.hpp:60-77: the constructors *)
Definition new_reader (r : bres) : bobj := OReader 0 (br_len r) r.
Definition new_writer (r : bres) : bobj := OWriter 0 (br_len r) r.
(** byteReader.hpp:73, byteWriter.hpp:62: {buffer.view(), nullptr} *)
Definition borrowed (r : bres) : bres := mkBRes (br_block r) (br_off r) (br_len r) false.
(** byteReader.hpp:58-62, byteWriter.hpp:54-58, memoryResource.hpp:70-74: what is left in the source *)
Definition moved_from (o : bobj) : bobj :=
  match o with OMem _ => OMem bres_null | OReader _ _ _ => OReader 0 0 bres_null | OWriter _ _ _ => OWriter 0 0 bres_null end.
Definition same_kind (a b : bobj) : bool :=
  match a, b with OMem _, OMem _ | OReader _ _ _, OReader _ _ _ | OWriter _ _ _, OWriter _ _ _ => true | _, _ => false end.

(** Operations that look at or change the bytes of the storage. *)
(** include/solace/byteReader.hpp:47-122, include/solace/byteWriter.hpp:45-105, include/solace/memoryResource.hpp:57-118: a reader on its storage *)
Definition rop_data (op : rop) : bool :=
  match op with RLimit _ | RPosition _ | RAdvance _ | RRewind => false | _ => true end.
(** include/solace/byteReader.hpp:47-122, include/solace/byteWriter.hpp:45-105, include/solace/memoryResource.hpp:57-118: a writer on its storage *)
Definition wop_data (op : wop) : bool :=
  match op with WWrite _ | WWriteInt _ _ _ | WWriteRaw _ _ => true | _ => false end.

(** include/solace/byteReader.hpp:47-122, include/solace/byteWriter.hpp:45-105, include/solace/memoryResource.hpp:57-118: the operations *)
Inductive bop :=
| BAlloc (i : nat) (init : list N) (ok : bool)  (** x_i from allocate(n): n bytes of whatever was there *)
| BNewMem (i : nat) | BNewReader (i : nat) | BNewWriter (i : nat)   (** default constructed *)
| BOwn (i j : nat) (wr : bool)                  (** ByteWriter / ByteReader x_i{mv(memory x_j)} *)
| BBorrow (i j : nat) (wr : bool)               (** ByteWriter / ByteReader x_i{memory x_j} *)
| BSlice (i j : nat) (from to : N) (wr : bool)  (** x_i{(memory x_j).view().slice(from, to)} *)
| BWritten (i j : nat)                          (** ByteReader x_i{(writer x_j).viewWritten()} *)
| BRest (i j : nat)                             (** ByteReader x_i{(reader or writer x_j).viewRemaining()} *)
| BMove (i j : nat)                             (** x_i{mv(x_j)} *)
| BSwap (i j : nat)                             (** x_i.swap(x_j), x_i = mv(x_j) *)
| BTake (i j : nat)                             (** memory x_i from (writer x_j).moveResource() *)
| BDrop (i : nat)                               (** x_i is destroyed *)
| BRead (i : nat) (op : rop)                    (** an operation of reader x_i *)
| BWrite (i : nat) (op : wop)                   (** an operation of writer x_i *)
| BLook (i : nat).                              (** the bytes of memory x_i *)
(** include/solace/byteReader.hpp:47-122, include/solace/byteWriter.hpp:45-105, include/solace/memoryResource.hpp:57-118: the answers *)
Inductive bans := BDone | BRefused (e : N) | BGot (r : result rout) | BPut (r : result unit) | BBytes (bs : list N).

(** One operation.  Using a variable that does not exist, or one of another type, is undefined. *)
(** include/solace/byteReader.hpp:47-122, include/solace/byteWriter.hpp:45-105, include/solace/memoryResource.hpp:57-118: one operation; lines per case below *)
Definition b_step (host_be : bool) (o : bop) (w : bworld) : outcome (bans * bworld) :=
  let fresh i (x : bobj) := match bw_objs w i with Some _ => UB | None => Ret (BDone, put_obj w i (Some x)) end in
  match o with
  | BAlloc i init ok =>
      match bw_objs w i with
      | Some _ => UB
      | None =>
          if ok then Ret (BDone, mkBW (bw_heap w ++ [Some init])
                                      (bset (bw_objs w) i (Some (OMem (mkBRes (Some (length (bw_heap w))) 0 (size init) true)))))
          else Ret (BRefused E_NOMEM, w)
      end
  | BNewMem i => fresh i (OMem bres_null)
  | BNewReader i => fresh i (OReader 0 0 bres_null)
  | BNewWriter i => fresh i (OWriter 0 0 bres_null)
  | BOwn i j wr =>
      (* byteReader.hpp:81-85, byteWriter.hpp:65-68: the limit is taken before the move *)
      match bw_objs w i, bw_objs w j with
      | None, Some (OMem r) =>
          Ret (BDone, put_obj (put_obj w j (Some (OMem bres_null))) i (Some (if wr then new_writer r else new_reader r)))
      | _, _ => UB
      end
  | BBorrow i j wr =>
      match bw_objs w j with
      | Some (OMem r) => fresh i (if wr then new_writer (borrowed r) else new_reader (borrowed r))
      | _ => UB
      end
  | BSlice i j from to wr =>
      match bw_objs w j with
      | Some (OMem r) =>
          let r' := bres_sub r (mview_slice (mkView (Some 0) (br_len r)) from to) in
          fresh i (if wr then new_writer r' else new_reader r')
      | _ => UB
      end
  | BWritten i j =>
      match bw_objs w j with
      | Some (OWriter pos lim r) => fresh i (new_reader (bres_sub r (w_viewWritten (mkWriter pos lim (blank r)))))
      | _ => UB
      end
  | BRest i j =>
      match bw_objs w j with
      | Some (OWriter pos lim r) => fresh i (new_reader (bres_sub r (w_viewRemaining (mkWriter pos lim (blank r)))))
      | Some (OReader pos lim r) => fresh i (new_reader (bres_sub r (r_viewRemaining (mkReader pos lim (blank r)))))
      | _ => UB
      end
  | BMove i j =>
      match bw_objs w i, bw_objs w j with
      | None, Some x => Ret (BDone, put_obj (put_obj w j (Some (moved_from x))) i (Some x))
      | _, _ => UB
      end
  | BSwap i j =>
      (* byteReader.hpp:98-111, byteWriter.hpp:80-92, memoryResource.hpp:76-96 *)
      match bw_objs w i, bw_objs w j with
      | Some x, Some y => if same_kind x y then Ret (BDone, put_obj (put_obj w i (Some y)) j (Some x)) else UB
      | _, _ => UB
      end
  | BTake i j =>
      (* byteWriter.hpp:100-105 *)
      match bw_objs w i, bw_objs w j with
      | None, Some (OWriter pos lim r) => Ret (BDone, put_obj (put_obj w j (Some (OWriter 0 0 bres_null))) i (Some (OMem r)))
      | _, _ => UB
      end
  | BDrop i =>
      match bw_objs w i with
      | Some x => let! w' := bres_drop w (res_of x) in Ret (BDone, put_obj w' i None)
      | None => UB
      end
  | BRead i op =>
      match bw_objs w i with
      | Some (OReader pos lim r) =>
          let! buf := if rop_data op then bres_bytes w r else Ret (blank r) in
          let! p := r_step host_be (mkReader pos lim buf) op in
          Ret (BGot (fst p), put_obj w i (Some (OReader (r_pos (snd p)) (r_lim (snd p)) r)))
      | _ => UB
      end
  | BWrite i op =>
      match bw_objs w i with
      | Some (OWriter pos lim r) =>
          let! buf := if wop_data op then bres_bytes w r else Ret (blank r) in
          let! p := w_step host_be (mkWriter pos lim buf) op in
          let w' := if wop_data op then bres_store w r (w_buf (snd p)) else w in
          Ret (BPut (fst p), put_obj w' i (Some (OWriter (w_pos (snd p)) (w_lim (snd p)) r)))
      | _ => UB
      end
  | BLook i =>
      match bw_objs w i with
      | Some (OMem r) => let! bs := bres_bytes w r in Ret (BBytes bs, w)
      | _ => UB
      end
  end.
Fixpoint b_run (host_be : bool) (os : list bop) (w : bworld) : outcome (list bans * bworld) :=
  match os with
  | [] => Ret ([], w)
  | o :: t => let! p := b_step host_be o w in let! q := b_run host_be t (snd p) in Ret (fst p :: fst q, snd q)
  end.
Definition b_start : bworld := mkBW [] (fun _ => None).
