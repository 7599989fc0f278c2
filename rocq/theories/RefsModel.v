(** Model of references to elements that a program keeps while the vectors and arrays that
    hold them change (include/solace/vector.hpp, array.hpp, memoryResource.hpp).

    Buffers are blocks of memory named by numbers; a Vector or Array holds the number of its
    block and its counter.  A reference is an address: a block and a place in it.  Arrays
    are made by toArray() only, and constructors of elements do not throw (simplifications;
    see ContainerModel.v).  The numbers of constructions, which ContainerModel.v uses for
    its log, are all 0 here. *)
From Verif Require Import Base MemViewModel MemoryModel ContainerModel AliasModel.

(** include/solace/vector.hpp:293-294, array.hpp:299-300, memoryResource.hpp:115-118: class,
    block (none for a resource without memory) and counter of an object *)
Record robj := mkRObj { ro_kind : kind; ro_block : option nat; ro_n : N }.
(** include/solace/vector.hpp:49-300: blocks handed out ([None]: given back), the objects of
    the program and the references it took ([None]: an exception was thrown instead) *)
Record rworld (A : Type) := mkRW { rw_blocks : list (option (buf A)); rw_objs : list (option robj); rw_refs : list (option (nat * nat)) }.
Arguments mkRW {A}. Arguments rw_blocks {A}. Arguments rw_objs {A}. Arguments rw_refs {A}.
(** include/solace/vector.hpp:49-300: the start of a program *)
Definition rworld0 {A} : rworld A := mkRW [] [] [].

(** include/solace/vector.hpp:67-284, array.hpp:64-154: the statements; vectors, arrays and
    references are numbered as they are made *)
Inductive rop (A : Type) :=
| RMake (bytes : N)           (* auto v = makeVector<T>(resource) *)
| RPush (i : nat) (x : A)     (* v_i.push_back(x) *)
| RPop (i : nat)              (* v_i.pop_back() *)
| RNull (i : nat)             (* v_i = nullptr *)
| RMove (i : nat)             (* auto v = mv(v_i) *)
| RSwap (i j : nat)           (* v_i = mv(v_j), v_i.swap(v_j) *)
| RToArray (i : nat)          (* auto a = v_i.toArray() *)
| RDrop (i : nat)             (* the end of v_i *)
| RGet (i : nat) (k : N)      (* v_i[k] *)
| RRef (i : nat) (k : N)      (* T& r = v_i.view()[k] *)
| RRead (q : nat)             (* the value of r_q *)
| RWrite (q : nat) (x : A).   (* r_q = x *)
Arguments RMake {A}. Arguments RPush {A}. Arguments RPop {A}. Arguments RNull {A}. Arguments RMove {A}. Arguments RSwap {A}.
Arguments RToArray {A}. Arguments RDrop {A}. Arguments RGet {A}. Arguments RRef {A}. Arguments RRead {A}. Arguments RWrite {A}.
(** include/solace/vector.hpp:205-264: how a statement ends *)
Inductive rans (A : Type) := RDone | RFull | RThrew (x : exn) | RValue (x : A) | RNothing.
Arguments RDone {A}. Arguments RFull {A}. Arguments RThrew {A}. Arguments RValue {A}. Arguments RNothing {A}.

(** include/solace/memoryResource.hpp:98-99 view(): the memory of an object, which must not
    have been given back *)
Definition robj_cont {A} (w : rworld A) (o : robj) : outcome (cont A) :=
  match ro_block o with
  | None => Ret (mkCont no_buf (ro_n o))
  | Some b => match get (rw_blocks w) b with Some m => Ret (mkCont m (ro_n o)) | None => UB end
  end.
(** include/solace/vector.hpp:210-253: an operation changed the memory and the counter *)
Definition robj_put {A} (w : rworld A) (i : nat) (o : robj) (c : cont A) : rworld A :=
  mkRW (match ro_block o with None => rw_blocks w | Some b => upd (rw_blocks w) b (Some (c_buf c)) end)
       (upd (rw_objs w) i (Some (mkRObj (ro_kind o) (ro_block o) (c_n c)))) (rw_refs w).
(** include/solace/vector.hpp:49-300, array.hpp:46-300: other objects *)
Definition with_objs {A} (w : rworld A) (objs : list (option robj)) : rworld A := mkRW (rw_blocks w) objs (rw_refs w).
(** include/solace/memoryResource.hpp:55-61: the destructor gives the block back *)
Definition release {A} (w : rworld A) (o : robj) : rworld A :=
  mkRW (match ro_block o with None => rw_blocks w | Some b => upd (rw_blocks w) b None end) (rw_objs w) (rw_refs w).
(** include/solace/vector.hpp:187-199, arrayView.hpp:166-178: the object at an address *)
Definition at_address {A} (w : rworld A) (p : nat * nat) : outcome (nat * A) :=
  match get (rw_blocks w) (fst p) with
  | None => UB
  | Some m => match nth_error (b_slots m) (snd p) with Some (Some e) => Ret e | _ => UB end
  end.

(** One statement; those on objects or references that do not exist, or of the wrong class,
    cannot be written: nothing happens. *)
(** include/solace/vector.hpp:67-284, array.hpp:64-154; lines per case below *)
Definition rstep {A} (sz : N) (w : rworld A) (o : rop A) : outcome (rworld A * rans A) :=
  match o with
  | RMake bytes =>
      (* include/solace/vector.hpp:357-359 *)
      Ret (mkRW (rw_blocks w ++ [Some (raw_buf sz bytes)]) (rw_objs w ++ [Some (mkRObj Vec (Some (length (rw_blocks w))) 0)]) (rw_refs w), RDone)
  | RPush i x =>
      (* include/solace/vector.hpp:210-232 *)
      match get (rw_objs w) i with
      | Some (mkRObj Vec b n as o) =>
          let! c := robj_cont w o in
          let! p := vec_emplace sz 0 c (Some x) in
          let '(c', _, _, a) := p in
          Ret (robj_put w i o c', match a with AOk => RDone | AError _ => RFull | ARaised e => RThrew e end)
      | _ => Ret (w, RNothing)
      end
  | RPop i =>
      (* include/solace/vector.hpp:244-253 *)
      match get (rw_objs w) i with
      | Some (mkRObj Vec b n as o) =>
          let! c := robj_cont w o in
          let! p := vec_pop sz c in Ret (robj_put w i o (fst p), RDone)
      | _ => Ret (w, RNothing)
      end
  | RNull i =>
      (* include/solace/vector.hpp:109-112, 277-284 *)
      match get (rw_objs w) i with
      | Some (mkRObj Vec b n as o) =>
          let! c := robj_cont w o in
          let! p := vec_dispose sz c in Ret (robj_put w i o (fst p), RDone)
      | _ => Ret (w, RNothing)
      end
  | RMove i =>
      (* include/solace/vector.hpp:76-79, array.hpp:73-77, memoryResource.hpp:70-74 *)
      match get (rw_objs w) i with
      | Some o => Ret (with_objs w (upd (rw_objs w) i (Some (mkRObj (ro_kind o) None 0)) ++ [Some o]), RDone)
      | None => Ret (w, RNothing)
      end
  | RSwap i j =>
      (* include/solace/vector.hpp:81-85, 101-107, array.hpp:89-95, 103-105 *)
      match get (rw_objs w) i, get (rw_objs w) j with
      | Some o, Some o' =>
          if Bool.eqb (is_vec (ro_kind o)) (is_vec (ro_kind o')) then Ret (with_objs w (upd (upd (rw_objs w) i (Some o')) j (Some o)), RDone)
          else Ret (w, RNothing)
      | _, _ => Ret (w, RNothing)
      end
  | RToArray i =>
      (* include/solace/vector.hpp:271-273 *)
      match get (rw_objs w) i with
      | Some (mkRObj Vec b n) => Ret (with_objs w (upd (rw_objs w) i (Some (mkRObj Vec None 0)) ++ [Some (mkRObj Arr b n)]), RDone)
      | _ => Ret (w, RNothing)
      end
  | RDrop i =>
      (* include/solace/vector.hpp:67, 277-284, array.hpp:64, 288-293: the elements are
         destroyed, then the memory is given back *)
      match get (rw_objs w) i with
      | Some o =>
          let! c := robj_cont w o in
          let! p := destroy_all sz c in Ret (with_objs (release w o) (upd (rw_objs w) i None), RDone)
      | None => Ret (w, RNothing)
      end
  | RGet i k =>
      (* include/solace/vector.hpp:234-236, array.hpp:148-154 *)
      match get (rw_objs w) i with
      | Some o =>
          let! c := robj_cont w o in
          match elem_at sz c k with
          | Ret x => Ret (w, RValue x)
          | Throws e => Ret (w, RThrew e)
          | Terminates => Terminates | UB => UB | OutOfFuel => OutOfFuel
          end
      | None => Ret (w, RNothing)
      end
  | RRef i k =>
      (* include/solace/vector.hpp:196-199, array.hpp:211-224, arrayView.hpp:166-178 *)
      match get (rw_objs w) i with
      | Some o =>
          let! c := robj_cont w o in
          match refer sz c (Elem k), ro_block o with
          | Ret (Place p), Some b => Ret (mkRW (rw_blocks w) (rw_objs w) (rw_refs w ++ [Some (b, p)]), RDone)
          | Throws e, _ => Ret (mkRW (rw_blocks w) (rw_objs w) (rw_refs w ++ [None]), RThrew e)
          | _, _ => UB
          end
      | None => Ret (w, RNothing)
      end
  | RRead q =>
      match get (rw_refs w) q with
      | Some p => let! e := at_address w p in Ret (w, RValue (snd e))
      | None => Ret (w, RNothing)
      end
  | RWrite q x =>
      match get (rw_refs w) q with
      | Some p =>
          let! e := at_address w p in
          match get (rw_blocks w) (fst p) with
          | Some m => Ret (mkRW (upd (rw_blocks w) (fst p) (Some (mkBuf (b_bytes m) (upd (b_slots m) (snd p) (Some (fst e, x)))))) (rw_objs w) (rw_refs w), RDone)
          | None => UB
          end
      | None => Ret (w, RNothing)
      end
  end.
(** include/solace/vector.hpp:49-300, array.hpp:46-300: a program *)
Fixpoint rrun {A} (sz : N) (w : rworld A) (ops : list (rop A)) : outcome (rworld A * list (rans A)) :=
  match ops with
  | [] => Ret (w, [])
  | o :: ops' =>
      let! p := rstep sz w o in
      let! q := rrun sz (fst p) ops' in
      Ret (fst q, snd p :: snd q)
  end.
