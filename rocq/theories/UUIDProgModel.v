(** Programs with any number of UUID objects.  The objects lie one after the other in [mem], object
    [a] at address 16 * a; every access goes through an address, so that an operation whose operands
    are the same object reads what it has already written. *)
From Verif Require Import Base MemViewModel ByteIOModel Base16Model UUIDModel.

(** include/solace/uuid.hpp:48-60, 163: the bytes of an object; [None] if there is no such object *)
Definition object_view (mem : list N) (a : N) : option view :=
  if 16 * a + 16 <=? size mem then Some (mkView (Some (16 * a)) 16) else None.

(** src/uuid.cpp:36-48: memcpy of 16 bytes into a new object; include/solace/uuid.hpp:67-77 *)
Definition new_object (mem bytes : list N) : list N := mem ++ ntake 16 bytes.

(** src/uuid.cpp:51-55: std::swap of two arrays exchanges them element by element; [k] elements from
    index [i] on remain *)
Fixpoint swap_bytes (mem : list N) (a b : N) (k : nat) (i : N) : outcome (list N) :=
  match k with
  | O => Ret mem
  | S k' =>
      let! x := load mem (Some (16 * a + i)) 1 in
      let! y := load mem (Some (16 * b + i)) 1 in
      let! mem := store mem (Some (16 * a + i)) y in
      let! mem := store mem (Some (16 * b + i)) x in
      swap_bytes mem a b k' (i + 1)
  end.

(** What a program does with UUIDs.
    include/solace/uuid.hpp:65-93, 112-157, 171-194 *)
Inductive uop :=
| UNull | UFrom (bytes : list N) | UMake (bytes : list N) | UParse (text after : list N) | UCopy (a : N) | UMove (a : N)
| UAssign (a b : N) | UMoveAssign (a b : N) | USwap (a b : N)
| USet (a i x : N) | UFill (a x : N) | UWrite (a b from to : N)
| QNull (a : N) | QEq (a b : N) | QNe (a b : N) | QLt (a b : N) | QGt (a b : N) | QLe (a b : N) | QGe (a b : N)
| QGet (a i : N) | QFirst (a : N) | QLast (a : N) | QText (a : N) (garbage : list N).

(** What the program sees: an answer, an error or an exception.
    include/solace/uuid.hpp:63, 95-157 *)
Inductive uans := ADone | ABool (b : bool) | AByte (x : N) | AText (t : list N) | ARefused | AThrew (e : exn) | ANoObject.

(** include/solace/uuid.hpp:95-157: an operation on the bytes of an object *)
Definition with_object (mem : list N) (a : N) (f : view -> list N -> outcome (list N * uans)) : outcome (list N * uans) :=
  match object_view mem a with
  | None => Ret (mem, ANoObject)
  | Some v => let! u := load mem (v_addr v) (v_size v) in f v u
  end.

(** src/uuid.cpp:58-89, include/solace/uuid.hpp:171-189: a question about two objects *)
Definition ask_two (mem : list N) (a b : N) (f : list N -> list N -> bool) : outcome (list N * uans) :=
  with_object mem a (fun _ u => with_object mem b (fun _ v => Ret (mem, ABool (f u v)))).

(** src/uuid.cpp:31-183, include/solace/uuid.hpp:67-157: one operation; an exception is caught by the program *)
Definition ustep (mem : list N) (o : uop) : outcome (list N * uans) :=
  match o with
  | UNull => Ret (new_object mem uuid_null, ADone)
  | UFrom bytes => let! bs := load bytes (Some 0) 16 in Ret (new_object mem bs, ADone)
  | UMake bytes =>
      match makeUUID_view bytes (mkView (Some 0) (size bytes)) with
      | Ret u => Ret (new_object mem u, ADone)
      | Throws e => Ret (mem, AThrew e)
      | Terminates => Terminates | UB => UB | OutOfFuel => OutOfFuel
      end
  | UParse text after =>
      let! r := uuid_parse text after in
      match r with
      | Err _ => Ret (mem, ARefused)
      | Ok cells => if forallb (fun c => match c with Some _ => true | None => false end) cells
                    then Ret (new_object mem (flat_map (fun c => match c with Some b => [b] | None => [] end) cells), ADone)
                    else UB
      end
  | UCopy a | UMove a => with_object mem a (fun _ u => Ret (new_object mem u, ADone))
  | UAssign a b =>
      with_object mem a (fun _ _ => with_object mem b (fun _ v =>
        (* the copy is a new object, at the end of the memory until the operator returns *)
        let copy := size mem / 16 in
        let! mem' := swap_bytes (new_object mem v) copy a 16 0 in
        Ret (ntake (size mem) mem', ADone)))
  | UMoveAssign a b | USwap a b =>
      with_object mem a (fun _ _ => with_object mem b (fun _ _ => let! mem' := swap_bytes mem a b 16 0 in Ret (mem', ADone)))
  | USet a i x =>
      with_object mem a (fun v _ =>
        if v_size v <=? i then Ret (mem, AThrew IndexOutOfRange)
        else let! mem' := store mem (ptr_add (v_addr v) i) [x] in Ret (mem', ADone))
  | UFill a x => with_object mem a (fun v _ => let! mem' := mview_fill mem v x in Ret (mem', ADone))
  | UWrite a b from to =>
      with_object mem a (fun v _ => with_object mem b (fun w _ =>
        let! r := mview_write mem v (view_slice w from to) in
        match r with (Ok _, mem') => Ret (mem', ADone) | (Err _, mem') => Ret (mem', ARefused) end))
  | QNull a => with_object mem a (fun _ u => Ret (mem, ABool (uuid_isNull u)))
  | QEq a b => ask_two mem a b uuid_eq
  | QNe a b => ask_two mem a b uuid_ne
  | QLt a b => ask_two mem a b uuid_lt
  | QGt a b => ask_two mem a b uuid_gt
  | QLe a b => ask_two mem a b uuid_le
  | QGe a b => ask_two mem a b uuid_ge
  | QGet a i => with_object mem a (fun _ u =>
      match uuid_index u i with
      | Ret x => Ret (mem, AByte x)
      | Throws e => Ret (mem, AThrew e)
      | Terminates => Terminates | UB => UB | OutOfFuel => OutOfFuel
      end)
  | QFirst a => with_object mem a (fun _ u => match nnth u 0 with Some x => Ret (mem, AByte x) | None => UB end)
  | QLast a => with_object mem a (fun _ u => match nnth u 15 with Some x => Ret (mem, AByte x) | None => UB end)
  | QText a garbage => with_object mem a (fun _ u => let! t := uuid_toString u garbage in Ret (mem, AText t))
  end.

(** include/solace/uuid.hpp:37-194: a whole program *)
Fixpoint urun (mem : list N) (ops : list uop) : outcome (list N * list uans) :=
  match ops with
  | [] => Ret (mem, [])
  | o :: rest =>
      let! r := ustep mem o in
      let! q := urun (fst r) rest in
      Ret (fst q, snd r :: snd q)
  end.
