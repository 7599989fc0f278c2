(** Model of whole programs: objects of many classes whose memory comes from the one system
    heap manager (src/memoryManager.cpp, include/solace/memoryResource.hpp and the classes that
    own memory).

    The variables of a program are a list of slots.  What a class does with its bytes is taken
    from the model of that class; here is where its memory comes from, who holds it and when it
    goes back.  Simplifications: the elements of Vector and Array are bytes; addresses are never
    given out twice; getSystemHeapMemoryManager() is the only manager of the program. *)
From Verif Require Import Base MemoryModel ByteIOModel StringViewModel StringModel FmtModel BuilderModel Base16Model
  HashModel UUIDModel VersionModel PathModel.

(** The machine: whether the k-th malloc finds memory, and the bytes it finds there. *)
(** src/memoryManager.cpp:107-110 *)
Record machine := mkMachine { ma_ok : nat -> bool; ma_byte : nat -> nat -> N }.

(** Where bytes lie: nowhere (nullptr), in a block of the heap, in a literal of the program. *)
(** include/solace/memoryView.hpp:227-228 *)
Inductive place := PNull | PHeap (a : nat) | PLit (bs : list N).
(** A MemoryResource (include/solace/memoryResource.hpp:117-118: address, size, whether there is a
    disposer) and how much of it is in use: _size of String (include/solace/string.hpp:351-352) and
    Array (include/solace/array.hpp:299-300), _nextInsertPosition of Vector
    (include/solace/vector.hpp:293-294), _position of ByteWriter (include/solace/byteWriter.hpp:262-265). *)
Record buf := mkBuf { b_at : place; b_len : N; b_own : bool; b_use : N }.

(** include/solace/string.hpp:38, vector.hpp:49, array.hpp:46, stringBuilder.hpp:35, hashing/messageDigest.hpp:37,
    version.hpp:46, uuid.hpp:38, path.hpp:56 *)
Inductive kind := KString | KVector | KArray | KBuilder | KDigest | KVersion | KUUID | KPath.
(** The plain members of an object and the memory it holds:
    String, Vector, Array, MessageDigest: no plain member, one buffer;
    StringBuilder: the limit of its writer, one buffer (include/solace/stringBuilder.hpp:143);
    Version: three numbers, the buffers of two Strings (include/solace/version.hpp:55-64);
    UUID: sixteen bytes (include/solace/uuid.hpp:163);
    Path: the buffer of the component array, then those of the components (include/solace/path.hpp:381). *)
Record obj := mkObj { o_kind : kind; o_nums : list N; o_bufs : list buf }.

(** The heap manager (include/solace/memoryManager.hpp:168-179), the heap ([None]: given back), the
    number of calls of malloc, the variables. *)
Record world := mkWorld {
  y_cap : N; y_size : N; y_locked : bool;
  y_heap : list (option (list N)); y_calls : nat; y_vars : list (option obj) }.

(** include/solace/memoryResource.hpp:68, include/solace/memoryView.hpp:83: no memory *)
Definition null_buf : buf := mkBuf PNull 0 false 0.
(** include/solace/string.hpp:351-352, vector.hpp:293-294: the part in use *)
Definition used (b : buf) (n : N) : buf := mkBuf (b_at b) (b_len b) (b_own b) n.

(** src/memoryManager.cpp:107: what malloc finds in the memory it returns *)
Definition fresh (ma : machine) (k : nat) (n : N) : list N := map (ma_byte ma k) (seq 0 (N.to_nat n)).

(** src/memoryManager.cpp:97-115 allocate (limit: include/solace/memoryManager.hpp:96-98) *)
Definition allocate (ma : machine) (n : N) (w : world) : result buf * world :=
  if sub64 (y_cap w) (y_size w) <? n then (Err E_NOMEM, w)
  else if y_locked w then (Err E_PERM, w)
  else
    let k := y_calls w in
    if ma_ok ma k then
      (Ok (mkBuf (PHeap (length (y_heap w))) n true 0),
       mkWorld (y_cap w) (u64 (y_size w + n)) (y_locked w) (y_heap w ++ [Some (fresh ma k n)]) (S k) (y_vars w))
    else if n =? 0 then
      (Ok (mkBuf PNull 0 true 0), mkWorld (y_cap w) (u64 (y_size w + n)) (y_locked w) (y_heap w) (S k) (y_vars w))
    else (Err E_NOMEM, mkWorld (y_cap w) (y_size w) (y_locked w) (y_heap w) (S k) (y_vars w)).

(** include/solace/memoryResource.hpp:57-61 the destructor of a resource, src/memoryManager.cpp:83-94 dispose and
    free: freeing what is not a living block of the heap is undefined *)
Definition release (b : buf) (w : world) : outcome world :=
  if b_own b then
    match b_at b with
    | PNull => Ret (mkWorld (y_cap w) (sub64 (y_size w) (b_len b)) (y_locked w) (y_heap w) (y_calls w) (y_vars w))
    | PLit _ => UB
    | PHeap a =>
        match get (y_heap w) a with
        | Some _ => Ret (mkWorld (y_cap w) (sub64 (y_size w) (b_len b)) (y_locked w) (upd (y_heap w) a None) (y_calls w) (y_vars w))
        | None => UB
        end
    end
  else Ret w.
(** include/solace/array.hpp:288-293 and the implicit destructors: every resource of an object *)
Fixpoint release_all (bs : list buf) (w : world) : outcome world :=
  match bs with
  | [] => Ret w
  | b :: t => let! w' := release b w in release_all t w'
  end.

(** include/solace/memoryResource.hpp:98-99 view(): the memory of a resource; reading memory that was given back,
    or more than there is, is undefined *)
Definition buf_bytes (w : world) (b : buf) : outcome (list N) :=
  if b_len b =? 0 then Ret [] else
  match b_at b with
  | PNull => UB
  | PHeap a => match get (y_heap w) a with
               | Some bs => if b_len b <=? size bs then Ret (ntake (b_len b) bs) else UB
               | None => UB
               end
  | PLit bs => if b_len b <=? size bs then Ret (ntake (b_len b) bs) else UB
  end.
(** include/solace/string.hpp:328-330, array.hpp:211-224, vector.hpp:193-199: the slice (0, size()) *)
Definition buf_text (w : world) (b : buf) : outcome (list N) :=
  let! bs := buf_bytes w b in Ret (ntake (N.min (b_len b) (b_use b)) bs).
(** include/solace/string.hpp:328-330: the same for several *)
Fixpoint buf_texts (w : world) (bs : list buf) : outcome (list (list N)) :=
  match bs with
  | [] => Ret []
  | b :: t => let! x := buf_text w b in let! xs := buf_texts w t in Ret (x :: xs)
  end.
(** src/mutableMemoryView.cpp:39-59: bytes written to the start of the memory of a resource; memory that was given back
    and literals cannot be written *)
Definition store (b : buf) (bs : list N) (w : world) : outcome world :=
  match bs with
  | [] => Ret w
  | _ :: _ =>
      match b_at b with
      | PHeap a => match get (y_heap w) a with
                   | Some old => if size bs <=? size old
                                 then Ret (mkWorld (y_cap w) (y_size w) (y_locked w) (upd (y_heap w) a (Some (overwrite old 0 bs))) (y_calls w) (y_vars w))
                                 else UB
                   | None => UB
                   end
      | _ => UB
      end
  end.

(** Memory for a copy of the given bytes: src/string.cpp:29-43 makeString(StringView),
    include/solace/array.hpp:388-404 makeArray(n, pointer), include/solace/vector.hpp:407-418 makeVector(view) and
    487-510 makeVectorOf *)
Definition make_of (ma : machine) (bs : list N) (w : world) : outcome (result buf * world) :=
  match allocate ma (size bs) w with
  | (Err e, w1) => Ret (Err e, w1)
  | (Ok b, w1) => let! w2 := store b bs w1 in Ret (Ok (used b (size bs)), w2)
  end.

(** The operations of a program.  [i] is the slot the new object is put in. *)
(** src/memoryManager.cpp:118-129, include/solace/string.hpp:435-582, vector.hpp:345-543, array.hpp:334-484, stringBuilder.hpp:96-141, hashing/messageDigest.hpp:52-115,
    version.hpp:93-178, uuid.hpp:72-157, path.hpp:132-362 *)
Inductive yop :=
| YLock | YUnlock                          (* manager.lock(), unlock() *)
| YSize | YLimit                           (* manager.size(), limit() *)
| MkText (i : nat) (s : list N)            (* x_i from makeString(StringView) *)
| MkLiteral (i : nat) (s : list N)         (* x_i from makeString(StringLiteral) *)
| CopyText (i j : nat)                     (* x_i from makeString(x_j), x_j a String or StringBuilder *)
| Concat (i j k : nat)                     (* x_i from makeString(x_j, x_k) *)
| MkVector (i : nat) (n : N)               (* x_i from makeVector<byte>(n) *)
| VectorOf (i : nat) (bs : list N)         (* x_i from makeVector(view), makeVectorOf *)
| ArrayOf (i : nat) (bs : list N)          (* x_i from makeArray(n, pointer) *)
| MkArray (i : nat) (n : N)                (* x_i from makeArray<byte>(n) *)
| CopyBytes (i j : nat)                    (* x_i from makeVector(x_j), makeArray(x_j) *)
| Push (i : nat) (c : N)                   (* x_i.push_back(c) *)
| Pop (i : nat)                            (* x_i.pop_back() *)
| ToArray (i j : nat)                      (* x_i from x_j.toArray() *)
| MkBuilder (i : nat) (n : N)              (* StringBuilder x_i{manager.allocate(n).moveResult()} *)
| Append (i : nat) (s : list N)            (* x_i.append(StringView) *)
| AppendNum (i : nat) (v : N)              (* x_i.append(uint) *)
| Build (i j : nat)                        (* x_i from x_j.build() *)
| MkDigest (i : nat) (bs : list N)         (* MessageDigest x_i{view} *)
| DigestOf (i j : nat)                     (* MessageDigest x_i{mv(x_j)}, x_j an Array *)
| DigestText (i j : nat)                   (* x_i from x_j.toString() *)
| MkVersion (i : nat) (a b c : N) (j k : nat)  (* Version x_i{a, b, c, mv(x_j), mv(x_k)} *)
| VersionText (i j : nat)                  (* x_i from x_j.toString() *)
| MkUUID (i : nat) (bs : list N)           (* UUID x_i{bytes} *)
| UUIDText (i j : nat)                     (* x_i from x_j.toString() *)
| ParsePath (i j : nat)                    (* x_i from Path::parse(x_j) *)
| PathText (i j : nat)                     (* x_i from x_j.toString() *)
| Move (i j : nat)                         (* T x_i{mv(x_j)} *)
| Assign (i j : nat)                       (* x_i = mv(x_j) *)
| Swap (i j : nat)                         (* swap(x_i, x_j) *)
| Drop (i : nat)                           (* x_i is destroyed *)
| Look (i : nat).                          (* what x_i holds *)
(** How an operation ends; [YNone]: it cannot be written (no such object, no free slot). *)
(** src/memoryManager.cpp:97-115, include/solace/result.hpp:373-379 *)
Inductive yans := YDone | YRefused (e : N) | YRaised (e : exn) | YNum (n : N)
  | YSaw (k : kind) (nums : list N) (texts : list (list N)) | YNone.

(** include/solace/string.hpp:38: a variable that can be given an object *)
Definition is_free (w : world) (i : nat) : bool := match nth_error (y_vars w) i with Some None => true | _ => false end.
(** include/solace/string.hpp:38: a variable *)
Definition obj_at (w : world) (i : nat) : option obj := get (y_vars w) i.
(** include/solace/string.hpp:38: a variable changed *)
Definition put (w : world) (i : nat) (o : option obj) : world :=
  mkWorld (y_cap w) (y_size w) (y_locked w) (y_heap w) (y_calls w) (upd (y_vars w) i o).
(** src/memoryManager.cpp:118-129 *)
Definition set_lock (w : world) (b : bool) : world := mkWorld (y_cap w) (y_size w) b (y_heap w) (y_calls w) (y_vars w).

(** src/string.cpp:29-43, vector.hpp:374-384: a factory returns the object or the error *)
Definition settle (i : nat) (k : kind) (p : result buf * world) : yans * world :=
  match p with
  | (Ok b, w) => (YDone, put w i (Some (mkObj k [] [b])))
  | (Err e, w) => (YRefused e, w)
  end.
(** include/solace/hashing/messageDigest.hpp:56, src/hashing/messageDigest.cpp:32-34 and result.hpp:373-379: the error of a factory is raised *)
Definition settle_or_raise (i : nat) (mk : buf -> obj) (p : result buf * world) : yans * world :=
  match p with
  | (Ok b, w) => (YDone, put w i (Some (mk b)))
  | (Err _, w) => (YRaised InvalidState, w)
  end.
(** src/uuid.cpp:96-99, src/version.cpp:81-83, src/path.cpp:357-360: the error is dropped, the text is empty *)
Definition settle_or_empty (i : nat) (p : result buf * world) : yans * world :=
  match p with
  | (Ok b, w) => (YDone, put w i (Some (mkObj KString [] [b])))
  | (Err _, w) => (YDone, put w i (Some (mkObj KString [] [null_buf])))
  end.

(** What a move constructor leaves behind: string.hpp:56-60, vector.hpp:76-79, array.hpp:73-77, byteWriter.hpp:54-58,
    hashing/messageDigest.hpp:50, uuid.cpp:36-38; Version (version.hpp:46) has the implicit one, which leaves its numbers; a
    moved component array leaves no components *)
Definition moved_from (o : obj) : obj :=
  match o_kind o with
  | KVersion => mkObj KVersion (o_nums o) (map (fun _ => null_buf) (o_bufs o))
  | KUUID => o
  | KBuilder => mkObj KBuilder [0] [null_buf]
  | KPath => mkObj KPath [] [null_buf]
  | k => mkObj k (o_nums o) (map (fun _ => null_buf) (o_bufs o))
  end.
(** x = mv(y), the new x and y: string.hpp:86-88, vector.hpp:81-85, array.hpp:103-105, stringBuilder.hpp:80-82,
    hashing/messageDigest.hpp:65-67, uuid.hpp:83-85, path.hpp:158-160 swap; the implicit one of Version copies the numbers and
    assigns (swaps) the Strings *)
Definition assigned (x y : obj) : obj * obj :=
  match o_kind x with
  | KVersion => (mkObj KVersion (o_nums y) (o_bufs y), mkObj KVersion (o_nums y) (o_bufs x))
  | _ => (y, x)
  end.
(** vector.hpp:49, string.hpp:38: objects of one class *)
Definition kind_eqb (a b : kind) : bool :=
  match a, b with
  | KString, KString | KVector, KVector | KArray, KArray | KBuilder, KBuilder | KDigest, KDigest | KVersion, KVersion
  | KUUID, KUUID | KPath, KPath => true
  | _, _ => false
  end.
(** The texts an object shows; the first buffer of a Path holds String objects, not characters. *)
(** include/solace/path.hpp:381 *)
Definition text_bufs (o : obj) : list buf := match o_kind o with KPath => tl (o_bufs o) | _ => o_bufs o end.

(** src/path.cpp:62-84: the Strings for the components, put in a vector with room for [cap] of them; a String there is no
    room for is dropped.  What was made is given back when one cannot be made. *)
Fixpoint parse_comps (ma : machine) (cap : N) (ps : list (list N * N * N)) (acc : list buf) (w : world)
  : outcome (result (list buf) * world) :=
  match ps with
  | [] => Ret (Ok acc, w)
  | (c, i, count) :: t =>
      if (i + 1 =? count) && sv_empty c then parse_comps ma cap t acc w else
      let! p := make_of ma c w in
      match fst p with
      | Ok b =>
          if size acc <? cap then parse_comps ma cap t (acc ++ [b]) (snd p)
          else let! w' := release b (snd p) in parse_comps ma cap t acc w'
      | Err e => let! w' := release_all acc (snd p) in Ret (Err e, w')
      end
  end.
(** sizeof(String) on a 64-bit machine: string.hpp:351-352, memoryResource.hpp:117-118 *)
Definition string_bytes : N := 32.
(** src/path.cpp:58-95 parse with delimiter "/"; the count of the pieces is a uint16, and no vector is made when it is zero;
    when the vector cannot be made the first component is still copied, and that String is dropped *)
Definition path_of (ma : machine) (s : list N) (w : world) : outcome (result (list buf) * world) :=
  let! r := sv_split3 (S (length s)) Delimiter s in
  let ps := fst r in
  let count := snd r in
  match (if count =? 0 then (Ok null_buf, w) else allocate ma (string_bytes * count) w) with
  | (Err e, w1) =>
      match ps with
      | (c, i, count) :: _ =>
          if (i + 1 =? count) && sv_empty c then Ret (Err e, w1) else
          let! p := make_of ma c w1 in
          match fst p with
          | Ok b => let! w2 := release b (snd p) in Ret (Err e, w2)
          | Err e' => Ret (Err e', snd p)
          end
      | [] => Ret (Err e, w1)
      end
  | (Ok v, w1) =>
      let! p := parse_comps ma count ps [] w1 in
      match fst p with
      | Err e => let! w2 := release v (snd p) in Ret (Err e, w2)
      | Ok [] => Ret (Ok (if count =? 0 then [v] else [used v 1; null_buf]), snd p)
      | Ok bs => Ret (Ok (used v (size bs) :: bs), snd p)
      end
  end.

(** src/string.cpp:186-189: the length makeStringJoin asks memory for *)
Definition join_size (by_ : list N) (l : list (list N)) : N :=
  fold_left (fun n s => u16 (n + size s)) l (u16 (u64 (size by_ * sub64 (size l) 1))).

(** src/memoryManager.cpp:97-138 and the lines given per case *)
Definition y_step (ma : machine) (host_be : bool) (o : yop) (w : world) : outcome (yans * world) :=
  let no := Ret (YNone, w) in
  match o with
  | YLock => Ret (YDone, set_lock w true)
  | YUnlock => Ret (YDone, set_lock w false)
  | YSize => Ret (YNum (y_size w), w)
  | YLimit => Ret (YNum (sub64 (y_cap w) (y_size w)), w)
  | MkText i s =>
      if is_free w i then let! p := make_of ma s w in Ret (settle i KString p) else no
  | MkLiteral i s =>
      (* src/string.cpp:46-49, memoryResource.hpp:85-88: no disposer *)
      if is_free w i then Ret (YDone, put w i (Some (mkObj KString [] [mkBuf (PLit s) (size s) false (size s)]))) else no
  | CopyText i j =>
      (* string.hpp:463-465; stringBuilder.cpp:133-136: the length of the view is a uint16 *)
      if is_free w i then
        match obj_at w j with
        | Some (mkObj KString _ [b]) => let! s := buf_text w b in let! p := make_of ma s w in Ret (settle i KString p)
        | Some (mkObj KBuilder _ [b]) =>
            let! s := buf_text w b in let! p := make_of ma (ntake (u16 (size s)) s) w in Ret (settle i KString p)
        | _ => no
        end
      else no
  | Concat i j k =>
      (* string.hpp:552-566 *)
      if is_free w i then
        match obj_at w j, obj_at w k with
        | Some (mkObj KString _ [b]), Some (mkObj KString _ [c]) =>
            let! x := buf_text w b in
            let! y := buf_text w c in
            let args := [AText x; AText y] in
            match allocate ma (total_size args) w with
            | (Err e, w1) => Ret (YRefused e, w1)
            | (Ok d, w1) =>
                let! block := buf_bytes w1 d in
                let! r := str_concat host_be (fun _ => Ok block) args in
                match r with
                | Err e => let! w2 := release d w1 in Ret (YRefused e, w2)
                | Ok s => let! w2 := store d (st_buf s) w1 in Ret (settle i KString (Ok (used d (st_size s)), w2))
                end
            end
        | _, _ => no
        end
      else no
  | MkVector i n =>
      (* vector.hpp:374-397 *)
      if is_free w i then Ret (settle i KVector (allocate ma n w)) else no
  | VectorOf i bs => if is_free w i then let! p := make_of ma bs w in Ret (settle i KVector p) else no
  | ArrayOf i bs => if is_free w i then let! p := make_of ma bs w in Ret (settle i KArray p) else no
  | MkArray i n =>
      (* array.hpp:353-378, array_utils.hpp:48-64: default constructed elements; the memory is asked for before there is
         anything to copy *)
      if is_free w i then
        match allocate ma n w with
        | (Err e, w1) => Ret (YRefused e, w1)
        | (Ok b, w1) => let! w2 := store b (repeat 0 (N.to_nat n)) w1 in Ret (settle i KArray (Ok (used b n), w2))
        end
      else no
  | CopyBytes i j =>
      (* vector.hpp:438-453, array.hpp:425-463 *)
      if is_free w i then
        match obj_at w j with
        | Some (mkObj KVector _ [b]) => let! s := buf_text w b in let! p := make_of ma s w in Ret (settle i KVector p)
        | Some (mkObj KArray _ [b]) => let! s := buf_text w b in let! p := make_of ma s w in Ret (settle i KArray p)
        | _ => no
        end
      else no
  | Push i c =>
      (* vector.hpp:210-228, 230-232; posixErrorDomain.hpp:45-48 *)
      match obj_at w i with
      | Some (mkObj KVector ns [b]) =>
          if b_len b <=? b_use b then Ret (YRefused BasicOverflow, w) else
          let! bs := buf_bytes w b in
          let! w1 := store b (overwrite bs (b_use b) [c]) w in
          Ret (YDone, put w1 i (Some (mkObj KVector ns [used b (b_use b + 1)])))
      | _ => no
      end
  | Pop i =>
      (* vector.hpp:244-253 *)
      match obj_at w i with
      | Some (mkObj KVector ns [b]) =>
          if b_use b <? 1 then Ret (YDone, w) else Ret (YDone, put w i (Some (mkObj KVector ns [used b (b_use b - 1)])))
      | _ => no
      end
  | ToArray i j =>
      (* vector.hpp:271-273 *)
      if is_free w i then
        match obj_at w j with
        | Some (mkObj KVector ns [b]) => Ret (YDone, put (put w j (Some (mkObj KVector ns [null_buf]))) i (Some (mkObj KArray [] [b])))
        | _ => no
        end
      else no
  | MkBuilder i n =>
      (* stringBuilder.hpp:66-68, byteWriter.hpp:65-68: the limit is the size of the memory *)
      if is_free w i then Ret (settle_or_raise i (fun b => mkObj KBuilder [b_len b] [b]) (allocate ma n w)) else no
  | Append i s =>
      match obj_at w i with
      | Some (mkObj KBuilder [lim] [b]) =>
          let! bs := buf_bytes w b in
          let! sb := sb_text (mkWriter (b_use b) lim bs) s in
          let! w1 := store b (w_buf sb) w in
          Ret (YDone, put w1 i (Some (mkObj KBuilder [w_lim sb] [used b (w_pos sb)])))
      | _ => no
      end
  | AppendNum i v =>
      match obj_at w i with
      | Some (mkObj KBuilder [lim] [b]) =>
          let! bs := buf_bytes w b in
          let! sb := sb_num (mkWriter (b_use b) lim bs) v in
          let! w1 := store b (w_buf sb) w in
          Ret (YDone, put w1 i (Some (mkObj KBuilder [w_lim sb] [used b (w_pos sb)])))
      | _ => no
      end
  | Build i j =>
      (* stringBuilder.cpp:177-181, byteWriter.hpp:100-105 *)
      if is_free w i then
        match obj_at w j with
        | Some (mkObj KBuilder _ [b]) =>
            Ret (YDone, put (put w j (Some (mkObj KBuilder [0] [null_buf]))) i (Some (mkObj KString [] [used b (u16 (b_use b))])))
        | _ => no
        end
      else no
  | MkDigest i bs =>
      (* messageDigest.cpp:32-34 *)
      if is_free w i then let! p := make_of ma bs w in Ret (settle_or_raise i (fun b => mkObj KDigest [] [b]) p) else no
  | DigestOf i j =>
      (* hashing/messageDigest.hpp:52-54 *)
      if is_free w i then
        match obj_at w j with
        | Some (mkObj KArray ns [b]) => Ret (YDone, put (put w j (Some (mkObj KArray ns [null_buf]))) i (Some (mkObj KDigest [] [b])))
        | _ => no
        end
      else no
  | DigestText i j =>
      (* messageDigest.cpp:37-58 *)
      if is_free w i then
        match obj_at w j with
        | Some (mkObj KDigest _ [b]) =>
            let! d := buf_text w b in
            match allocate ma (b16_encodedSize (size d)) w with
            | (Err e, w1) => Ret (settle_or_empty i (Err e, w1))
            | (Ok tmp, w1) =>
                (* a byte of memory is a uint8 *)
                let! s := digest_toString true (fun n => Ok (repeat 0 (N.to_nat n))) (map u8 d) in
                let! p := make_of ma (str_view s) w1 in
                let! w2 := release tmp (snd p) in
                Ret (settle_or_empty i (fst p, w2))
            end
        | _ => no
        end
      else no
  | MkVersion i a b c j k =>
      (* version.hpp:113-119; a String named twice is empty the second time *)
      if is_free w i then
        match obj_at w j with
        | Some (mkObj KString ns [p]) =>
            let w1 := put w j (Some (mkObj KString ns [null_buf])) in
            match obj_at w1 k with
            | Some (mkObj KString ns' [q]) =>
                Ret (YDone, put (put w1 k (Some (mkObj KString ns' [null_buf]))) i (Some (mkObj KVersion [a; b; c] [p; q])))
            | _ => no
            end
        | _ => no
        end
      else no
  | VersionText i j =>
      (* version.cpp:69-103 *)
      if is_free w i then
        match obj_at w j with
        | Some (mkObj KVersion [a; b; c] [p; q]) =>
            let! pre := buf_text w p in
            let! bld := buf_text w q in
            let v := mkVersion a b c pre bld in
            match allocate ma (ver_bufferSize v) w with
            | (Err e, w1) => Ret (settle_or_empty i (Err e, w1))
            | (Ok d, w1) =>
                let! block := buf_bytes w1 d in
                let! s := ver_toString host_be (fun _ => Ok block) v in
                let! w2 := store d (st_buf s) w1 in
                Ret (settle_or_empty i (Ok (used d (st_size s)), w2))
            end
        | _ => no
        end
      else no
  | MkUUID i bs =>
      (* uuid.cpp:46-48 *)
      if is_free w i && (size bs =? 16) then Ret (YDone, put w i (Some (mkObj KUUID bs []))) else no
  | UUIDText i j =>
      (* uuid.cpp:92-100 *)
      if is_free w i then
        match obj_at w j with
        | Some (mkObj KUUID u []) =>
            let! t := uuid_toString u (repeat 0 36) in
            let! p := make_of ma t w in
            Ret (settle_or_empty i p)
        | _ => no
        end
      else no
  | ParsePath i j =>
      if is_free w i then
        match obj_at w j with
        | Some (mkObj KString _ [b]) =>
            let! s := buf_text w b in
            let! p := path_of ma s w in
            match p with
            | (Ok bs, w1) => Ret (YDone, put w1 i (Some (mkObj KPath [] bs)))
            | (Err e, w1) => Ret (YRefused e, w1)
            end
        | _ => no
        end
      else no
  | PathText i j =>
      (* path.cpp:347-361, string.cpp:184-216 *)
      if is_free w i then
        match obj_at w j with
        | Some (mkObj KPath _ (v :: bs)) =>
            let! comps := buf_texts w bs in
            let! abs := path_isAbsolute (mkPath comps (b_len v)) in
            if abs && (size comps =? 1) then let! p := make_of ma Delimiter w in Ret (settle_or_empty i p) else
            match allocate ma (join_size Delimiter comps) w with
            | (Err e, w1) => Ret (settle_or_empty i (Err e, w1))
            | (Ok d, w1) =>
                let! block := buf_bytes w1 d in
                let! r := str_join (fun _ => Ok block) Delimiter comps in
                match r with
                | Err e => let! w2 := release d w1 in Ret (settle_or_empty i (Err e, w2))
                | Ok s => let! w2 := store d (st_buf s) w1 in Ret (settle_or_empty i (Ok (used d (st_size s)), w2))
                end
            end
        | _ => no
        end
      else no
  | Move i j =>
      if is_free w i then
        match obj_at w j with
        | Some x => Ret (YDone, put (put w j (Some (moved_from x))) i (Some x))
        | None => no
        end
      else no
  | Assign i j =>
      match obj_at w i, obj_at w j with
      | Some x, Some y =>
          if kind_eqb (o_kind x) (o_kind y)
          then if Nat.eqb i j then Ret (YDone, w)
               else Ret (YDone, put (put w j (Some (snd (assigned x y)))) i (Some (fst (assigned x y))))
          else no
      | _, _ => no
      end
  | Swap i j =>
      (* string.hpp:78-84, vector.hpp:101-107, array.hpp:89-95, stringBuilder.hpp:85-91, hashing/messageDigest.hpp:58-63,
         version.hpp:147-157, uuid.cpp:51-55, path.hpp:147-151 *)
      match obj_at w i, obj_at w j with
      | Some x, Some y =>
          if kind_eqb (o_kind x) (o_kind y) then Ret (YDone, put (put w j (Some x)) i (Some y)) else no
      | _, _ => no
      end
  | Drop i =>
      match obj_at w i with
      | Some x => let! w1 := release_all (o_bufs x) w in Ret (YDone, put w1 i None)
      | None => no
      end
  | Look i =>
      match obj_at w i with
      | Some x => let! ts := buf_texts w (text_bufs x) in Ret (YSaw (o_kind x) (o_nums x) ts, w)
      | None => no
      end
  end.

(** src/memoryManager.cpp:97-138: a program *)
Fixpoint y_run (ma : machine) (host_be : bool) (os : list yop) (w : world) : outcome (list yans * world) :=
  match os with
  | [] => Ret ([], w)
  | o :: t => let! p := y_step ma host_be o w in let! q := y_run ma host_be t (snd p) in Ret (fst p :: fst q, snd q)
  end.
(** src/memoryManager.cpp:31-39, 132-138: a program with [n] variables before it makes anything *)
Definition y_start (cap : N) (n : nat) : world := mkWorld cap 0 false [] 0 (repeat None n).
