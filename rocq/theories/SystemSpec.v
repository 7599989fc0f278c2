(** What programs over objects that own memory mean, without memory: a variable holds nothing or a value, and every
    operation has one intended effect on the values.  Names of operations and answers are those of SystemModel.v. *)
From Verif Require Import Base StringSpec FmtSpec Base16Spec UUIDSpec VersionModel VersionSpec PathSpec MemoryModel SystemModel.

(** What a user sees of an object: its class, its numbers (the room of a StringBuilder; the numbers of a Version; the
    bytes of a UUID), its texts (the text of a String or StringBuilder; the bytes of a Vector, Array or MessageDigest; the two
    tags of a Version; the components of a Path) and the capacity of a Vector. *)
Record value := mkVal { va_kind : kind; va_nums : list N; va_texts : list (list N); va_room : N }.
Definition state := list (option value).

Definition free (s : state) (i : nat) : Prop := nth_error s i = Some None.
Definition has (s : state) (i : nat) (v : value) : Prop := nth_error s i = Some (Some v).
Definition set (s : state) (i : nat) (v : value) : state := upd s i (Some v).

Definition text_val (t : list N) : value := mkVal KString [] [t] 0.
Definition vector_val (bs : list N) (room : N) : value := mkVal KVector [] [bs] room.
Definition array_val (bs : list N) : value := mkVal KArray [] [bs] 0.
Definition builder_val (t : list N) (room : N) : value := mkVal KBuilder [room] [t] 0.
Definition digest_val (bs : list N) : value := mkVal KDigest [] [bs] 0.
Definition version_val (a b c : N) (pre build : list N) : value := mkVal KVersion [a; b; c] [pre; build] 0.
Definition uuid_val (u : list N) : value := mkVal KUUID u [] 0.
Definition path_val (cs : list (list N)) : value := mkVal KPath [] cs 0.

(** What is left of a value that was moved out of its variable: nothing; a Version keeps its numbers, a UUID everything. *)
Definition emptied (v : value) : value :=
  match va_kind v with
  | KVersion => mkVal KVersion (va_nums v) [[]; []] 0
  | KUUID => v
  | KBuilder => builder_val [] 0
  | KPath => path_val []
  | k => mkVal k [] [[]] 0
  end.
(** [x = mv(y)]: the values are exchanged, but both Versions have the numbers of [y]. *)
Definition given_back (x y : value) : value :=
  match va_kind x with KVersion => mkVal KVersion (va_nums y) (va_texts x) 0 | _ => x end.

(** The text of a path; the path of the root has one empty component. *)
Definition path_text (cs : list (list N)) : list N := match cs with [[]] => [47] | _ => glue [47] cs end.
(** The pieces of a text that become components: all but a last empty one. *)
Definition copied (ps qs : list (list N)) : Prop := ps = qs ++ [[]] \/ (last ps [] <> [] /\ qs = ps).

(** [does o s m a s']: with the values [s], the operation [o] asks for pieces of memory of the sizes [m] (one after the other)
    and, given them, answers [a] and leaves the values [s']. *)
Inductive does : yop -> state -> list N -> yans -> state -> Prop :=
| do_lock s : does YLock s [] YDone s
| do_unlock s : does YUnlock s [] YDone s
| do_size s n : does YSize s [] (YNum n) s
| do_limit s n : does YLimit s [] (YNum n) s
| do_text s i t : free s i -> does (MkText i t) s [size t] YDone (set s i (text_val t))
| do_literal s i t : free s i -> does (MkLiteral i t) s [] YDone (set s i (text_val t))
| do_copy s i j t : free s i -> has s j (text_val t) -> does (CopyText i j) s [size t] YDone (set s i (text_val t))
| do_copy_built s i j t room : free s i -> has s j (builder_val t room) ->
    does (CopyText i j) s [size t] YDone (set s i (text_val t))
| do_concat s i j k x y : free s i -> has s j (text_val x) -> has s k (text_val y) ->
    does (Concat i j k) s [size x + size y] YDone (set s i (text_val (x ++ y)))
| do_vector s i n : free s i -> does (MkVector i n) s [n] YDone (set s i (vector_val [] n))
| do_vector_of s i bs : free s i -> does (VectorOf i bs) s [size bs] YDone (set s i (vector_val bs (size bs)))
| do_array_of s i bs : free s i -> does (ArrayOf i bs) s [size bs] YDone (set s i (array_val bs))
| do_array s i n : free s i -> does (MkArray i n) s [n] YDone (set s i (array_val (repeat 0 (N.to_nat n))))
| do_copy_vector s i j bs room : free s i -> has s j (vector_val bs room) ->
    does (CopyBytes i j) s [size bs] YDone (set s i (vector_val bs (size bs)))
| do_copy_array s i j bs : free s i -> has s j (array_val bs) -> does (CopyBytes i j) s [size bs] YDone (set s i (array_val bs))
| do_push s i c bs room : has s i (vector_val bs room) -> size bs < room ->
    does (Push i c) s [] YDone (set s i (vector_val (bs ++ [c]) room))
| do_push_full s i c bs room : has s i (vector_val bs room) -> size bs = room -> does (Push i c) s [] (YRefused BasicOverflow) s
| do_pop s i bs c room : has s i (vector_val (bs ++ [c]) room) -> does (Pop i) s [] YDone (set s i (vector_val bs room))
| do_pop_none s i room : has s i (vector_val [] room) -> does (Pop i) s [] YDone s
| do_to_array s i j bs room : free s i -> has s j (vector_val bs room) ->
    does (ToArray i j) s [] YDone (set (set s j (vector_val [] 0)) i (array_val bs))
| do_builder s i n : free s i -> does (MkBuilder i n) s [n] YDone (set s i (builder_val [] n))
| do_append s i t room x : has s i (builder_val t room) -> size t + size x <= room ->
    does (Append i x) s [] YDone (set s i (builder_val (t ++ x) room))
| do_append_full s i t room x : has s i (builder_val t room) -> room < size t + size x -> does (Append i x) s [] YDone s
| do_append_num s i t room v d : has s i (builder_val t room) -> decimal v d -> size t + size d < room ->
    does (AppendNum i v) s [] YDone (set s i (builder_val (t ++ d) room))
| do_append_num_full s i t room v d : has s i (builder_val t room) -> decimal v d -> room <= size t + size d ->
    does (AppendNum i v) s [] YDone s
| do_build s i j t room : free s i -> has s j (builder_val t room) ->
    does (Build i j) s [] YDone (set (set s j (builder_val [] 0)) i (text_val t))
| do_digest s i bs : free s i -> does (MkDigest i bs) s [size bs] YDone (set s i (digest_val bs))
| do_digest_of s i j bs : free s i -> has s j (array_val bs) ->
    does (DigestOf i j) s [] YDone (set (set s j (array_val [])) i (digest_val bs))
| do_digest_text s i j bs : free s i -> has s j (digest_val bs) ->
    does (DigestText i j) s [2 * size bs; 2 * size bs] YDone (set s i (text_val (hex_text bs)))
| do_version s i a b c j k x y : free s i -> has s j (text_val x) -> has (set s j (text_val [])) k (text_val y) ->
    does (MkVersion i a b c j k) s [] YDone (set (set (set s j (text_val [])) k (text_val [])) i (version_val a b c x y))
| do_version_text s i j a b c x y t : free s i -> has s j (version_val a b c x y) -> version_text (mkVersion a b c x y) t ->
    does (VersionText i j) s [size t + 1] YDone (set s i (text_val t))
| do_uuid s i u : free s i -> size u = 16 -> does (MkUUID i u) s [] YDone (set s i (uuid_val u))
| do_uuid_text s i j u : free s i -> has s j (uuid_val u) ->
    does (UUIDText i j) s [36] YDone (set s i (text_val (uuid_text u)))
| do_parse s i j t ps qs cs : free s i -> has s j (text_val t) -> splits [47] t ps -> copied ps qs -> components ps cs ->
    does (ParsePath i j) s (32 * size ps :: map size qs) YDone (set s i (path_val cs))
| do_path_text s i j cs : free s i -> has s j (path_val cs) ->
    does (PathText i j) s [size (path_text cs)] YDone (set s i (text_val (path_text cs)))
| do_move s i j v : free s i -> has s j v -> does (Move i j) s [] YDone (set (set s j (emptied v)) i v)
| do_assign s i j x y : has s i x -> has s j y -> va_kind x = va_kind y -> i <> j ->
    does (Assign i j) s [] YDone (set (set s j (given_back x y)) i y)
| do_assign_self s i x : has s i x -> does (Assign i i) s [] YDone s
| do_swap s i j x y : has s i x -> has s j y -> va_kind x = va_kind y -> does (Swap i j) s [] YDone (set (set s j x) i y)
| do_drop s i v : has s i v -> does (Drop i) s [] YDone (upd s i None)
| do_look s i v : has s i v -> does (Look i) s [] (YSaw (va_kind v) (va_nums v) (va_texts v)) s.
(** The program can contain the operation here: the new object has a free variable, the others have objects of the right class. *)
Definition possible (o : yop) (s : state) : Prop := exists m a s', does o s m a s'.

(** How an operation ends that did not get its memory: nothing has changed and the program is told.  The exception: the toString
    functions return an empty text. *)
Definition fails (o : yop) (s : state) (a : yans) (s' : state) : Prop :=
  match o with
  | DigestText i _ | VersionText i _ | UUIDText i _ | PathText i _ => a = YDone /\ s' = set s i (text_val [])
  | MkBuilder _ _ | MkDigest _ _ => a = YRaised InvalidState /\ s' = s
  | _ => (a = YRefused E_PERM \/ a = YRefused E_NOMEM) /\ s' = s
  end.

(** Arguments of the right types. *)
Definition typed (o : yop) : Prop :=
  match o with
  | MkText _ t | MkLiteral _ t | Append _ t => size t < 2 ^ 16
  | AppendNum _ v => v < 2 ^ 64
  | MkVersion _ a b c _ _ => a < 2 ^ 32 /\ b < 2 ^ 32 /\ c < 2 ^ 32
  | MkUUID _ u => bytes_ok u
  | _ => True
  end.
(** Texts whose length fits the 16 bits of a String; printed digests are empty (C50) and a Path without components has no text (C26). *)
Definition fair (o : yop) (s : state) : Prop :=
  match o with
  | CopyText _ j | Build _ j => forall t room, has s j (builder_val t room) -> size t < 2 ^ 16
  | Concat _ j k => forall x y, has s j (text_val x) -> has s k (text_val y) -> size x + size y < 2 ^ 16
  | DigestText _ j => has s j (digest_val []) \/ forall bs, ~ has s j (digest_val bs)
  | VersionText _ j => forall a b c x y t, has s j (version_val a b c x y) -> version_text (mkVersion a b c x y) t -> size t < 2 ^ 16
  | ParsePath _ j => forall t ps, has s j (text_val t) -> splits [47] t ps -> size ps < 2 ^ 16
  | PathText _ j => forall cs, has s j (path_val cs) -> cs <> [] /\ size (path_text cs) < 2 ^ 16
  | _ => True
  end.

(** The values of a world: what is in use of the memory each object holds. *)
Definition block (h : list (option (list N))) (b : buf) : list N :=
  match b_at b with
  | PNull => []
  | PHeap a => match get h a with Some bs => bs | None => [] end
  | PLit bs => bs
  end.
Definition content (h : list (option (list N))) (b : buf) : list N := ntake (b_use b) (block h b).
Definition room (o : obj) : N := match o_kind o, o_bufs o with KVector, b :: _ => b_len b | _, _ => 0 end.
Definition value_of (h : list (option (list N))) (o : obj) : value :=
  mkVal (o_kind o) (o_nums o) (map (content h) (text_bufs o)) (room o).
Definition shown (w : world) : state := map (option_map (value_of (y_heap w))) (y_vars w).

(** The bytes of the blocks that were taken from the heap and not given back. *)
Fixpoint live_bytes (h : list (option (list N))) : N :=
  match h with [] => 0 | Some bs :: t => size bs + live_bytes t | None :: t => live_bytes t end.
(** The blocks the objects of a program hold, as often as they hold them. *)
Definition buf_blocks (b : buf) : list nat := match b_at b with PHeap a => [a] | _ => [] end.
Definition var_bufs (v : option obj) : list buf := match v with Some o => o_bufs o | None => [] end.
Definition held (w : world) : list nat := flat_map buf_blocks (flat_map var_bufs (y_vars w)).

(** How much the manager can still give. *)
Definition left_over (w : world) : N := y_cap w - y_size w.
Fixpoint sum (m : list N) : N := match m with [] => 0 | n :: t => n + sum t end.
(** The memory [m] was asked for and given. *)
Definition granted (w w' : world) (m : list N) : Prop :=
  (m <> [] -> y_locked w = false) /\ sum m <= left_over w /\ y_calls w' = (y_calls w + length m)%nat /\ y_size w' <= y_size w + sum m.
(** Of the memory [m] some could not be had: the manager is locked, or its limit is reached, or malloc failed. *)
Definition short (ma : machine) (w w' : world) (m : list N) : Prop :=
  m <> [] /\ (y_locked w = true \/ left_over w < sum m \/ exists k, (y_calls w <= k < y_calls w')%nat /\ ma_ok ma k = false).

(** The operations that ask for memory. *)
Definition takes (o : yop) : bool :=
  match o with
  | MkText _ _ | CopyText _ _ | Concat _ _ _ | MkVector _ _ | VectorOf _ _ | ArrayOf _ _ | MkArray _ _ | CopyBytes _ _ | MkBuilder _ _
  | MkDigest _ _ | DigestText _ _ | VersionText _ _ | UUIDText _ _ | ParsePath _ _ | PathText _ _ => true
  | _ => false
  end.

(** The worlds a program can reach with [n] variables and a heap limited to [cap] bytes. *)
Definition reachable (ma : machine) (host_be : bool) (cap : N) (n : nat) (w : world) : Prop :=
  exists os ans, Forall typed os /\ y_run ma host_be os (y_start cap n) = Ret (ans, w).
