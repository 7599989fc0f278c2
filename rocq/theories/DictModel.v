(** Model of Dictionary<K, V> (include/solace/dictionary.hpp): two vectors, keys and values.

    [szk], [szv] are the sizes of the types.  A constructor of a key or of a value given
    [None] throws. *)
From Verif Require Import Base MemViewModel MemoryModel ContainerModel.

(** include/solace/dictionary.hpp:212-214 *)
Record dict (K V : Type) := mkDict { d_keys : cont K; d_values : cont V }.
Arguments mkDict {K V}. Arguments d_keys {K V}. Arguments d_values {K V}.

(** include/solace/dictionary.hpp:127: default constructed; 237-244: on two memory resources *)
Definition dict_empty_new {K V} : dict K V := mkDict (mkCont no_buf 0) (mkCont no_buf 0).
Definition dict_make {K V} (szk szv kbytes vbytes : N) : dict K V :=
  mkDict (mkCont (raw_buf szk kbytes) 0) (mkCont (raw_buf szv vbytes) 0).
(** include/solace/dictionary.hpp:251-267: for [n] entries (memory is available) *)
Definition dict_make_n {K V} (szk szv n : N) : dict K V := dict_make szk szv (u64 (n * szk)) (u64 (n * szv)).

(** include/solace/dictionary.hpp:134-139 *)
Definition dict_empty {K V} (d : dict K V) : bool := vec_empty (d_values d).
Definition dict_size {K V} (d : dict K V) : N := vec_size (d_values d).
Definition dict_capacity {K V} (szv : N) (d : dict K V) : N := vec_capacity szv (d_values d).
Definition dict_keys {K V} (szk : N) (d : dict K V) : outcome (list K) := contents_of szk (d_keys d).
Definition dict_values {K V} (szv : N) (d : dict K V) : outcome (list V) := contents_of szv (d_values d).
(** include/solace/dictionary.hpp:141-143, vector.hpp: contains, arrayView.hpp:254-256 *)
Definition dict_contains {K V} (eqb : K -> K -> bool) (szk : N) (d : dict K V) (k : K) : outcome bool :=
  let! o := elem_indexOf eqb szk (d_keys d) k in Ret (match o with Some _ => true | None => false end).

(** include/solace/dictionary.hpp:145-176: put, both overloads *)
Definition dict_put {K V} (szk szv : N) (next : nat) (d : dict K V) (key : option K) (value : option V) : outcome (dict K V * nat * ans) :=
  let! p := vec_emplace szv next (d_values d) value in
  let '(vals, _, nx, a) := p in
  match a with
  | AOk =>
      let! q := vec_emplace szk nx (d_keys d) key in
      let '(ks, _, nx', b) := q in
      match b with
      | AOk => Ret (mkDict ks vals, nx', AOk)
      | AError e => let! r := vec_pop szv vals in Ret (mkDict ks (fst r), nx', AError e)
      | ARaised x => Ret (mkDict ks vals, nx', ARaised x)
      end
  | _ => Ret (mkDict (d_keys d) vals, nx, a)
  end.

(** include/solace/dictionary.hpp:179-204: find; the iterator over the values is advanced
    without looking at where they end *)
Fixpoint find_loop {K V} (eqb : K -> K -> bool) (k : K) (ks : list (slot K)) (vs : list (slot V)) : outcome (option V) :=
  match ks with
  | [] => Ret None
  | None :: _ => UB
  | Some e :: ks' =>
      if eqb (snd e) k then match vs with Some v :: _ => Ret (Some (snd v)) | _ => UB end
      else find_loop eqb k ks' (tl vs)
  end.
Definition dict_find {K V} (eqb : K -> K -> bool) (szk : N) (d : dict K V) (k : K) : outcome (option V) :=
  find_loop eqb k (elems szk (d_keys d)) (b_slots (c_buf (d_values d))).

(** include/solace/dictionary.hpp:76-120, 206-210: iteration, both iterators advance
    together and the loop ends when both are at the end *)
Fixpoint entries_loop {K V} (ks : list (slot K)) (vs : list (slot V)) : outcome (list (K * V)) :=
  match ks, vs with
  | [], [] => Ret []
  | Some k :: ks', Some v :: vs' => let! r := entries_loop ks' vs' in Ret ((snd k, snd v) :: r)
  | _, _ => UB
  end.
Definition dict_entries {K V} (szk szv : N) (d : dict K V) : outcome (list (K * V)) :=
  entries_loop (elems szk (d_keys d)) (elems szv (d_values d)).
