(** Path operations when memory can run out, and walking over a path
    (include/solace/path.hpp, src/path.cpp).

    [answers] says what the next allocations get: true is a block, false is a failure; the
    allocations after the end of the list succeed.  Every function returns the answers it has
    not used.  Simplification: the requests of the String copies and the component vectors are
    taken to be refused or granted whole, whatever their size. *)
From Verif Require Import Base StringViewModel StringModel PathModel.

(** include/solace/path.hpp:62-550 and src/path.cpp:32-361: the results of the allocations *)
Definition answers := list bool.
(** include/solace/path.hpp:62-550 and src/path.cpp:32-361: the next allocation *)
Definition ask (m : answers) : bool * answers := match m with [] => (true, []) | b :: t => (b, t) end.

(** src/string.cpp:29-43 makeString: the text of the new String (C26_copy) *)
Definition a_string (m : answers) (s : list N) : result (list N) * answers :=
  let (b, m') := ask m in (if b then Ok s else Err E_NOMEM, m').
(** include/solace/vector.hpp:374-384 makeVector(n): an empty vector for n components *)
Definition a_vector (m : answers) (n : N) : result path * answers :=
  let (b, m') := ask m in (if b then Ok (mkPath [] n) else Err E_NOMEM, m').

(** src/path.cpp:42-55 makePath(StringView): the String, then an array of one element *)
Definition a_single (m : answers) (s : list N) : result path * answers :=
  match a_string m s with
  | (Err e, m1) => (Err e, m1)
  | (Ok t, m1) => match a_vector m1 1 with (Err e, m2) => (Err e, m2) | (Ok _, m2) => (Ok (mkPath [t] 1), m2) end
  end.
(** src/path.cpp:32-39 the object Path::Root *)
Definition a_root (m : answers) : path * answers :=
  match a_single m [] with (Ok p, m') => (p, m') | (Err _, m') => (path_none, m') end.

(** src/path.cpp:62-84, the callback of parse: the error so far, the vector *)
Definition a_parse_step (st : option error * path * answers) (a : list N * N * N) : option error * path * answers :=
  let '(err, v, m) := st in
  let '(c, i, count) := a in
  match err with
  | Some _ => (err, v, m)
  | None =>
      let '(err, v, m) :=
        if (p_cap v =? 0) && negb (count =? 0) then
          match a_vector m count with (Ok v', m') => (None, v', m') | (Err e, m') => (Some e, v, m') end
        else (None, v, m) in
      if (i + 1 =? count) && sv_empty c then (err, v, m) else
      match a_string m c with
      | (Ok t, m') => (err, vpush v t, m')
      | (Err e, m') => (Some e, v, m')
      end
  end.
(** src/path.cpp:58-95 parse *)
Definition a_parse (fuel : nat) (m : answers) (delim s : list N) : outcome (result path) :=
  let! r := sv_split3 fuel delim s in
  let '(err, v, _) := fold_left a_parse_step (fst r) (None, path_none, m) in
  match err with
  | Some e => Ret (Err e)
  | None => Ret (Ok (if size (p_comps v) =? 0 then vpush v [] else v))
  end.

(** An argument of makePath(a, b, ...); a path can be handed over (Path&&), which copies nothing *)
(** include/solace/path.hpp:431-550: an argument of makePath *)
Inductive aarg := AText (s : list N) | APath (p : path) | AMoved (p : path).
(** include/solace/path.hpp:431-550: an argument of makePath *)
Definition arg_of (a : aarg) : parg := match a with AText s => PText s | APath p | AMoved p => PPath p end.
(** include/solace/path.hpp:481-491 joinComponents(Path const&), 450-471 for one text *)
Fixpoint a_copy_all (m : answers) (v : path) (cs : list (list N)) : result path * answers :=
  match cs with
  | [] => (Ok v, m)
  | c :: t => match a_string m c with (Ok s, m') => a_copy_all m' (vpush v s) t | (Err e, m') => (Err e, m') end
  end.
Definition a_join_arg (m : answers) (v : path) (a : aarg) : result path * answers :=
  match a with
  | AText s => a_copy_all m v [s]
  | APath p => a_copy_all m v (p_comps p)
  | AMoved p => (Ok (fold_left vpush (p_comps p) v), m)     (* path.hpp:473-479 *)
  end.
(** include/solace/path.hpp:494-530 joinComponents over the arguments *)
Fixpoint a_join (m : answers) (v : path) (args : list aarg) : result path * answers :=
  match args with
  | [] => (Ok v, m)
  | a :: t => match a_join_arg m v a with (Ok v', m') => a_join m' v' t | (Err e, m') => (Err e, m') end
  end.
(** include/solace/path.hpp:536-550 makePath(args...) *)
Definition a_make (m : answers) (args : list aarg) : result path :=
  match a_vector m (fold_right (fun a n => parg_count (arg_of a) + n) 0 args) with
  | (Err e, _) => Err e
  | (Ok v, m') => fst (a_join m' v args)
  end.

(** src/path.cpp:259-270, the loop body of normalize: a copy that fails is skipped *)
Definition a_normalize_step (st : path * answers) (c : list N) : path * answers :=
  let (v, m) := st in
  if sv_equals c SelfRef then (v, m)
  else if sv_equals c ParentRef && (0 <? size (p_comps v)) then (vpop v, m)
  else match a_string m c with (Ok t, m') => (vpush v t, m') | (Err _, m') => (v, m') end.
(** src/path.cpp:250-273 normalize *)
Definition a_normalize (m : answers) (p : path) : path :=
  match a_vector m (size (p_comps p)) with
  | (Err _, _) => path_none
  | (Ok v, m') => fst (fold_left a_normalize_step (p_comps p) (v, m'))
  end.

(** src/path.cpp:292-299 and 329-335, the loops of getParent and subpath: a copy that fails is skipped *)
Fixpoint a_copy_loop (k : nat) (m : answers) (p v : path) (i : N) : outcome path :=
  match k with
  | O => Ret v
  | S k' =>
      let! c := path_at p i in
      match a_string m c with
      | (Ok t, m') => a_copy_loop k' m' p (vpush v t) (i + 1)
      | (Err _, m') => a_copy_loop k' m' p v (i + 1)
      end
  end.
(** include/solace/array.hpp:388-404, details/array_utils.hpp:102-122 with string.hpp:463-475: copies
    made by [unwrap] of a makeString, which raises *)
Fixpoint a_copy_or_raise (m : answers) (cs : list (list N)) : outcome (list (list N)) :=
  match cs with
  | [] => Ret []
  | c :: t =>
      match a_string m c with
      | (Ok s, m') => let! r := a_copy_or_raise m' t in Ret (s :: r)
      | (Err _, _) => Throws InvalidState
      end
  end.
(** src/path.cpp:276-302 getParent *)
Definition a_getParent (m : answers) (p : path) : outcome path :=
  let n := size (p_comps p) in
  if n <? 2 then
    match a_vector m n with
    | (Err _, _) => Ret path_none
    | (Ok _, m') => let! cs := a_copy_or_raise m' (p_comps p) in Ret (mkPath cs n)
    end
  else
    match a_vector m (n - 1) with
    | (Err _, _) => Ret path_none
    | (Ok v, m') => a_copy_loop (N.to_nat (n - 1)) m' p v 0
    end.
(** src/path.cpp:321-338 subpath, noexcept: [unwrap] of the failed makeVector ends the program *)
Definition a_subpath (m : answers) (p : path) (from to : N) : outcome path :=
  let n := size (p_comps p) in
  let from := N.min from n in
  let to := N.max from (N.min to n) in
  if to <? from then Terminates else
  match a_vector m (to - from) with
  | (Err _, _) => Terminates
  | (Ok v, m') => noexcept (a_copy_loop (N.to_nat (to - from)) m' p v from)
  end.

(** include/solace/path.hpp:235-238, 250-253, 267-270: the checks against a text; [after] are
    bytes behind the String's and the argument's characters (C21) *)
Definition path_startsText (alloc : heap) (p : path) (s : list N) : outcome bool :=
  let! t := path_toString alloc Delimiter p in Ret (sv_startsWith (str_view t) s).
Definition path_endsText (alloc : heap) (p : path) (s : list N) : outcome bool :=
  let! t := path_toString alloc Delimiter p in Ret (sv_endsWith (str_view t) s).
Definition path_containsText (alloc : heap) (p : path) (after s sAfter : list N) : outcome bool :=
  let! t := path_toString alloc Delimiter p in sv_contains (str_view t) after s sAfter.

(** include/solace/path.hpp:62-106, 317-323: an iterator is the components and an index *)
Record piter := mkPIter { pi_index : N; pi_path : path }.
Definition path_begin (p : path) : piter := mkPIter 0 p.
Definition path_end (p : path) : piter := mkPIter (size (p_comps p)) p.
Definition piter_neq (a b : piter) : bool := negb (pi_index a =? pi_index b).
(** src/path.cpp:98-103 *)
Definition piter_next (a : piter) : piter := mkPIter (u64 (pi_index a + 1)) (pi_path a).
(** src/path.cpp:106-109: the checked element access of ArrayView *)
Definition piter_deref (a : piter) : outcome (list N) := path_at (pi_path a) (pi_index a).
(** for (auto c : path) body(c) *)
(** include/solace/path.hpp:62-106, 317-323: the loop over begin() and end() *)
Fixpoint piter_loop {S} (fuel : nat) (body : S -> list N -> S) (it stop : piter) (s : S) : outcome S :=
  if piter_neq it stop then
    match fuel with
    | O => OutOfFuel
    | Datatypes.S f => let! c := piter_deref it in piter_loop f body (piter_next it) stop (body s c)
    end
  else Ret s.
(** include/solace/path.hpp:62-106, 317-323: the loop over begin() and end() *)
Definition path_for {S} (fuel : nat) (body : S -> list N -> S) (p : path) (s : S) : outcome S :=
  piter_loop fuel body (path_begin p) (path_end p) s.
(** include/solace/path.hpp:333-341 forEach: the loop of the component array *)
Definition path_forEach {S} (body : S -> list N -> S) (p : path) (s : S) : S := fold_left body (p_comps p) s.
(** include/solace/path.hpp:343-351 forEach of a path handed over, with a callback that takes every
    component: the components of the path are empty afterwards (String move, C92) *)
Definition path_forEach_move {S} (body : S -> list N -> S) (p : path) (s : S) : S * path :=
  (fold_left body (p_comps p) s, mkPath (map (fun _ => []) (p_comps p)) (p_cap p)).
(** src/path.cpp:244-247 isRelative *)
Definition path_isRelative (p : path) : outcome bool := let! b := path_isAbsolute p in Ret (negb b).
