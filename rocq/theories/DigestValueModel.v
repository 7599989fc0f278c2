(** Model of MessageDigest as a value (include/solace/hashing/messageDigest.hpp,
    src/hashing/messageDigest.cpp) in programs with any number of digests: a digest is an
    Array<byte>, and what its members call of Array is [vc_step] of ContainerValueModel.v with
    elements of one byte. *)
From Verif Require Import Base MemViewModel MemoryModel ContainerModel ContainerValueModel StringModel HashModel.

(** include/solace/hashing/messageDigest.hpp:49-140: the operations *)
Inductive dop :=
| DMake (ok : bool) (bs : list N)        (** MessageDigest(MemoryView); [ok]: there is memory *)
| DMove (i : nat)                        (** MessageDigest(MessageDigest&&) *)
| DSwap (i j : nat)                      (** swap, and assignment of an expiring digest *)
| DDrop (i : nat)
| DSize (i : nat) | DBits (i : nat) | DAt (i : nat) (k : N) | DBytes (i : nat)
| DEqual (i j : nat) | DEqualList (i : nat) (vs : list N)
| DText (i : nat) (ok : bool) (alloc : heap).
(** include/solace/hashing/messageDigest.hpp:49-140: the answers *)
Inductive dans := DDone | DRaised (x : exn) | DNum (n : N) | DList (l : list N) | DBool (b : bool) | DStr (s : list N) | DNone.

(** include/solace/array.hpp:46: what an operation of Array says, as an answer *)
Definition of_array (p : world N * list life * cans (A := N)) : world N * dans :=
  let '(w, _, a) := p in
  (w, match a with
      | Answered AOk => DDone
      | Answered (ARaised x) => DRaised x
      | Answered (AError _) => DNone
      | Said b => DBool b
      | Saw _ l => DList l
      | NoSuch => DNone
      end).

(** include/solace/hashing/messageDigest.hpp:49-140, src/hashing/messageDigest.cpp:32-58 *)
Definition d_step (w : world N) (o : dop) : outcome (world N * dans) :=
  let array o := let! p := vc_step N.eqb 1 w o in Ret (of_array p) in
  let on i (f : cont N -> outcome dans) :=
    match get (w_objs w) i with Some (_, c) => let! a := f c in Ret (w, a) | None => Ret (w, DNone) end in
  match o with
  | DMake ok bs =>
      (* messageDigest.cpp:32-34: moveResult() of an error raises (result.hpp:373-379) *)
      if ok then array (Plain (MakeArrOf (map Some bs))) else Ret (w, DRaised InvalidState)
  | DMove i => array (Plain (MoveC i))       (* messageDigest.hpp:50 *)
  | DSwap i j => array (Plain (SwapC i j))   (* messageDigest.hpp:58-67, 128-131 *)
  | DDrop i => array (Plain (DropC i))
  | DSize i => on i (fun c => Ret (DNum (arr_size c)))
  | DBits i => on i (fun c => Ret (DNum (u64 (arr_size c * 8))))   (* messageDigest.hpp:73-75 *)
  | DAt i k =>
      (* messageDigest.hpp:85-89 *)
      on i (fun c => if k <? arr_size c then let! b := elem_at 1 c k in Ret (DNum b) else Ret (DRaised IndexOutOfRange))
  | DBytes i => array (LookC i)
  | DEqual i j => array (EqualC i j)
  | DEqualList i vs => array (EqualList i vs)
  | DText i ok alloc => on i (fun c => let! l := contents_of 1 c in let! s := digest_toString ok alloc l in Ret (DStr (str_view s)))
  end.
(** include/solace/hashing/messageDigest.hpp:49-140: a program; the digests at its end and all answers *)
Fixpoint d_run (w : world N) (os : list dop) : outcome (world N * list dans) :=
  match os with
  | [] => Ret (w, [])
  | o :: t => let! p := d_step w o in let! q := d_run (fst p) t in Ret (fst q, snd p :: snd q)
  end.
