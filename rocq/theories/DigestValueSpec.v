(** Specification vocabulary for C155: digests as values. *)
From Verif Require Import Base BaseLemmas MemoryModel DigestValueModel.

Fixpoint same_bytes (l l' : list N) : bool :=
  match l, l' with
  | [], [] => true
  | x :: t, y :: t' => (x =? y) && same_bytes t t'
  | _, _ => false
  end.

(** The operations on byte strings; the numbers of digests that are no more give [None]. *)
Definition d_says (vs : list (option (list N))) (o : dop) : list (option (list N)) * dans :=
  let on i (f : list N -> dans) := match get vs i with Some l => (vs, f l) | None => (vs, DNone) end in
  match o with
  | DMake true bs => (vs ++ [Some bs], DDone)
  | DMake false _ => (vs, DRaised InvalidState)
  | DMove i => match get vs i with Some l => (upd vs i (Some []) ++ [Some l], DDone) | None => (vs, DDone) end
  | DSwap i j => match get vs i, get vs j with Some l, Some l' => (upd (upd vs i (Some l')) j (Some l), DDone) | _, _ => (vs, DDone) end
  | DDrop i => match get vs i with Some _ => (upd vs i None, DDone) | None => (vs, DDone) end
  | DSize i => on i (fun l => DNum (N.of_nat (length l)))
  | DBits i => on i (fun l => DNum (8 * N.of_nat (length l)))
  | DAt i k => on i (fun l => match nth_error l (N.to_nat k) with Some b => DNum b | None => DRaised IndexOutOfRange end)
  | DBytes i => on i DList
  | DEqual i j => match get vs i, get vs j with Some l, Some l' => (vs, DBool (same_bytes l l')) | _, _ => (vs, DNone) end
  | DEqualList i l' => on i (fun l => DBool (same_bytes l l'))
  | DText i _ _ => on i (fun _ => DStr [])
  end.
Fixpoint d_tells (vs : list (option (list N))) (os : list dop) : list (option (list N)) * list dans :=
  match os with
  | [] => (vs, [])
  | o :: t => let p := d_says vs o in let q := d_tells (fst p) t in (fst q, snd p :: snd q)
  end.

(** Bytes, and no more than can be counted in bits. *)
Definition d_fits (o : dop) : Prop :=
  match o with DMake _ bs => bytes_ok bs /\ N.of_nat (length bs) < 2 ^ 61 | _ => True end.
