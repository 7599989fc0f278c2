(** Specification vocabulary for a Dictionary whatever throws: a column of keys and a column
    of values. *)
From Verif Require Import Base DictSpec.

Record columns (K V : Type) := mkColumns { col_keys : list K; col_values : list V }.
Arguments mkColumns {K V}. Arguments col_keys {K V}. Arguments col_values {K V}.

(** The value in the row of the first key that equals [k]. *)
Fixpoint row {K V} (eqb : K -> K -> bool) (k : K) (ks : list K) (vs : list V) : option V :=
  match ks, vs with
  | k' :: ks', v :: vs' => if eqb k' k then Some v else row eqb k ks' vs'
  | _, _ => None
  end.
(** One operation on columns of at most [kcap] keys and [vcap] values: the value is put
    first, and it stays when making the key throws. *)
Definition col_op {K V} (eqb : K -> K -> bool) (kcap vcap : N) (c : columns K V) (o : dop K V) : columns K V * dans V :=
  match o with
  | DPut k v =>
      if vcap <=? N.of_nat (length (col_values c)) then (c, DRefused BasicOverflow) else
      match v with
      | None => (c, DThrew UserException)
      | Some v =>
          if kcap <=? N.of_nat (length (col_keys c)) then (c, DRefused BasicOverflow) else
          match k with
          | None => (mkColumns (col_keys c) (col_values c ++ [v]), DThrew UserException)
          | Some k => (mkColumns (col_keys c ++ [k]) (col_values c ++ [v]), DDone)
          end
      end
  | DFind k => (c, DFound (row eqb k (col_keys c) (col_values c)))
  | DContains k => (c, DHas (existsb (eqb k) (col_keys c)))
  end.
(** The answers of a whole history, each with the columns after it. *)
Fixpoint col_run {K V} (eqb : K -> K -> bool) (kcap vcap : N) (c : columns K V) (ops : list (dop K V)) : list (columns K V * dans V) :=
  match ops with
  | [] => []
  | o :: ops' => let p := col_op eqb kcap vcap c o in p :: col_run eqb kcap vcap (fst p) ops'
  end.
