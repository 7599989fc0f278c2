(** Decimal numerals. *)
From Verif Require Import Base.

Definition digit (c : N) : Prop := 48 <= c <= 57.

(** Positional value of a row of digit characters. *)
Fixpoint dec_value_acc (acc : N) (ds : list N) : N :=
  match ds with [] => acc | c :: t => dec_value_acc (acc * 10 + (c - 48)) t end.
Definition dec_value (ds : list N) : N := dec_value_acc 0 ds.

(** [ds] is the decimal numeral of [v]: digits only, no leading zero (except "0"). *)
Definition decimal (v : N) (ds : list N) : Prop :=
  ds <> [] /\ Forall digit ds /\ dec_value ds = v /\ (hd 48 ds = 48 -> ds = [48]).
