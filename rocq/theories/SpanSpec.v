(** Specification vocabulary for VariableSpan. *)
From Verif Require Import Base MemViewModel ByteIOModel ByteIOSpec SpanModel.

(** The byte order of the size field. *)
Definition prefix_be (host_be : bool) (enc : encoding) : bool :=
  match enc with Natural => host_be | LittleEndian => false | BigEndian => true end.
(** Size-prefixed records, one after the other. *)
Definition serialised (host_be : bool) (enc : encoding) (w : width) (recs : list (list N)) : list N :=
  concat (map (fun r => order_bytes (prefix_be host_be enc) (wbytes w) (size r) ++ r) recs).

(** What [n] records read from arbitrary bytes are: a record is cut short by the end of the
    data; when not even the size field is there, the record is empty. *)
Fixpoint records (be : bool) (w : width) (n : nat) (bytes : list N) : list (list N) :=
  match n with
  | O => []
  | S n' =>
      if (length bytes <? wbytes w)%nat then [] :: records be w n' bytes else
      let len := N.to_nat (order_value be (firstn (wbytes w) bytes)) in
      let rest := skipn (wbytes w) bytes in
      firstn len rest :: records be w n' (skipn len rest)
  end.

(** View [a] lies inside view [b]. *)
Definition inside (a b : view) : Prop :=
  match v_addr a, v_addr b with
  | Some p, Some q => q <= p /\ p + v_size a <= q + v_size b
  | None, None => v_size a = 0
  | _, _ => False
  end.

(** The elements at positions a .. b-1. *)
Definition between {A} (l : list A) (a b : nat) : list A := firstn (b - a) (skipn a l).
