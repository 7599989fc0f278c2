(** Hexadecimal text, independent of the model's tables. *)
From Verif Require Import Base.

(** Lower-case digit characters: '0' = 48, 'a' = 97. *)
Definition hex_digit (n : N) : N := if n <? 10 then 48 + n else 97 + (n - 10).

Definition hex_text (bs : list N) : list N :=
  flat_map (fun b => [hex_digit (b / 16); hex_digit (b mod 16)]) bs.

(** Value of a digit character in either case. *)
Definition digit_value (c : N) : option N :=
  if (48 <=? c) && (c <=? 57) then Some (c - 48)
  else if (97 <=? c) && (c <=? 102) then Some (c - 97 + 10)
  else if (65 <=? c) && (c <=? 70) then Some (c - 65 + 10)
  else None.

(** Bytes denoted by a text; [None] for odd length or a non-digit. *)
Fixpoint hex_value (t : list N) : option (list N) :=
  match t with
  | [] => Some []
  | [_] => None
  | a :: b :: t' =>
      match digit_value a, digit_value b, hex_value t' with
      | Some h, Some l, Some r => Some (16 * h + l :: r)
      | _, _, _ => None
      end
  end.

(** Bytes denoted by the leading digit pairs. *)
Fixpoint hex_prefix (t : list N) : list N :=
  match t with
  | a :: b :: t' =>
      match digit_value a, digit_value b with
      | Some h, Some l => 16 * h + l :: hex_prefix t'
      | _, _ => []
      end
  | _ => []
  end.

(** 7-bit text *)
Definition ascii7 (t : list N) : Prop := Forall (fun c => c < 128) t.
