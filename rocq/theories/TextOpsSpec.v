(** What comparing texts and measuring them means. *)
From Verif Require Import Base StringModel FmtSpec TextOpsModel.

(** The text a user sees behind an operand: a C string ends at its first zero byte, a
    null pointer is the empty text. *)
Definition shows (o : operand) (t : list N) : Prop :=
  match o with
  | OStr s => size t < 2 ^ 16 /\ st_size s = size t /\ exists unused, st_buf s = t ++ unused
  | OView s | OLit s => size t < 2 ^ 16 /\ s = t
  | OCstr None => t = []
  | OCstr (Some m) => ~ In 0 t /\ exists after, m = t ++ 0 :: after
  end.

(** A [const char*]. *)
Definition is_cstr (o : operand) : Prop := match o with OCstr _ => True | _ => False end.

(** The pairs of operands the library lets a program compare. *)
Definition comparable (x y : operand) : Prop :=
  match x, y with
  | OCstr _, (OStr _ | OView _) | (OStr _ | OView _), OCstr _ => True
  | OCstr _, _ | _, OCstr _ => False
  | _, _ => True
  end.

(** The characters an item adds: those of a string in quotes before its first zero. *)
Definition item_text (i : item) (t : list N) : Prop :=
  match i with
  | IChar c => t = [c]
  | IText s => t = s
  | INum v => decimal v t
  | IQuoted s => ~ In 0 t /\ exists after, s ++ [0] = t ++ 0 :: after
  end.

(** Arguments of the right types. *)
Definition item_ok (i : item) : Prop :=
  match i with
  | IChar c => is_byte c
  | IText s => size s < 2 ^ 16
  | INum v => v < 2 ^ 64
  | IQuoted s => size s + 1 < 2 ^ 16
  end.

(** The sum of the measured sizes, the buffer a user would reserve. *)
Fixpoint measured (l : list item) : N :=
  match l with [] => 0 | i :: l' => sb_measure_item i + measured l' end.

(** Every number comes after a string in quotes or before something not empty. *)
Definition numbers_have_room (l : list item) : Prop :=
  forall before v after, l = before ++ INum v :: after ->
    (exists s, In (IQuoted s) before) \/ Exists (fun i => i <> IText []) after.
