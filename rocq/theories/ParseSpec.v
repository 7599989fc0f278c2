(** What the parsers of UUIDs and versions accept, described by the shape of the text. *)
From Verif Require Import Base Base16Spec FmtSpec StringSpec.

(** ** UUID texts: dashes anywhere between pairs of hexadecimal digits *)
Inductive token := Dash | Pair (a b : N).
Definition token_ok (t : token) : Prop :=
  match t with Dash => True | Pair a b => digit_value a <> None /\ digit_value b <> None end.
Definition token_text (t : token) : list N := match t with Dash => [45] | Pair a b => [a; b] end.
Definition token_bytes (t : token) : list N :=
  match t with
  | Dash => []
  | Pair a b => match digit_value a, digit_value b with Some h, Some l => [16 * h + l] | _, _ => [] end
  end.
(** The text of a row of tokens and the bytes it denotes. *)
Definition row_text (ts : list token) : list N := flat_map token_text ts.
Definition row_bytes (ts : list token) : list N := flat_map token_bytes ts.
(** The value of a UUID of which [bs] was stored: what is left is indeterminate. *)
Definition stored (bs : list N) : list (option N) := map Some bs ++ repeat None (16 - length bs).

(** ** Numerals as the C library reads them: white space, a sign, digits; what follows the
    digits is [rest].  Too large a number counts as the largest, a minus sign negates
    modulo 2^64. *)
Definition space (c : N) : Prop := 9 <= c <= 13 \/ c = 32.
Definition no_digit_first (s : list N) : Prop := match s with [] => True | c :: _ => ~ digit c end.
Definition numeral (s : list N) (v : N) (rest : list N) : Prop :=
  exists ws sg ds, s = ws ++ sg ++ ds ++ rest /\ Forall space ws /\ In sg [[]; [43]; [45]] /\
    ds <> [] /\ Forall digit ds /\ no_digit_first rest /\
    v = (if 2 ^ 64 <=? dec_value ds then 2 ^ 64 - 1
         else match sg with [45] => (2 ^ 64 - dec_value ds) mod 2 ^ 64 | _ => dec_value ds end).
(** A text that does not begin with a numeral counts as 0 and nothing is used of it. *)
Definition reads (s : list N) (v : N) (rest : list N) : Prop :=
  numeral s v rest \/ ((forall v' rest', ~ numeral s v' rest') /\ v = 0 /\ rest = s).

(** The first two dots of a text cut it into [x], [y] and [z]. *)
Definition dotted (s x y z : list N) : Prop :=
  s = x ++ 46 :: y ++ 46 :: z /\ ~ In 46 x /\ ~ In 46 y.
(** The tags after the third number: at most one plus sign; dashes around the first tag do
    not belong to it. *)
Definition tags (s pre build : list N) : Prop :=
  (~ In 43 s /\ trimmed (fun c => c = 45) s pre /\ build = []) \/
  (exists x, s = x ++ 43 :: build /\ ~ In 43 x /\ ~ In 43 build /\ trimmed (fun c => c = 45) x pre).
