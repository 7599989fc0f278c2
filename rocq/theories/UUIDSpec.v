(** The textual form of RFC 4122 section 3: groups of 8-4-4-4-12 hexadecimal digits
    separated by '-' (45), printed in lower case. *)
From Verif Require Import Base ByteIOSpec Base16Spec.

Definition is_uuid (u : list N) : Prop := length u = 16%nat /\ bytes_ok u.

Definition uuid_text (u : list N) : list N :=
  hex_text (section u 0 4) ++ [45] ++ hex_text (section u 4 2) ++ [45] ++ hex_text (section u 6 2) ++ [45] ++
  hex_text (section u 8 2) ++ [45] ++ hex_text (section u 10 6).

Definition lower (c : N) : N := if (65 <=? c) && (c <=? 90) then c + 32 else c.

(** A text of 36 characters with dashes at, and only at, indices 8, 13, 18 and 23. *)
Definition dash_positions (t : list N) : Prop :=
  length t = 36%nat /\
  forall i, (i < 36)%nat -> (nth i t 0 = 45 <-> In i [8; 13; 18; 23]%nat).
