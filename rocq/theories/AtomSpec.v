(** Atoms as short strings. *)
From Verif Require Import Base LexSpec.

(** Characters an atom can hold faithfully: 7-bit and not NUL. *)
Definition atom_text (s : list N) : Prop := (length s <= 8)%nat /\ Forall (fun c => 0 < c < 128) s.

(** The string a NUL terminated buffer holds. *)
Fixpoint c_string (buf : list N) : list N :=
  match buf with
  | [] => []
  | c :: t => if c =? 0 then [] else c :: c_string t
  end.
