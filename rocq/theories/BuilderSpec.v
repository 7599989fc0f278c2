(** What appending pieces of text to a bounded buffer means. *)
From Verif Require Import Base FmtSpec BuilderModel.

(** The characters a piece contributes: numbers in decimal, a wide character as its
    bytes before the first zero byte. *)
Definition renders (p : piece) (t : list N) : Prop :=
  match p with
  | PText s => t = s
  | PChar c => t = [c]
  | PWide ch => Forall (fun b => b <> 0) t /\ (length t <= 4)%nat /\
                exists r, ch = t ++ r /\ (length t = 4%nat \/ hd 0 r = 0)
  | PNum v => decimal v t
  end.

(** Arguments of the right types. *)
Definition piece_ok (p : piece) : Prop :=
  match p with
  | PText s => size s < 2 ^ 16
  | PChar c => is_byte c
  | PWide ch => length ch = 4%nat
  | PNum v => v < 2 ^ 64
  end.

(** Room a piece needs beyond its own characters: numbers are formatted with a
    terminating NUL. *)
Definition spare (p : piece) : N := match p with PNum _ => 1 | _ => 0 end.

(** Text held by a buffer of [cap] bytes after appending pieces with the given
    renderings: a piece that does not fit is dropped as a whole. *)
Fixpoint accumulate (cap : N) (acc : list N) (ps : list (piece * list N)) : list N :=
  match ps with
  | [] => acc
  | (p, t) :: ps' =>
      accumulate cap (if size acc + size t + spare p <=? cap then acc ++ t else acc) ps'
  end.
