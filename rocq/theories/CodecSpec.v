(** What writing a text piece by piece into a bounded writer leaves behind. *)
From Verif Require Import Base ByteIOModel ByteIOSpec.

(** Bytes that may still be written below the limit. *)
Definition room (w : writer) : N := w_lim w - w_pos w.

(** After a refused write of [bs]: position and limit are as before; the bytes
    behind the position hold [bs] when they fit the buffer (though not the limit). *)
Definition refused (w : writer) (bs : list N) : writer :=
  if w_pos w + size bs <=? size (w_buf w)
  then mkWriter (w_pos w) (w_lim w) (spliced (w_buf w) (w_pos w) bs)
  else w.

(** [t] written in pieces of [k] bytes: all of it when there is room; otherwise
    the pieces that fit, an error, and the refused piece. *)
Definition in_pieces (k : N) (w : writer) (t : list N) : result unit * writer :=
  if size t <=? room w then (Ok tt, appended w t)
  else let done := N.to_nat (k * (room w / k)) in
       (Err E_Overflow, refused (appended w (firstn done t)) (firstn (N.to_nat k) (skipn done t))).

(** First one text, then - if that worked - another. *)
Definition then_pieces (r : result unit * writer) (k : N) (t : list N) : result unit * writer :=
  match r with
  | (Ok _, w) => in_pieces k w t
  | (Err e, w) => (Err e, w)
  end.

(** Decoding [vs] sextets: the bytes of all groups of four characters but the last
    group (which may be complete or not) are written three at a time, the bytes of
    the last group one by one. *)
Definition grouped (vs : list N) : nat := 3 * N.to_nat ((size vs - 1) / 4).
