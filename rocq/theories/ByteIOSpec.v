(** What a user expects of a read cursor and a write cursor: ordinary unbounded
    arithmetic over a list of bytes, no wrap-around and no pointer. *)
From Verif Require Import Base ByteIOModel.

(** Byte [i] of a little-endian rendering is digit [i] in base 256. *)
Definition le_bytes (n : nat) (v : N) : list N :=
  map (fun i => (v / 256 ^ N.of_nat i) mod 256) (seq 0 n).
Definition be_bytes (n : nat) (v : N) : list N := rev (le_bytes n v).
Definition order_bytes (be : bool) (n : nat) (v : N) : list N :=
  if be then be_bytes n v else le_bytes n v.

(** The value a byte sequence denotes in each order (positional notation). *)
Fixpoint be_value_acc (acc : N) (bs : list N) : N :=
  match bs with [] => acc | b :: t => be_value_acc (acc * 256 + b) t end.
Definition order_value (be : bool) (bs : list N) : N :=
  be_value_acc 0 (if be then bs else rev bs).

(** Abstract read cursor: position, limit, bytes. *)
Record cursor := mkCursor { c_pos : N; c_lim : N; c_bytes : list N }.

Definition section (l : list N) (from n : N) : list N :=
  firstn (N.to_nat n) (skipn (N.to_nat from) l).

(** One abstract operation; [None] means the caller broke the contract of
    limit() ("position must not exceed the new limit"). *)
Definition c_step (c : cursor) (op : rop) : option (result rout * cursor) :=
  let fail := Some (Err E_Overflow, c) in
  let pos := c_pos c in let lim := c_lim c in let l := c_bytes c in
  match op with
  | RLimit n => if N.of_nat (length l) <? n then fail
                else if n <? pos then None
                else Some (Ok OUnit, mkCursor pos n l)
  | RPosition n => if lim <? n then fail else Some (Ok OUnit, mkCursor n lim l)
  | RAdvance n => if lim <? pos + n then fail else Some (Ok OUnit, mkCursor (pos + n) lim l)
  | RGet => if lim <? pos + 1 then fail
            else Some (Ok (OByte (nth (N.to_nat pos) l 0)), mkCursor (pos + 1) lim l)
  | RGetAt p => if lim <? p + 1 then fail else Some (Ok (OByte (nth (N.to_nat p) l 0)), c)
  | RRead n => if lim <? pos + n then fail
               else Some (Ok (OBytes (section l pos n)), mkCursor (pos + n) lim l)
  | RReadAt o n => if lim <? o + n then fail else Some (Ok (OBytes (section l o n)), c)
  | RReadInt be w =>
      let n := N.of_nat (wbytes w) in
      if lim <? pos + n then fail
      else Some (Ok (OInt (order_value be (section l pos n))), mkCursor (pos + n) lim l)
  | RRewind => Some (Ok OUnit, mkCursor 0 lim l)
  end.

Fixpoint c_run (c : cursor) (ops : list rop) : option (list (result rout) * cursor) :=
  match ops with
  | [] => Some ([], c)
  | op :: ops' =>
      match c_step c op with
      | None => None
      | Some (o, c') => match c_run c' ops' with
                        | None => None
                        | Some (os, c'') => Some (o :: os, c'')
                        end
      end
  end.

(** Operation arguments are size_type values. *)
Definition rop_ok (op : rop) : Prop :=
  match op with
  | RLimit n | RPosition n | RAdvance n | RGetAt n | RRead n => n < 2 ^ 64
  | RReadAt o n => o < 2 ^ 64 /\ n < 2 ^ 64
  | _ => True
  end.

(** Replacing [length bs] bytes of [l] from index [pos] on. *)
Definition spliced (l : list N) (pos : N) (bs : list N) : list N :=
  firstn (N.to_nat pos) l ++ bs ++ skipn (N.to_nat pos + length bs) l.

(** Abstract write cursor; a write that does not fit below the limit must fail
    and change nothing. *)
Record wcursor := mkWCursor { wc_pos : N; wc_lim : N; wc_bytes : list N }.

Definition wc_write (c : wcursor) (bs : list N) : result unit * wcursor :=
  if wc_lim c <? wc_pos c + N.of_nat (length bs) then (Err E_Overflow, c)
  else (Ok tt, mkWCursor (wc_pos c + N.of_nat (length bs)) (wc_lim c) (spliced (wc_bytes c) (wc_pos c) bs)).

(** The ideal abstract write cursor (property C05 in full). *)
Definition wc_step (host_be : bool) (c : wcursor) (op : wop) : option (result unit * wcursor) :=
  let fail := Some (Err E_Overflow, c) in
  let pos := wc_pos c in let lim := wc_lim c in let l := wc_bytes c in
  match op with
  | WLimit n => if N.of_nat (length l) <? n then fail
                else if n <? pos then None
                else Some (Ok tt, mkWCursor pos n l)
  | WPosition n => if lim <? n then fail else Some (Ok tt, mkWCursor n lim l)
  | WAdvance n => if lim <? pos + n then fail else Some (Ok tt, mkWCursor (pos + n) lim l)
  | WWrite bs => Some (wc_write c bs)
  | WWriteInt be w v => Some (wc_write c (order_bytes be (wbytes w) v))
  | WWriteRaw w v => Some (wc_write c (order_bytes host_be (wbytes w) v))
  | WRewind => Some (Ok tt, mkWCursor 0 lim l)
  | WClear => Some (Ok tt, mkWCursor 0 (N.of_nat (length l)) l)
  | WFlip => Some (Ok tt, mkWCursor 0 pos l)
  end.

Fixpoint wc_run (host_be : bool) (c : wcursor) (ops : list wop) : option (list (result unit) * wcursor) :=
  match ops with
  | [] => Some ([], c)
  | op :: ops' =>
      match wc_step host_be c op with
      | None => None
      | Some (o, c') => match wc_run host_be c' ops' with
                        | None => None
                        | Some (os, c'') => Some (o :: os, c'')
                        end
      end
  end.

Definition wop_ok (op : wop) : Prop :=
  match op with
  | WLimit n | WPosition n | WAdvance n => n < 2 ^ 64
  | WWrite bs => N.of_nat (length bs) < 2 ^ 64
  | _ => True
  end.

(** A history in which the limit is never lowered. *)
Definition never_lowers_limit (op : wop) : Prop :=
  match op with WLimit _ | WFlip => False | _ => True end.

(** Records: a sequence of typed fields (C07). *)
Inductive field := FInt (be : bool) (w : width) (v : N) | FBytes (bs : list N).
Definition field_ok (f : field) : Prop :=
  match f with FInt _ w v => v < 256 ^ N.of_nat (wbytes w) | FBytes bs => True end.
Definition field_size (f : field) : N :=
  match f with FInt _ w _ => N.of_nat (wbytes w) | FBytes bs => N.of_nat (length bs) end.
Definition record_size (fs : list field) : N := fold_right (fun f n => field_size f + n) 0 fs.
(** How it is written, and how the reader asks for a field of the same type. *)
Definition put_field (f : field) : wop :=
  match f with FInt be w v => WWriteInt be w v | FBytes bs => WWrite bs end.
Definition get_field (f : field) : rop :=
  match f with FInt be w _ => RReadInt be w | FBytes bs => RRead (N.of_nat (length bs)) end.
Definition field_value (f : field) : result rout :=
  match f with FInt _ _ v => Ok (OInt v) | FBytes bs => Ok (OBytes bs) end.

(** A writer as its constructors leave it and contract-respecting use keeps it. *)
Definition writer_ok (w : writer) : Prop :=
  w_pos w <= w_lim w /\ w_lim w <= N.of_nat (length (w_buf w)) /\ N.of_nat (length (w_buf w)) < 2 ^ 64.

(** The writer after [bs] has been appended: nothing else in its buffer changed. *)
Definition appended (w : writer) (bs : list N) : writer :=
  mkWriter (w_pos w + N.of_nat (length bs)) (w_lim w) (spliced (w_buf w) (w_pos w) bs).
