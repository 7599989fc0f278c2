(** RFC 4648, sections 4 and 5, by bits. *)
From Verif Require Import Base.

(** Most significant bit first. *)
Definition bits (n : nat) (v : N) : list bool :=
  map (fun i => N.testbit v (N.of_nat (n - 1 - i))) (seq 0 n).
Fixpoint bits_value_acc (acc : N) (l : list bool) : N :=
  match l with [] => acc | b :: t => bits_value_acc (2 * acc + (if b then 1 else 0)) t end.
Definition bits_value := bits_value_acc 0.

(** 6-bit groups; the last one is filled with zero bits. *)
Fixpoint sextets (l : list bool) : list N :=
  match l with
  | [] => []
  | a :: b :: c :: d :: e :: f :: rest => bits_value [a; b; c; d; e; f] :: sextets rest
  | short => [bits_value (firstn 6 (short ++ repeat false 6))]
  end.

(** Complete 8-bit groups; left-over bits are dropped. *)
Fixpoint octets (l : list bool) : list N :=
  match l with
  | a :: b :: c :: d :: e :: f :: g :: h :: rest => bits_value [a; b; c; d; e; f; g; h] :: octets rest
  | _ => []
  end.

(** Table 1 / table 2 of the RFC. *)
Definition b64_char (url : bool) (v : N) : N :=
  if v <? 26 then 65 + v                  (* A-Z *)
  else if v <? 52 then 97 + (v - 26)      (* a-z *)
  else if v <? 62 then 48 + (v - 52)      (* 0-9 *)
  else if v =? 62 then (if url then 45 else 43)   (* '-' or '+' *)
  else (if url then 95 else 47).                  (* '_' or '/' *)

(** The text: characters of the groups, '=' (61) up to a multiple of four. *)
Definition b64_text (url : bool) (bs : list N) : list N :=
  let chars := map (b64_char url) (sextets (flat_map (bits 8) bs)) in
  chars ++ repeat 61 (N.to_nat ((4 - N.of_nat (length chars) mod 4) mod 4)).

(** Value of a character of the alphabet. *)
Definition b64_value (url : bool) (c : N) : option N :=
  if (65 <=? c) && (c <=? 90) then Some (c - 65)
  else if (97 <=? c) && (c <=? 122) then Some (c - 97 + 26)
  else if (48 <=? c) && (c <=? 57) then Some (c - 48 + 52)
  else if c =? (if url then 45 else 43) then Some 62
  else if c =? (if url then 95 else 47) then Some 63
  else None.

(** Values of the leading alphabet characters, [None] when no other character
    follows (nothing terminates the text). *)
Fixpoint b64_leading (url : bool) (t : list N) : option (list N) :=
  match t with
  | [] => None
  | c :: t' => match b64_value url c with
               | None => Some []
               | Some v => option_map (cons v) (b64_leading url t')
               end
  end.

(** Bytes denoted by a sequence of 6-bit values. *)
Definition sextet_bytes (vs : list N) : list N := octets (flat_map (bits 6) vs).
