(** A UUID is a number below 2^128.  What each operation does to numbers and what it answers. *)
From Verif Require Import Base Base16Spec UUIDSpec UUIDProgModel.

(** Bytes read as a number, the first one most significant. *)
Definition number (bs : list N) : N := fold_left (fun v b => 256 * v + b) bs 0.

(** The [k] bytes from the [i]-th on of a 16 byte number, as a number; the same bytes replaced. *)
Definition part (v i k : N) : N := (v / 256 ^ (16 - i - k)) mod 256 ^ k.
Definition replaced (v i k x : N) : N :=
  v - part v i k * 256 ^ (16 - i - k) + x * 256 ^ (16 - i - k).

(** The [k]-th of its 32 hexadecimal digits. *)
Definition digit (v : N) (k : nat) : N := hex_digit ((v / 16 ^ (31 - N.of_nat k)) mod 16).
Definition digits (v : N) (from n : nat) : list N := map (digit v) (seq from n).
Definition number_text (v : N) : list N :=
  digits v 0 8 ++ [45] ++ digits v 8 4 ++ [45] ++ digits v 12 4 ++ [45] ++ digits v 16 4 ++ [45] ++ digits v 20 12.

(** The number a text with dashes denotes. *)
Fixpoint text_number (v : N) (t : list N) : option N :=
  match t with
  | [] => Some v
  | c :: t' => if c =? 45 then text_number v t'
               else match digit_value c with Some d => text_number (16 * v + d) t' | None => None end
  end.

Fixpoint set_at (l : list N) (a : nat) (x : N) : list N :=
  match l, a with
  | [], _ => []
  | _ :: t, O => x :: t
  | y :: t, S a' => y :: set_at t a' x
  end.

Definition one (vs : list N) (a : N) (f : N -> list N * uans) : list N * uans :=
  match nth_error vs (N.to_nat a) with Some v => f v | None => (vs, ANoObject) end.
Definition two (vs : list N) (a b : N) (f : N -> N -> list N * uans) : list N * uans :=
  one vs a (fun v => one vs b (fun w => f v w)).
Definition put (vs : list N) (a x : N) : list N := set_at vs (N.to_nat a) x.

Definition sstep (vs : list N) (o : uop) : list N * uans :=
  match o with
  | UNull => (vs ++ [0], ADone)
  | UFrom bytes => (vs ++ [number (firstn 16 bytes)], ADone)
  | UMake bytes => if (16 <=? length bytes)%nat then (vs ++ [number (firstn 16 bytes)], ADone) else (vs, AThrew AssertFailed)
  | UParse text _ => match text_number 0 text with Some v => (vs ++ [v], ADone) | None => (vs, ARefused) end
  | UCopy a | UMove a => one vs a (fun v => (vs ++ [v], ADone))
  | UAssign a b => two vs a b (fun v w => (put vs a w, ADone))
  | UMoveAssign a b | USwap a b => two vs a b (fun v w => (put (put vs a w) b v, ADone))
  | USet a i x => one vs a (fun v => if i <? 16 then (put vs a (replaced v i 1 x), ADone) else (vs, AThrew IndexOutOfRange))
  | UFill a x => one vs a (fun v => (put vs a (number (repeat x 16)), ADone))
  | UWrite a b from to => two vs a b (fun v w =>
      let last := N.min to 16 in let first := N.min from last in
      (put vs a (replaced v 0 (last - first) (part w first (last - first))), ADone))
  | QNull a => one vs a (fun v => (vs, ABool (v =? 0)))
  | QEq a b => two vs a b (fun v w => (vs, ABool (v =? w)))
  | QNe a b => two vs a b (fun v w => (vs, ABool (negb (v =? w))))
  | QLt a b => two vs a b (fun v w => (vs, ABool (v <? w)))
  | QGt a b => two vs a b (fun v w => (vs, ABool (w <? v)))
  | QLe a b => two vs a b (fun v w => (vs, ABool (v <=? w)))
  | QGe a b => two vs a b (fun v w => (vs, ABool (w <=? v)))
  | QGet a i => one vs a (fun v => (vs, if i <? 16 then AByte (part v i 1) else AThrew IndexOutOfRange))
  | QFirst a => one vs a (fun v => (vs, AByte (part v 0 1)))
  | QLast a => one vs a (fun v => (vs, AByte (part v 15 1)))
  | QText a _ => one vs a (fun v => (vs, AText (number_text v)))
  end.

Fixpoint srun (vs : list N) (ops : list uop) : list N * list uans :=
  match ops with
  | [] => (vs, [])
  | o :: rest => let '(vs1, x) := sstep vs o in let '(vs2, l) := srun vs1 rest in (vs2, x :: l)
  end.

(** What an operation may be given: bytes; the 16 bytes a constructor is pointed at; well placed dashes
    (C17: parse is not safe otherwise); the 36 bytes on the stack that toString() writes to. *)
Definition given_ok (o : uop) : Prop :=
  match o with
  | UFrom bytes => (16 <= length bytes)%nat /\ bytes_ok bytes
  | UMake bytes => bytes_ok bytes
  | UParse t _ => ascii7 t /\ dash_positions t
  | USet _ _ x | UFill _ x => is_byte x
  | QText _ garbage => length garbage = 36%nat
  | _ => True
  end.
