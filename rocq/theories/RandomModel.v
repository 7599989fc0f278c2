(** Model of makeRandomUUID (src/uuid.cpp:186-207).

    std::default_random_engine is libstdc++'s minstd_rand0 (simplification: that
    implementation is fixed).  [seed] is the 32-bit value of std::random_device; [step] is
    sizeof(std::uint_fast32_t), 8 on x86-64 and 4 on 32-bit hosts. *)
From Verif Require Import Base ByteIOModel.

(** The engine (not in /repo): x <- 16807 x mod (2^31 - 1); a seed congruent to 0 counts as 1. *)
(** src/uuid.cpp:186-207: std::default_random_engine (not in /repo) *)
Definition modulus : N := 2147483647.
(** src/uuid.cpp:186-207: std::default_random_engine (not in /repo) *)
Definition engine_seed (seed : N) : N := if seed mod modulus =? 0 then 1 else seed mod modulus.
(** src/uuid.cpp:186-207: std::default_random_engine (not in /repo) *)
Definition engine_next (x : N) : N := (16807 * x) mod modulus.

(** src/uuid.cpp:198: memcpy of the value's representation; simplification: of the host's
    byte order *)
Definition rnd_bytes (be : bool) (step : nat) (v : N) : list N :=
  if be then rev (le_store step v) else le_store step v.

(** src/uuid.cpp:196-204: the loop and the remainder; [room] is StaticSize - i *)
Fixpoint fill_random (fuel : nat) (be : bool) (step room : nat) (x : N) : outcome (list N) :=
  match fuel with
  | O => OutOfFuel
  | S fuel' =>
      let x' := engine_next x in
      if Nat.leb step room then
        let! t := fill_random fuel' be step (room - step) x' in Ret (rnd_bytes be step x' ++ t)
      else if Nat.ltb 0 room then Ret (firstn room (rnd_bytes be step x'))
      else Ret []
  end.
(** src/uuid.cpp:187-207 makeRandomUUID *)
Definition makeRandomUUID (be : bool) (step : nat) (seed : N) : outcome (list N) :=
  fill_random 17 be step 16 (engine_seed seed).
