(** Common vocabulary of the model: C++ outcomes, library results, machine
    integers and byte sequences.  No library function is modelled here. *)
From Coq Require Export List NArith ZArith Lia Bool.
From Coq Require Export ZifyBool ZifyNat ZifyN.
Export ListNotations.
Global Open Scope N_scope.

(** ** Outcomes of running a C++ function *)

(** Exceptions the library raises (src/exception.cpp, src/assert.cpp). *)
Inductive exn := IndexOutOfRange | InvalidState | AssertFailed | UserException.

(** [Ret]: normal return.  [Throws]: a C++ exception leaves the function.
    [Terminates]: an exception hits a noexcept boundary (std::terminate).
    [UB]: undefined behaviour.  [OutOfFuel]: a loop did not finish within the
    number of iterations it was given; never a normal-looking value. *)
Inductive outcome (A : Type) : Type :=
| Ret (a : A) | Throws (e : exn) | Terminates | UB | OutOfFuel.
Arguments Ret {A}. Arguments Throws {A}. Arguments Terminates {A}.
Arguments UB {A}. Arguments OutOfFuel {A}.

Definition bind {A B} (x : outcome A) (f : A -> outcome B) : outcome B :=
  match x with
  | Ret a => f a
  | Throws e => Throws e
  | Terminates => Terminates
  | UB => UB
  | OutOfFuel => OutOfFuel
  end.
Notation "'let!' x ':=' e1 'in' e2" := (bind e1 (fun x => e2))
  (at level 200, x pattern, e1 at level 100, e2 at level 200).

(** A noexcept function body: an escaping exception becomes std::terminate. *)
Definition noexcept {A} (x : outcome A) : outcome A :=
  match x with Throws _ => Terminates | y => y end.

(** ** Result<T, Error> values returned by the library *)

(** include/solace/error.hpp:38-92; only the numeric code is kept, the domain
    is always kSystemCatergory in the modelled functions. *)
Definition error := N.
Inductive result (A : Type) : Type := Ok (a : A) | Err (e : error).
Arguments Ok {A}. Arguments Err {A}.

(** include/solace/posixErrorDomain.hpp:45-192 *)
Definition BasicOverflow : error := 0.
Definition E_PERM : error := 1.
Definition E_NOMEM : error := 12.
Definition E_INVAL : error := 22.
Definition E_DOM : error := 33.
Definition E_NODATA : error := 61.
Definition E_Overflow : error := 75.

(** ** Machine integers *)

Definition byte := N.
Definition u8 (x : N) : N := x mod 2 ^ 8.
Definition u16 (x : N) : N := x mod 2 ^ 16.
Definition u32 (x : N) : N := x mod 2 ^ 32.
Definition u64 (x : N) : N := x mod 2 ^ 64.

(** Unsigned subtraction with wrap-around, [a - b] in a k-bit type. *)
Definition sub_wrap (k a b : N) : N := (a mod 2 ^ k + 2 ^ k - b mod 2 ^ k) mod 2 ^ k.
Definition sub64 := sub_wrap 64.
Definition sub32 := sub_wrap 32.
Definition sub16 := sub_wrap 16.

Definition is_byte (b : N) : Prop := b < 256.
Definition bytes_ok (l : list N) : Prop := Forall is_byte l.

(** ** Sequences indexed by N (kept computable for 64-bit indices) *)

Definition size {A} (l : list A) : N := N.of_nat (length l).

Fixpoint ntake {A} (n : N) (l : list A) : list A :=
  match l with
  | [] => []
  | x :: t => if n =? 0 then [] else x :: ntake (N.pred n) t
  end.

Fixpoint ndrop {A} (n : N) (l : list A) : list A :=
  match l with
  | [] => []
  | x :: t => if n =? 0 then l else ndrop (N.pred n) t
  end.

Fixpoint nnth {A} (l : list A) (n : N) : option A :=
  match l with
  | [] => None
  | x :: t => if n =? 0 then Some x else nnth t (N.pred n)
  end.

(** memmove of [src] to offset [off] of the object holding [dst]; the caller
    has checked (or the model has diagnosed) that it fits. *)
Definition overwrite {A} (dst : list A) (off : N) (src : list A) : list A :=
  ntake off dst ++ src ++ ndrop (off + size src) dst.
