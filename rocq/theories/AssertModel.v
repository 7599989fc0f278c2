(** Model of the assertions of include/solace/assert.hpp and src/assert.cpp.

    A [const char*] is [None] for nullptr, or the characters before the NUL.  A pointer is
    its address, zero for nullptr.  [inl] is the value returned (zero for void functions),
    [inr] the exception raised. *)
From Coq Require Import Ascii String.
From Verif Require Import Base ExceptionModel.

(** src/assert.cpp:118-121: Exception(StringView), from a C string *)
Definition assertFail (tag : option (list N)) : N + exc := inr (Plain (from_cstr tag)).
(** src/assert.cpp:123-126: IOException(int, StringView) with the current errno *)
Definition assertFailErrno (errno : Z) (tag : option (list N)) : N + exc := inr (IOErrorMsg errno (from_cstr tag)).
(** include/solace/assert.hpp:56-60 *)
Definition assertTrue (condition : bool) (tag : option (list N)) : N + exc :=
  if negb condition then assertFail tag else inl 0.
(** include/solace/assert.hpp:62-67 *)
Definition assertErrno (errno : Z) (condition : bool) (tag : option (list N)) : N + exc :=
  if negb condition then assertFailErrno errno tag else inl 0.
(** include/solace/assert.hpp:73-75 *)
Definition assertTrue1 (condition : bool) : N + exc := assertTrue condition (Some (lit "Assertion failed")).
(** include/solace/assert.hpp:85-89 *)
Definition assertNull (ptr : N) (message : option (list N)) : N + exc :=
  match assertTrue (ptr =? 0) message with inr e => inr e | inl _ => inl ptr end.
(** include/solace/assert.hpp:96-100 *)
Definition assertNotNull (ptr : N) (message : option (list N)) : N + exc :=
  match assertTrue (negb (ptr =? 0)) message with inr e => inr e | inl _ => inl ptr end.
(** include/solace/assert.hpp:107-109; the template of :127-132 forwards to it *)
Definition assertNull1 (ptr : N) : N + exc := assertNull ptr (Some (lit "Assertion violation: Null pointer value passed.")).
(** include/solace/assert.hpp:115-117; the template of :120-125 forwards to it *)
Definition assertNotNull1 (ptr : N) : N + exc := assertNotNull ptr (Some (lit "Assertion violation: Null pointer value passed.")).
(** src/assert.cpp:107-115: without a tag, or with one *)
Definition raiseInvalidStateError (tag : option (option (list N))) : N + exc :=
  inr (match tag with None => InvalidState | Some t => InvalidStateTag t end).

(** One call of any of them; the last two are in ExceptionModel.
    include/solace/assert.hpp:28-230 *)
Inductive assertion :=
| ATrue (condition : bool) (tag : option (list N))
| ATrue1 (condition : bool)
| AErrno (condition : bool) (tag : option (list N))
| ANull (ptr : N) (message : option (list N))
| ANotNull (ptr : N) (message : option (list N))
| ANull1 (ptr : N)
| ANotNull1 (ptr : N)
| AInvalidState (tag : option (option (list N)))
| AFail (tag : option (list N))
| AFailErrno (tag : option (list N))
| AValue (index from to : N) (message : option (option (list N)))
| AIndex (index size : N) (message : option (list N)).
(** include/solace/assert.hpp:28-230; [errno] at the time of the call *)
Definition assert_call (errno : Z) (a : assertion) : N + exc :=
  match a with
  | ATrue c t => assertTrue c t
  | ATrue1 c => assertTrue1 c
  | AErrno c t => assertErrno errno c t
  | ANull p m => assertNull p m
  | ANotNull p m => assertNotNull p m
  | ANull1 p => assertNull1 p
  | ANotNull1 p => assertNotNull1 p
  | AInvalidState t => raiseInvalidStateError t
  | AFail t => assertFail t
  | AFailErrno t => assertFailErrno errno t
  | AValue i a b m => assertValueInRange i a b m
  | AIndex i n m => assertIndexInRange i n m
  end.
(** A function that makes a list of assertions: the values returned, up to the first
    exception.  src/assert.cpp:28-126 *)
Fixpoint assert_all (calls : list (Z * assertion)) : list N * option exc :=
  match calls with
  | [] => ([], None)
  | (errno, a) :: rest =>
      match assert_call errno a with
      | inr e => ([], Some e)
      | inl v => let (vs, e) := assert_all rest in (v :: vs, e)
      end
  end.
