(** Model of the error domains (src/errorDomain.cpp, src/systemErrorDomain.cpp) and of
    Error (include/solace/error.hpp, src/error.cpp).

    A domain object is known by its address; [szp] is the size of a pointer.
    What a domain prints for a code is its own code: a parameter. *)
From Verif Require Import Base MemoryModel ContainerModel DictModel AtomModel AtomSpec ByteIOModel StringViewModel StringModel.

(** The registry: the dictionary, and the number of objects made so far (the
    container model counts them). *)
(** src/errorDomain.cpp:29-43: the map behind findErrorDomain and registerErrorDomain *)
Record registry := mkRegistry { r_map : dict N N; r_made : nat }.

(** src/errorDomain.cpp:29-43: 128 keys of 8 bytes, 128 pointers *)
Definition kNbErrorCategories : N := 128.
Definition autoRegisterDomainMap (szp : N) : registry :=
  mkRegistry (dict_make 8 szp (kNbErrorCategories * 8) (kNbErrorCategories * szp)) 0.

(** src/errorDomain.cpp:48-53: what put answers is dropped; the size is returned as
    uint32.  Exceptions end the program (noexcept). *)
Definition registerErrorDomain (szp : N) (r : registry) (categoryId domain : N) : outcome (N * registry) :=
  noexcept (
    let! p := dict_put 8 szp (r_made r) (r_map r) (Some categoryId) (Some domain) in
    let '(d, made, _) := p in
    Ret (u32 (dict_size d), mkRegistry d made)).

(** src/errorDomain.cpp:56-65 *)
Definition findErrorDomain (r : registry) (categoryId : N) : outcome (option N) :=
  noexcept (dict_find N.eqb 8 (r_map r) categoryId).

(** Before main: errorDomain.cpp builds the map, systemErrorDomain.cpp registers its
    domain (line 53) under atom("posix") (line 32).  The language leaves the order
    of the two open.  Before the map is built its storage is zero, which is an
    empty dictionary without room (simplification: using it then is not called
    undefined). *)
(** src/systemErrorDomain.cpp:32 *)
Definition posix_text : list N := [112; 111; 115; 105; 120].
(** src/errorDomain.cpp:29-43, src/systemErrorDomain.cpp:32-54 *)
Definition before_main (szp system : N) (map_first : bool) : outcome registry :=
  let! posix := atom_literal posix_text in
  if map_first then
    let! p := registerErrorDomain szp (autoRegisterDomainMap szp) posix system in Ret (snd p)
  else
    let! _ := registerErrorDomain szp (mkRegistry dict_empty_new 0) posix system in
    Ret (autoRegisterDomainMap szp).

(** ** Error: include/solace/error.hpp:89-91 *)
Record err := mkErr { e_code : Z; e_domain : N; e_tag : list N }.
(** include/solace/error.hpp:66-69 *)
Definition err_eq (a b : err) : bool := (e_domain a =? e_domain b) && (e_code a =? e_code b)%Z.
(** include/solace/error.hpp:71-78: the objects afterwards *)
Definition err_swap (a b : err) : err * err :=
  let tag := e_tag a in let a1 := mkErr (e_code a) (e_domain a) (e_tag b) in let b1 := mkErr (e_code b) (e_domain b) tag in
  let code := e_code a1 in let a2 := mkErr (e_code b1) (e_domain a1) (e_tag a1) in let b2 := mkErr code (e_domain b1) (e_tag b1) in
  let dom := e_domain a2 in (mkErr (e_code a2) (e_domain b2) (e_tag a2), mkErr (e_code b2) dom (e_tag b2)).
(** include/solace/error.hpp:80-82 *)
Definition err_bool (a : err) : bool := negb (e_code a =? 0)%Z.
(** src/error.cpp:28-43; [message] is the virtual function of the domain at that
    address *)
Definition err_toString (host_be : bool) (alloc : heap) (message : N -> Z -> list N) (r : registry) (e : err) : outcome (list N) :=
  let! d := findErrorDomain r (e_domain e) in
  match d with
  | Some p => Ret (message p (e_code e))
  | None =>
      let buffer := atomToString (e_domain e) in
      let! s := str_concat host_be alloc [AText (c_string buffer); AText [58; 32]; AText (e_tag e)] in
      Ret (match s with Ok s => str_view s | Err _ => [] end)
  end.
