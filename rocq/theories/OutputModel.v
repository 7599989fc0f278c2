(** Model of the stream output operators (include/solace/output_utils.hpp).

    An operator is modelled by the bytes it sends to the stream (simplification: the stream
    accepts everything and has its default formatting flags, width and locale).
    [szt] is sizeof(std::size_t) of the host. *)
From Coq Require Import String.
From Verif Require Import Base AtomModel Base16Model DialModel ErrorModel FmtModel ExceptionModel.

(** include/solace/output_utils.hpp:40-46, 64-66: the bytes as they are *)
Definition out_text (s : list N) : list N := s.

(** include/solace/output_utils.hpp:54-58: the loop over the encoded pairs *)
Definition out_view (bs : list N) : outcome (list N) :=
  if size bs =? 0 then Ret (lit "<null>")
  else let! ps := b16_encode_iter bs in Ret (concat ps).

(** include/solace/output_utils.hpp:96-112 MessageDigest *)
Definition out_digest (bs : list N) : outcome (list N) :=
  let! ps := b16_encode_iter bs in
  Ret (lit "[" ++ flat_map (fun p => lit "0x" ++ p) ps ++ lit "]").

(** Reading a buffer as a C string. *)
(** include/solace/output_utils.hpp:76-79, 130-134: an array of char written as a C string *)
Fixpoint read_cstr (buf : list N) : outcome (list N) :=
  match buf with
  | [] => UB
  | c :: t => if c =? 0 then Ret [] else let! r := read_cstr t in Ret (c :: r)
  end.
(** include/solace/output_utils.hpp:76-79 and 130-132: an atom goes through a buffer of
    sizeof(N) + 1 bytes, where N is an object of type size_t; storing more bytes than
    that is undefined. *)
Definition out_atom (szt a : N) : outcome (list N) :=
  let bytes := atomToString a in
  if size bytes <=? szt + 1 then read_cstr bytes else UB.

(** include/solace/output_utils.hpp:69-94 Error; [name] and [message] are those of the
    domain object at an address *)
Definition out_error (szt : N) (name : N -> list N) (message : N -> Z -> list N) (r : registry) (e : err) : outcome (list N) :=
  let! domain := findErrorDomain r (e_domain e) in
  let! head := match domain with Some d => Ret (name d) | None => out_atom szt (e_domain e) end in
  let text := head ++ lit ":" ++ decz (e_code e) ++ lit ":" in
  let text := match domain with Some d => text ++ message d (e_code e) | None => text end in
  Ret (if size (e_tag e) =? 0 then text else text ++ lit ":" ++ e_tag e).

(** include/solace/output_utils.hpp:129-140 DialString *)
Definition out_dial (szt : N) (ds : dial) : outcome (list N) :=
  let! p := out_atom szt (d_protocol ds) in
  let text := p ++ lit ":" ++ d_address ds in
  Ret (if size (d_service ds) =? 0 then text else text ++ lit ":" ++ d_service ds).

(** include/solace/output_utils.hpp:145-150 Optional *)
Definition out_optional {A} (out : A -> outcome (list N)) (o : option A) : outcome (list N) :=
  match o with None => Ret (lit "None") | Some x => out x end.
