(** Model of dial strings (include/solace/dialstring.hpp, src/dialstring.cpp). *)
From Verif Require Import Base AtomModel StringViewModel VersionModel.

(** include/solace/dialstring.hpp:53-57 *)
Record dial := mkDial { d_protocol : N; d_address : list N; d_service : list N }.

(** src/dialstring.cpp:30-44: the callback on each piece; once the result is an error it
    stays one.  E_InvalidInput is BasicError::InvalidInput. *)
Definition dial_step (result_ : result dial) (p : list N * N * N) : outcome (result dial) :=
  let '(split, i, _) := p in
  match result_ with
  | Err e => Ret (Err e)
  | Ok ds =>
      if i =? 0 then
        let! t := sv_trim split in
        let! r := tryParseAtom t in
        match r with
        | Ok a => Ret (Ok (mkDial a (d_address ds) (d_service ds)))
        | Err _ => Ret (Err E_InvalidInput)
        end
      else if i =? 1 then
        let! t := sv_trim split in Ret (Ok (mkDial (d_protocol ds) t (d_service ds)))
      else if i =? 2 then
        let! t := sv_trim split in Ret (Ok (mkDial (d_protocol ds) (d_address ds) t))
      else Ret (Ok ds)
  end.
Fixpoint dial_fold (r : result dial) (ps : list (list N * N * N)) : outcome (result dial) :=
  match ps with
  | [] => Ret r
  | p :: ps' => let! r' := dial_step r p in dial_fold r' ps'
  end.

(** include/solace/dialstring.hpp:32: kProtocolNone = atom("") *)
Definition kProtocolNone : N := 0.

(** src/dialstring.cpp:22-48 tryParseDailString *)
Definition dial_parse (fuel : nat) (data : list N) : outcome (result dial) :=
  if sv_empty data then Ret (Err E_InvalidInput) else
  let ds := mkDial kProtocolNone data [] in
  let! c := sv_contains_char data 58 in
  if c then
    let! ps := sv_split3 fuel [58] data in
    dial_fold (Ok ds) (fst ps)
  else Ret (Ok ds).
