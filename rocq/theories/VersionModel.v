(** Model of Version (include/solace/version.hpp, src/version.cpp).  The tags are String
    objects; they are represented by their characters. *)
From Verif Require Import Base ByteIOModel StringViewModel StringModel FmtModel BuilderModel.

(** include/solace/version.hpp:55-64 *)
Record version := mkVersion { v_major : N; v_minor : N; v_patch : N; v_pre : list N; v_build : list N }.

(** include/solace/posixErrorDomain.hpp:45-48, BasicError::InvalidInput *)
Definition E_InvalidInput : error := 1.

(** src/version.cpp:51-66 operator> *)
Definition ver_gt (a b : version) : bool :=
  if v_major b <? v_major a then true else
  if v_major a <? v_major b then false else
  if v_minor b <? v_minor a then true else
  if v_minor a <? v_minor b then false else
  v_patch b <? v_patch a.
(** include/solace/version.hpp:135-137 operator< *)
Definition ver_lt (a b : version) : bool := negb (ver_gt a b).
(** include/solace/version.hpp:139-144 equals; :180-188 == and != *)
Definition ver_equals (a b : version) : bool :=
  (v_major a =? v_major b) && (v_minor a =? v_minor b) && (v_patch a =? v_patch b) && sv_equals (v_pre a) (v_pre b).

(** src/version.cpp:71-79: sizes are computed in int *)
Definition ver_bufferSize (v : version) : N :=
  sb_measure (v_major v) + sb_measure (v_minor v) + sb_measure (v_patch v) + 2
  + (if sv_empty (v_pre v) then 0 else 1 + size (v_pre v))
  + (if sv_empty (v_build v) then 0 else 1 + size (v_build v)) + 1.

(** src/version.cpp:69-103 toString; a failed allocation gives an empty String. *)
Definition ver_toString (host_be : bool) (alloc : heap) (v : version) : outcome str :=
  match alloc (ver_bufferSize v) with
  | Err _ => Ret (mkStr [] 0)
  | Ok buffer =>
      let! sb := sb_num (sb_make buffer) (v_major v) in
      let! sb := sb_char host_be sb 46 in
      let! sb := sb_num sb (v_minor v) in
      let! sb := sb_char host_be sb 46 in
      let! sb := sb_num sb (v_patch v) in
      let! sb := (if sv_empty (v_pre v) then Ret sb else
                  let! sb := sb_char host_be sb 45 in sb_text sb (v_pre v)) in
      let! sb := (if sv_empty (v_build v) then Ret sb else
                  let! sb := sb_char host_be sb 43 in sb_text sb (v_build v)) in
      Ret (fst (sb_build sb))
  end.

(** src/version.cpp:147-173: the callback on the pieces between '+' signs.  [i] is
    splitIndex; the third and later pieces are only counted. *)
Fixpoint ver_tags (alloc : heap) (i : nat) (ps : list (list N)) (pre build : list N) : outcome (result (nat * list N * list N)) :=
  match ps with
  | [] => Ret (Ok (i, pre, build))
  | p :: ps' =>
      match i with
      | O => let! t := sv_trim_char 45 p in
             let! m := str_make alloc t in
             match m with
             | Err e => Ret (Err e)
             | Ok s => ver_tags alloc 1 ps' (str_view s) build
             end
      | S O => let! m := str_make alloc p in
               match m with
               | Err e => Ret (Err e)
               | Ok s => ver_tags alloc 2 ps' pre (str_view s)
               end
      | S _ => ver_tags alloc (S i) ps' pre build
      end
  end.

(** src/version.cpp:123-129: where the text after the patch number lies; [mem] is the text
    and the memory behind it, [pe] the offset of patchEnd. *)
Definition ver_afterPatch (mem : list N) (n pe : N) : outcome (list N) :=
  if pe =? n then Ret [] else
  let len := Z.to_N ((Z.of_N n - Z.of_N pe) mod 2 ^ 16) in
  if pe + len <=? size mem then Ret (ntake len (ndrop pe mem)) else UB.

(** src/version.cpp:106-182 parse(StringView): [str] are the characters viewed, [after]
    the bytes that follow them in memory (the numbers are read with strtoul, which does
    not know where the view ends).  The piece boundaries give the pointers passed to
    strtoul. *)
Definition ver_parse (alloc : heap) (str after : list N) : outcome (result version) :=
  let mem := str ++ after in
  let! sp := sv_split_char 46 str in
  match fst sp with
  | p0 :: ps1 =>
      let! major := strtoul mem in
      let o1 := size p0 + 1 in
      match ps1 with
      | [] => Ret (Err E_InvalidInput)
      | p1 :: ps2 =>
          let! minor := strtoul (ndrop o1 mem) in
          let o2 := o1 + size p1 + 1 in
          match ps2 with
          | [] => Ret (Err E_InvalidInput)
          | _ :: _ =>
              let! patch := strtoul (ndrop o2 mem) in
              let! afterPatch := ver_afterPatch mem (size str) (o2 + snd patch) in
              let mk := mkVersion (u32 (fst major)) (u32 (fst minor)) (u32 (fst patch)) in
              if sv_empty afterPatch then Ret (Ok (mk [] [])) else
              let! tp := sv_split_char 43 afterPatch in
              let! tags := ver_tags alloc 0 (fst tp) [] [] in
              match tags with
              | Err e => Ret (Err e)
              | Ok (i, pre, build) =>
                  if (2 <? i)%nat then Ret (Err E_InvalidInput) else Ret (Ok (mk pre build))
              end
          end
      end
  | [] => Ret (Err E_InvalidInput)
  end.

(** include/solace/version.hpp:76-79 parse(String const&): the memory behind the
    characters is the rest of the string's buffer (beyond it: undefined). *)
Definition ver_parse_string (alloc : heap) (s : str) : outcome (result version) :=
  ver_parse alloc (str_view s) (ndrop (size (str_view s)) (st_buf s)).
