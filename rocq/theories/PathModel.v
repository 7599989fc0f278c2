(** Model of Path (include/solace/path.hpp, src/path.cpp).

    A component is the text of its String.  Simplifications: allocations made while
    building a component vector succeed (an allocation error returned by makeVector
    or makeString is not modelled here), so copying a component gives the same text
    (C26_copy); a component vector is its elements and its capacity in elements. *)
From Verif Require Import Base StringViewModel StringModel.

(** include/solace/path.hpp:381 and include/solace/array.hpp: the components and the
    size of the buffer that holds them, counted in components *)
Record path := mkPath { p_comps : list (list N); p_cap : N }.

(** src/path.cpp:27-29 *)
Definition Delimiter : list N := [47].
Definition SelfRef : list N := [46].
Definition ParentRef : list N := [46; 46].

(** include/solace/path.hpp:138 Path() *)
Definition path_none : path := mkPath [] 0.

(** include/solace/array.hpp:136-138 through path.hpp:167-169: emptiness of the buffer,
    not of the element sequence *)
Definition path_empty (p : path) : bool := p_cap p =? 0.

(** include/solace/array.hpp:148-154, arrayView.hpp:166-177: checked element access *)
Definition path_at (p : path) (i : N) : outcome (list N) :=
  match nnth (p_comps p) i with Some c => Ret c | None => Throws IndexOutOfRange end.

(** include/solace/vector.hpp:210-228 emplace_back; the callers in path.cpp and path.hpp
    drop the returned error *)
Definition vpush (v : path) (x : list N) : path :=
  if p_cap v <=? size (p_comps v) then v else mkPath (p_comps v ++ [x]) (p_cap v).

(** include/solace/vector.hpp:244-253 pop_back *)
Definition vpop (v : path) : path :=
  if size (p_comps v) <? 1 then v else mkPath (removelast (p_comps v)) (p_cap v).

(** src/path.cpp:62-84, the callback of parse *)
Definition parse_step (v : path) (a : list N * N * N) : path :=
  let '(c, i, count) := a in
  let v := if (p_cap v =? 0) && negb (count =? 0) then mkPath [] count else v in
  if (i + 1 =? count) && sv_empty c then v else vpush v c.

(** src/path.cpp:58-95 parse *)
Definition path_parse (fuel : nat) (delim s : list N) : outcome path :=
  let! r := sv_split3 fuel delim s in
  let v := fold_left parse_step (fst r) path_none in
  Ret (if size (p_comps v) =? 0 then vpush v [] else v).

(** src/path.cpp:42-55 makePath(StringView) *)
Definition path_single (s : list N) : path := mkPath [s] 1.

(** src/path.cpp:113-132 length: uint16 arithmetic *)
Definition path_length (delim : list N) (p : path) : N :=
  match p_comps p with
  | [] => 0
  | [one] => if sv_empty one then size delim else size one
  | cs => sub16 (fold_left (fun len s => u16 (len + (size delim + size s))) cs 0) (size delim)
  end.

(** src/path.cpp:139-147, the loop of compareTo over the first minLen components *)
Fixpoint compare_loop (k : nat) (a b : path) (i : N) : outcome Z :=
  match k with
  | O => Ret (Z.of_N (size (p_comps a)) - Z.of_N (size (p_comps b)))%Z
  | S k' =>
      let! x := path_at a i in
      let! y := path_at b i in
      let! diff := sv_compareTo x y in
      if (diff =? 0)%Z then compare_loop k' a b (i + 1) else Ret diff
  end.
(** src/path.cpp:135-151 compareTo; the int conversions of the counts are exact (fewer
    than 2^31 components) *)
Definition path_compareTo (a b : path) : outcome Z :=
  compare_loop (N.to_nat (N.min (size (p_comps a)) (size (p_comps b)))) a b 0.

(** src/path.cpp:165-172 *)
Fixpoint starts_loop (k : nat) (p o : path) (i : N) : outcome bool :=
  match k with
  | O => Ret true
  | S k' =>
      let! y := path_at o i in
      let! x := path_at p i in
      if negb (sv_equals x y) then Ret (sv_startsWith x y && (i + 1 =? size (p_comps o)))
      else starts_loop k' p o (i + 1)
  end.
(** src/path.cpp:154-175 startsWith(Path) *)
Definition path_startsWith (p o : path) : outcome bool :=
  if path_empty p then Ret (path_empty o) else
  if path_empty o then Ret (path_empty p) else
  if path_length Delimiter p <? path_length Delimiter o then Ret false else
  starts_loop (length (p_comps o)) p o 0.

(** src/path.cpp:192-199 *)
Fixpoint ends_loop (k : nat) (p o : path) (i : N) : outcome bool :=
  match k with
  | O => Ret true
  | S k' =>
      let! x := path_at p (sub64 (sub64 (size (p_comps p)) 1) i) in
      let! y := path_at o (sub64 (sub64 (size (p_comps o)) 1) i) in
      if negb (sv_equals x y) then Ret (sv_endsWith x y && (i + 1 =? size (p_comps o)))
      else ends_loop k' p o (i + 1)
  end.
(** src/path.cpp:177-202 endsWith(Path) *)
Definition path_endsWith (p o : path) : outcome bool :=
  if path_empty p then Ret (path_empty o) else
  if path_empty o then Ret (path_empty p) else
  if path_length Delimiter p <? path_length Delimiter o then Ret false else
  ends_loop (length (p_comps o)) p o 0.

(** src/path.cpp:219-227, inner loop of contains; [k] components left *)
Fixpoint match_loop (k : nat) (p o : path) (first i : N) : outcome bool :=
  match k with
  | O => Ret true
  | S k' =>
      let! b := path_at p (first + i) in
      let! y := path_at o i in
      if sv_equals b y then match_loop k' p o first (i + 1) else Ret false
  end.
(** src/path.cpp:213-232, outer loop; [k] positions left *)
Fixpoint contains_loop (k : nat) (p o : path) (first : N) : outcome bool :=
  match k with
  | O => Ret false
  | S k' =>
      let! a := path_at p first in
      let! y := path_at o 0 in
      if sv_equals a y then
        let! m := match_loop (length (p_comps o) - 1) p o first 1 in
        if m : bool then Ret true else contains_loop k' p o (first + 1)
      else contains_loop k' p o (first + 1)
  end.
(** src/path.cpp:204-235 contains(Path) *)
Definition path_contains (p o : path) : outcome bool :=
  if size (p_comps p) <? size (p_comps o) then Ret false else
  contains_loop (length (p_comps p) - length (p_comps o) + 1) p o 0.

(** src/path.cpp:238-241 isAbsolute, noexcept *)
Definition path_isAbsolute (p : path) : outcome bool :=
  if path_empty p then Ret false else
  noexcept (let! c := path_at p 0 in Ret (sv_empty c)).

(** src/path.cpp:259-270, the loop body of normalize *)
Definition normalize_step (v : path) (c : list N) : path :=
  if sv_equals c SelfRef then v
  else if sv_equals c ParentRef && (0 <? size (p_comps v)) then vpop v
  else vpush v c.
(** src/path.cpp:250-273 normalize *)
Definition path_normalize (p : path) : path :=
  fold_left normalize_step (p_comps p) (mkPath [] (size (p_comps p))).

(** src/path.cpp:292-299, the loops of getParent and subpath: components from..to-1 *)
Fixpoint copy_loop (k : nat) (p v : path) (i : N) : outcome path :=
  match k with
  | O => Ret v
  | S k' => let! c := path_at p i in copy_loop k' p (vpush v c) (i + 1)
  end.
(** src/path.cpp:276-302 getParent *)
Definition path_getParent (p : path) : outcome path :=
  let n := size (p_comps p) in
  if n <? 2 then Ret (mkPath (p_comps p) n)
  else copy_loop (N.to_nat (n - 1)) p (mkPath [] (n - 1)) 0.

(** src/path.cpp:305-313 getBasename *)
Definition path_getBasename (p : path) : outcome (list N) :=
  let n := size (p_comps p) in
  let! root := (if n =? 1 then let! c := path_at p 0 in Ret (sv_empty c) else Ret false) in
  if root : bool then Ret Delimiter else
  if n =? 0 then Ret [] else path_at p (n - 1).

(** src/path.cpp:316-318 getComponent *)
Definition path_getComponent (p : path) (i : N) : outcome (list N) := path_at p i.

(** src/path.cpp:321-338 subpath, noexcept.  Were to < from, the difference would wrap and the
    request for that much memory fail: unwrap of an error in a noexcept function. *)
Definition path_subpath (p : path) (from to : N) : outcome path :=
  let n := size (p_comps p) in
  let from := N.min from n in
  let to := N.max from (N.min to n) in
  if to <? from then Terminates else
  noexcept (copy_loop (N.to_nat (to - from)) p (mkPath [] (to - from)) from).

(** src/path.cpp:341-344 equals, through arrayView.hpp:102-123: sizes, then elements *)
Fixpoint comps_eq_loop (a b : list (list N)) : bool :=
  match a, b with
  | x :: a', y :: b' => if negb (sv_equals x y) then false else comps_eq_loop a' b'
  | _, _ => true
  end.
Definition path_equals (a b : path) : bool :=
  if negb (size (p_comps a) =? size (p_comps b)) then false
  else comps_eq_loop (p_comps b) (p_comps a).

(** src/path.cpp:347-361 toString: a failure gives the empty String *)
Definition path_toString (alloc : heap) (delim : list N) (p : path) : outcome str :=
  let! abs := path_isAbsolute p in
  let! r := (if abs && (size (p_comps p) =? 1) then str_make alloc delim
             else str_join alloc delim (p_comps p)) in
  match r with
  | Ok s => Ret s
  | Err _ => Ret (mkStr [] 0)
  end.

(** An argument of makePath(a, b, ...): a text or a path *)
(** include/solace/path.hpp:431-550: an argument of makePath *)
Inductive parg := PText (s : list N) | PPath (p : path).
(** include/solace/path.hpp:433-447 countPathComponents *)
Definition parg_count (a : parg) : N := match a with PText _ => 1 | PPath p => size (p_comps p) end.
(** include/solace/path.hpp:450-530 joinComponents *)
Definition join_arg (v : path) (a : parg) : path :=
  match a with PText s => vpush v s | PPath p => fold_left vpush (p_comps p) v end.
(** include/solace/path.hpp:536-550 makePath(args...), at least two arguments *)
Definition path_make (args : list parg) : path :=
  fold_left join_arg args (mkPath [] (fold_right (fun a n => parg_count a + n) 0 args)).
