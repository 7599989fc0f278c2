(** Model of String objects and of the memory behind them (include/solace/string.hpp,
    src/string.cpp, include/solace/memoryResource.hpp, src/stringView.cpp).

    The variables of the program are named by numbers.  Simplifications: malloc(0) returns a
    block of its own (as glibc does); the limit of the memory manager and the failure of
    malloc are one flag of the operation. *)
From Verif Require Import Base MemoryModel StringViewModel.

(** Where bytes lie: in a block of the heap or in a literal of the program. *)
(** include/solace/string.hpp:50-352, src/string.cpp:30-216, include/solace/memoryResource.hpp:57-118: memory *)
Inductive place := Heap (a : nat) | Static (k : nat).
(** memoryResource.hpp:117-118: address and size of the view, and whether there is a disposer *)
Record sres := mkSRes { sr_addr : option place; sr_len : N; sr_disp : bool }.
(** string.hpp:351-352 *)
Record sobj := mkSObj { so_buf : sres; so_size : N }.
(** A StringView: address (place and offset) and size; stringView.hpp:425-426. *)
Record sview := mkSView { sv_place : option place; sv_off : N; sv_len : N }.

(** Blocks of the heap ([None]: given back), literals, variables. *)
(** include/solace/string.hpp:50-352, src/string.cpp:30-216, include/solace/memoryResource.hpp:57-118: the objects of a program *)
Record sworld := mkSW {
  sw_heap : list (option (list N)); sw_lits : list (list N);
  sw_objs : nat -> option sobj; sw_views : nat -> sview }.
(** include/solace/string.hpp:50-352, src/string.cpp:30-216, include/solace/memoryResource.hpp:57-118: a variable assigned *)
Definition vset {A} (f : nat -> A) (i : nat) (x : A) : nat -> A := fun k => if Nat.eqb k i then x else f k.
(** include/solace/string.hpp:50-352, src/string.cpp:30-216, include/solace/memoryResource.hpp:57-118: a variable assigned *)
Definition set_objs (w : sworld) (f : nat -> option sobj) : sworld := mkSW (sw_heap w) (sw_lits w) f (sw_views w).
(** include/solace/string.hpp:50-352, src/string.cpp:30-216, include/solace/memoryResource.hpp:57-118: a variable assigned *)
Definition set_views (w : sworld) (f : nat -> sview) : sworld := mkSW (sw_heap w) (sw_lits w) (sw_objs w) f.

(** Reading [len] bytes; memory that was given back, and bytes outside, are undefined. *)
(** include/solace/string.hpp:50-352, src/string.cpp:30-216, include/solace/memoryResource.hpp:57-118: the memory behind an address *)
Definition block_at (w : sworld) (p : option place) : option (list N) :=
  match p with
  | None => None
  | Some (Heap a) => get (sw_heap w) a
  | Some (Static k) => nth_error (sw_lits w) k
  end.
(** include/solace/string.hpp:50-352, src/string.cpp:30-216, include/solace/memoryResource.hpp:57-118: the characters of a view *)
Definition sview_read (w : sworld) (v : sview) : outcome (list N) :=
  if sv_len v =? 0 then Ret [] else
  match block_at w (sv_place v) with
  | Some bs => if sv_off v + sv_len v <=? size bs then Ret (ntake (sv_len v) (ndrop (sv_off v) bs)) else UB
  | None => UB
  end.
(** memoryResource.hpp:57-61 the destructor; memoryManager.cpp frees the block.  Freeing what is
    not a living block is undefined. *)
Definition sres_drop (w : sworld) (r : sres) : outcome sworld :=
  if sr_disp r then
    match sr_addr r with
    | None => Ret w
    | Some (Static _) => UB
    | Some (Heap a) =>
        match get (sw_heap w) a with
        | Some _ => Ret (mkSW (upd (sw_heap w) a None) (sw_lits w) (sw_objs w) (sw_views w))
        | None => UB
        end
    end
  else Ret w.

(** string.hpp:50 default String; memoryResource.hpp:68 *)
Definition sobj_new : sobj := mkSObj (mkSRes None 0 false) 0.
(** string.hpp:328-330 view(): slice(0, size()) of the buffer (memoryView.cpp:50-59) *)
Definition sobj_view (o : sobj) : sview :=
  mkSView (sr_addr (so_buf o)) 0 (N.min (sr_len (so_buf o)) (so_size o)).
(** stringView.cpp:71-82 substring(from, to) *)
Definition sview_sub (v : sview) (from to : N) : sview :=
  let from := N.min from (sv_len v) in
  let to := N.min (sv_len v) (N.max to from) in
  mkSView (sv_place v) (sv_off v + from) (to - from).

Inductive sop :=
  | SNew (i : nat)                        (* String x_i; *)
  | SMake (i : nat) (s : list N) (ok : bool)   (* x_i from makeString(StringView); ok: memory is found *)
  | SLit (i k : nat)                      (* x_i from makeString(literal k) *)
  | SCopy (i j : nat) (ok : bool)         (* x_i from makeString(x_j) *)
  | SMove (i j : nat)                     (* String x_i{mv(x_j)} *)
  | SAssign (i j : nat)                   (* x_i = mv(x_j) *)
  | SSwap (i j : nat)                     (* x_i.swap(x_j), swap(x_i, x_j) *)
  | SDrop (i : nat)                       (* x_i is destroyed *)
  | SView (v i : nat)                     (* v = x_i.view() *)
  | SSub (v i : nat) (from len : N)       (* v = x_i.substring(from, len), x_i(from, len) *)
  | SSubFrom (v i : nat) (from : N)       (* v = x_i.substring(from) *)
  | SSubView (v u : nat) (from to : N)    (* v = u.substring(from, to) *)
  | SRead (v : nat)                       (* the characters of v *)
  | SText (i : nat)                       (* the characters of x_i (forEach) *)
  | SSize (i : nat)                       (* x_i.size(), length() *)
  | SEmpty (i : nat)                      (* x_i.empty() *)
  | SCharAt (i : nat) (k : N)             (* x_i.charAt(k), x_i[k] *)
  | SEquals (i j : nat).                  (* x_i.equals(x_j), x_i == x_j *)
(** include/solace/string.hpp:50-352, src/string.cpp:30-216, include/solace/memoryResource.hpp:57-118: the answers *)
Inductive sans := AUnit | ARefused (e : N) | AText (t : list N) | ASize (n : N) | ABool (b : bool) | AChar (c : Z) | ARaised (e : exn).

(** include/solace/string.hpp:50-352, src/string.cpp:30-216, include/solace/memoryResource.hpp:57-118: an allocation *)
Definition sw_alloc (w : sworld) (i : nat) (s : list N) : sworld :=
  mkSW (sw_heap w ++ [Some s]) (sw_lits w)
       (vset (sw_objs w) i (Some (mkSObj (mkSRes (Some (Heap (length (sw_heap w)))) (size s) true) (size s)))) (sw_views w).

(** include/solace/string.hpp:50-352, src/string.cpp:30-216, include/solace/memoryResource.hpp:57-118: one operation; lines per case below *)
Definition s_step (o : sop) (w : sworld) : outcome (sans * sworld) :=
  match o with
  | SNew i =>
      match sw_objs w i with Some _ => UB | None => Ret (AUnit, set_objs w (vset (sw_objs w) i (Some sobj_new))) end
  | SMake i s ok =>
      (* src/string.cpp:29-43 *)
      match sw_objs w i with
      | Some _ => UB
      | None => if ok then Ret (AUnit, sw_alloc w i s) else Ret (ARefused E_NOMEM, w)
      end
  | SLit i k =>
      (* src/string.cpp:46-49; memoryResource.hpp:85-88 without disposer *)
      match sw_objs w i, nth_error (sw_lits w) k with
      | None, Some s => Ret (AUnit, set_objs w (vset (sw_objs w) i (Some (mkSObj (mkSRes (Some (Static k)) (size s) false) (size s)))))
      | _, _ => UB
      end
  | SCopy i j ok =>
      (* string.hpp:463-465: makeString of the view *)
      match sw_objs w i, sw_objs w j with
      | None, Some o =>
          if ok then let! s := sview_read w (sobj_view o) in Ret (AUnit, sw_alloc w i s)
          else Ret (ARefused E_NOMEM, w)
      | _, _ => UB
      end
  | SMove i j =>
      (* string.hpp:56-60; memoryResource.hpp:70-74, memoryView.hpp:109-113: the source is left empty *)
      match sw_objs w i, sw_objs w j with
      | None, Some o => Ret (AUnit, set_objs w (vset (vset (sw_objs w) j (Some (mkSObj (mkSRes None 0 false) 0))) i (Some o)))
      | _, _ => UB
      end
  | SAssign i j | SSwap i j =>
      (* string.hpp:78-88, 424-426; memoryResource.hpp:90-96 *)
      match sw_objs w i, sw_objs w j with
      | Some a, Some b => Ret (AUnit, set_objs w (vset (vset (sw_objs w) i (Some b)) j (Some a)))
      | _, _ => UB
      end
  | SDrop i =>
      match sw_objs w i with
      | Some o => let! w' := sres_drop w (so_buf o) in Ret (AUnit, set_objs w' (vset (sw_objs w') i None))
      | None => UB
      end
  | SView v i =>
      match sw_objs w i with
      | Some o => Ret (AUnit, set_views w (vset (sw_views w) v (sobj_view o)))
      | None => UB
      end
  | SSub v i from len =>
      (* string.hpp:216-218, 320-321: the length is handed over as the end *)
      match sw_objs w i with
      | Some o => Ret (AUnit, set_views w (vset (sw_views w) v (sview_sub (sobj_view o) from len)))
      | None => UB
      end
  | SSubFrom v i from =>
      (* string.hpp:227-229, stringView.hpp:242-244 *)
      match sw_objs w i with
      | Some o => let s := sobj_view o in Ret (AUnit, set_views w (vset (sw_views w) v (sview_sub s from (sv_len s))))
      | None => UB
      end
  | SSubView v u from to =>
      Ret (AUnit, set_views w (vset (sw_views w) v (sview_sub (sw_views w u) from to)))
  | SRead v => let! t := sview_read w (sw_views w v) in Ret (AText t, w)
  | SText i =>
      (* string.hpp:338-348 *)
      match sw_objs w i with Some o => let! t := sview_read w (sobj_view o) in Ret (AText t, w) | None => UB end
  | SSize i => (* string.hpp:104-115 *)
      match sw_objs w i with Some o => Ret (ASize (so_size o), w) | None => UB end
  | SEmpty i => (* string.hpp:95-97 *)
      match sw_objs w i with Some o => Ret (ABool (so_size o =? 0), w) | None => UB end
  | SCharAt i k =>
      (* src/string.cpp:127-130, string.hpp:307-309, stringView.hpp:262-266; only the character is read *)
      match sw_objs w i with
      | Some o =>
          let v := sobj_view o in
          if sv_len v <=? k then Ret (ARaised IndexOutOfRange, w)
          else let! t := sview_read w (mkSView (sv_place v) (sv_off v + k) 1) in
               Ret (AChar (schar (hd 0 t)), w)
      | None => UB
      end
  | SEquals i j =>
      (* src/string.cpp:119-121, string.hpp:118-120, 362-365; src/stringView.cpp:38-52 *)
      match sw_objs w i, sw_objs w j with
      | Some a, Some b =>
          let! x := sview_read w (sobj_view a) in
          let! y := sview_read w (sobj_view b) in
          Ret (ABool (sv_equals x y), w)
      | _, _ => UB
      end
  end.
Fixpoint s_run (os : list sop) (w : sworld) : outcome (list sans * sworld) :=
  match os with
  | [] => Ret ([], w)
  | o :: t => let! p := s_step o w in let! q := s_run t (snd p) in Ret (fst p :: fst q, snd q)
  end.
(** A program with these literals, before it makes a String. *)
(** include/solace/string.hpp:50-352, src/string.cpp:30-216, include/solace/memoryResource.hpp:57-118: the start *)
Definition s_start (lits : list (list N)) : sworld := mkSW [] lits (fun _ => None) (fun _ => mkSView None 0 0).
