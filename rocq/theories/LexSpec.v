(** Lexicographic (dictionary) order on sequences of numbers. *)
From Verif Require Import Base.

(** [l] comes before [m]: they agree on the first [k] elements and at index [k]
    either [l] has ended or has the smaller element. *)
Definition lex_lt (l m : list N) : Prop :=
  exists k, firstn k l = firstn k m /\
    match nth_error l k, nth_error m k with
    | Some x, Some y => x < y
    | None, Some _ => True
    | _, None => False
    end.
