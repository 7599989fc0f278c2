(** Model of the exceptions and their message texts: src/exception.cpp,
    src/errorString.cpp, include/solace/details/string_utils.hpp, src/assert.cpp.

    [memory] says whether calloc finds memory; [strerror] is the C function: it gives
    a C string for every code. *)
From Coq Require Import Ascii String.
From Verif Require Import Base FmtModel AtomSpec.

(** The characters of a literal. *)
(** src/exception.cpp:28-303: literals *)
Fixpoint lit (s : string) : list N :=
  match s with EmptyString => [] | String c t => N_of_ascii c :: lit t end.
Arguments lit s%string.

(** snprintf with "%d" *)
(** src/errorString.cpp:60-65, 104-116 *)
Definition decz (z : Z) : list N := if (z <? 0)%Z then 45 :: dec (Z.to_N (- z)) else dec (Z.to_N z).

(** ** details::ErrorString: string_utils.hpp:35-73 *)
(** Size and buffer; None is nullptr.  The whole allocated buffer is kept. *)
(** include/solace/details/string_utils.hpp:35-73 *)
Record error_string := mkES { es_size : N; es_message : option (list N) }.
(** string_utils.hpp:66 view(): the characters, if somebody reads them *)
Definition es_view (s : error_string) : outcome (list N) :=
  match es_message s with
  | Some b => if size b <? es_size s then UB else Ret (ntake (es_size s) b)
  | None => if es_size s =? 0 then Ret [] else UB
  end.
(** string_utils.hpp:65 c_str(): read up to the NUL *)
Definition es_cstr (s : error_string) : outcome (list N) :=
  match es_message s with
  | Some b => if existsb (N.eqb 0) b then Ret (c_string b) else UB
  | None => UB
  end.
(** src/errorString.cpp:44-49 ErrorString(StringView) *)
Definition es_make (memory : bool) (view : list N) : outcome error_string :=
  if memory then Ret (mkES (size view) (Some (overwrite (repeat 0 (N.to_nat (size view + 1))) 0 view)))
  else if size view =? 0 then Ret (mkES 0 None) else UB.

(** ** details::StringWriter: string_utils.hpp:77-123; sizes are uint16 *)
Record swriter := mkSW { sw_size : N; sw_offset : N; sw_buffer : option (list N) }.
(** string_utils.hpp:81, 91-94: a view has its size, a literal its size with the NUL *)
Definition measure_view (s : list N) : N := size s.
Definition measure_lit (s : list N) : N := u16 (size s + 1).
(** src/errorString.cpp:53-65 *)
Definition measure_num (text : list N) : N := u16 (size text).
(** src/errorString.cpp:69-77 *)
Definition sw_new (memory : bool) (memSize : N) : swriter :=
  if memory then mkSW memSize 0 (Some (repeat 0 (N.to_nat (memSize + 1)))) else mkSW 0 0 None.
(** string_utils.hpp:112 *)
Definition sw_remaining (w : swriter) : N := sub16 (sw_size w) (sw_offset w).
(** Writing [bs] at _buffer + _offset; beyond the allocation, undefined. *)
(** src/errorString.cpp:79-121 *)
Definition sw_store (w : swriter) (bs : list N) : outcome (option (list N)) :=
  if size bs =? 0 then Ret (sw_buffer w) else
  match sw_buffer w with
  | Some b => if size b <? sw_offset w + size bs then UB else Ret (Some (overwrite b (sw_offset w) bs))
  | None => UB
  end.
(** src/errorString.cpp:79-86 append(StringView) *)
Definition sw_append (w : swriter) (data : list N) : outcome swriter :=
  let dataCopied := N.min (size data) (sw_remaining w) in
  let! b := sw_store w (ntake dataCopied data) in
  Ret (mkSW (sw_size w) (u16 (sw_offset w + dataCopied)) b).
(** src/errorString.cpp:88-121 appendFormated(integer), append(const char* ): snprintf;
    [text] is the whole formatted text.  The count is added to a uint16. *)
Definition sw_format (w : swriter) (text : list N) : outcome swriter :=
  let n := sw_remaining w in
  let! b := sw_store w (if n =? 0 then [] else ntake (n - 1) text ++ [0]) in
  Ret (mkSW (sw_size w) (u16 (sw_offset w + size text)) b).
(** string_utils.hpp:115-118 *)
Definition sw_build (w : swriter) : error_string := mkES (sw_offset w) (sw_buffer w).

(** ** The formatters of src/exception.cpp *)
(** :41-49; the delimiter is a view *)
(** src/exception.cpp:41-49 *)
Definition formatErrorStringJoin (memory : bool) (lhs rhs delim : list N) : outcome error_string :=
  let jointSize := size lhs + size rhs + size delim in
  let! w := sw_append (sw_new memory (u16 jointSize)) lhs in
  let! w := sw_append w delim in
  let! w := sw_append w rhs in
  Ret (sw_build w).
(** :51-66; literals and strerror pick append(const char* ) *)
(** src/exception.cpp:51-66 *)
Definition formatErrono (memory : bool) (strerror : Z -> list N) (errorCode : Z) (msgex : list N) : outcome error_string :=
  let errorString := ntake (u16 (size (strerror errorCode))) (strerror errorCode) in
  let bufferSize := measure_view msgex + measure_lit (lit "[") + measure_num (decz errorCode)
                    + measure_lit (lit "]: ") + measure_view errorString in
  let! w := sw_append (sw_new memory (u16 bufferSize)) msgex in
  let! w := sw_format w (lit "[") in
  let! w := sw_format w (decz errorCode) in
  let! w := sw_format w (lit "]: ") in
  let! w := sw_format w (strerror errorCode) in
  Ret (sw_build w).
(** :74-84 *)
(** src/exception.cpp:74-84 *)
Definition formatIlligalArgName (memory : bool) (argName : list N) : outcome error_string :=
  let bufferSize := measure_lit (lit "Illegal argument '") + measure_view argName + measure_lit (lit "'") in
  let! w := sw_format (sw_new memory (u16 bufferSize)) (lit "Illegal argument '") in
  let! w := sw_append w argName in
  let! w := sw_format w (lit "'") in
  Ret (sw_build w).
(** :87-125; [reason] is a view *)
(** src/exception.cpp:87-125 *)
Definition formatIndexOutOfRangeError (memory : bool) (messagePrefix indexName reason : list N) (index minValue maxValue : N) : outcome error_string :=
  let bufferSize := measure_view messagePrefix + measure_lit (lit " '") + measure_view indexName + measure_lit (lit "'=")
                    + measure_num (dec index) + measure_lit (lit " ") + measure_view reason + measure_lit (lit " [")
                    + measure_num (dec minValue) + measure_lit (lit ", ") + measure_num (dec maxValue) + measure_lit (lit ")") in
  let! w := sw_append (sw_new memory (u16 bufferSize)) messagePrefix in
  let! w := if negb (size indexName =? 0)
            then let! w := sw_format w (lit " '") in let! w := sw_append w indexName in sw_format w (lit "'=")
            else sw_format w (lit ": ") in
  let! w := sw_format w (dec index) in
  let! w := sw_format w (lit " ") in
  let! w := sw_append w reason in
  let! w := sw_format w (lit " [") in
  let! w := sw_format w (dec minValue) in
  let! w := sw_format w (lit ", ") in
  let! w := sw_format w (dec maxValue) in
  let! w := sw_format w (lit ")") in
  Ret (sw_build w).

(** src/stringView.cpp:29-35: a view of a C string, nullptr is empty; the length is cut
    to uint16. *)
Definition from_cstr (p : option (list N)) : list N :=
  match p with Some s => ntake (u16 (size s)) s | None => [] end.

(** ** The exceptions: src/exception.cpp:162-303.  Views and literals are their
    characters, C strings are [option (list N)] *)
Inductive exc :=
| Plain (message : list N)                                   (* Exception, IOException(StringView) *)
| IllegalArgument | IllegalArgumentNamed (name : list N)
| OutOfRange | OutOfRangeOf (index minValue maxValue : N)
| OutOfRangeIn (index minValue maxValue : N) (prefix : option (list N))
| OverflowOf (index minValue maxValue : N) | OverflowNamed (name : list N) (index minValue maxValue : N)
| NoSuchElement | NoSuchElementNamed (name : list N)
| InvalidState | InvalidStateTag (tag : option (list N))
| IOError (code : Z) | IOErrorMsg (code : Z) (message : list N)
| NotOpen.
(** src/exception.cpp:162-303: the constructors *)
Definition exc_build (memory : bool) (strerror : Z -> list N) (e : exc) : outcome error_string :=
  match e with
  | Plain m => es_make memory m
  | IllegalArgument => es_make memory (lit "IllegalArgumentException")
  | IllegalArgumentNamed n => formatIlligalArgName memory n
  | OutOfRange => es_make memory (lit "Index out of range")
  | OutOfRangeOf i a b => formatIndexOutOfRangeError memory (lit "Index out of range") [] (lit "is out of range") i a b
  | OutOfRangeIn i a b p => formatIndexOutOfRangeError memory (from_cstr p) [] (lit "is out of range") i a b
  | OverflowOf i a b => formatIndexOutOfRangeError memory (lit "Value") [] (lit "overflows range") i a b
  | OverflowNamed n i a b => formatIndexOutOfRangeError memory (lit "Value") n (lit "overflows range") i a b
  | NoSuchElement => es_make memory (lit "No such element")
  | NoSuchElementNamed n => formatErrorStringJoin memory (lit "No such element") n (lit " ")
  | InvalidState => es_make memory (lit "Invalid State")
  | InvalidStateTag t => formatErrorStringJoin memory (lit "Invalid State") (from_cstr t) (lit " ")
  | IOError c => formatErrono memory strerror c (lit "IOException")
  | IOErrorMsg c m => formatErrono memory strerror c m
  | NotOpen => es_make memory (lit "File descriptor not opened")
  end.

(** ** Assertions: src/assert.cpp.  The value, or the exception raised. *)
(** :29-76; without a message, or with one *)
(** src/assert.cpp:29-79 *)
Definition assertValueInRange (index from to : N) (message : option (option (list N))) : N + exc :=
  if (to <=? index) || (index <? from)
  then inr (match message with None => OutOfRangeOf index from to | Some m => OutOfRangeIn index from to m end)
  else inl index.
(** :80-102 *)
(** src/assert.cpp:83-105 *)
Definition assertIndexInRange (index size : N) (message : option (list N)) : N + exc :=
  if size <=? index then inr (OutOfRangeIn index 0 size message) else inl index.

(** ** Life of the message: string_utils.hpp:40-61, src/errorString.cpp:35-40.
    Exceptions of a program; a buffer is named by a number.  Exceptions cannot be
    copied, and assignment is not declared. *)
Record message_obj := mkMsg { m_size : N; m_buffer : option nat }.
Record mworld := mkMW { mw_objs : list (option message_obj); mw_texts : list (list N); mw_freed : list nat }.
Inductive mop := MNew (text : list N) | MMove (i : nat) | MDestroy (i : nat).
Definition mget (w : mworld) (i : nat) : option message_obj := match nth_error (mw_objs w) i with Some (Some o) => Some o | _ => None end.
Fixpoint mset {A} (l : list A) (i : nat) (x : A) : list A :=
  match l, i with [], _ => [] | _ :: t, O => x :: t | h :: t, S i' => h :: mset t i' x end.
Definition mstep (w : mworld) (o : mop) : mworld :=
  match o with
  | MNew t => mkMW (mw_objs w ++ [Some (mkMsg (size t) (Some (length (mw_texts w))))]) (mw_texts w ++ [t]) (mw_freed w)
  | MMove i =>
      (* the new object takes size and buffer, the old one keeps its size *)
      match mget w i with
      | Some m => mkMW (mset (mw_objs w) i (Some (mkMsg (m_size m) None)) ++ [Some m]) (mw_texts w) (mw_freed w)
      | None => w
      end
  | MDestroy i =>
      match mget w i with
      | Some m => mkMW (mset (mw_objs w) i None) (mw_texts w)
                    (match m_buffer m with Some b => mw_freed w ++ [b] | None => mw_freed w end)
      | None => w
      end
  end.
(** Exception::toString of object [i], include/solace/exception.hpp:61-63 *)
Definition mtext (w : mworld) (i : nat) : outcome (list N) :=
  match mget w i with
  | Some m =>
      match m_buffer m with
      | Some b => if existsb (Nat.eqb b) (mw_freed w) then UB else
                  match nth_error (mw_texts w) b with Some t => Ret (ntake (m_size m) t) | None => UB end
      | None => if m_size m =? 0 then Ret [] else UB
      end
  | None => UB
  end.
