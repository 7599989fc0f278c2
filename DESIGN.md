# A Rocq model of libsolace

## 1. Approach

`/verif/rocq/theories` holds, for every area of the library, up to four files:

| suffix | content |
| --- | --- |
| `*Model.v` | executable Gallina transcription of the C++ functions, each definition cites file:lines of `/repo`; no proofs |
| `*Spec.v` | a small specification written without looking at the code (RFC text, list functions, order axioms, ...) |
| `*Proofs.v` | lemmas |
| `*Props.v` | only the property theorems (`exact lemma`), `Print Assumptions` and a satisfiability `Example` for each |

Conventions of the model (`Base.v`):

* C++ behaviours are `outcome A`: `Ret a` (normal return), `Throws e` (a C++ exception leaves the function),
  `Terminates` (an exception reaches a `noexcept` boundary, i.e. `std::terminate`), `UB` (undefined behaviour: out of
  bounds access, use of a dead object, ...) and `OutOfFuel` (the loop did not finish within the given number of
  iterations). A library `Result<T, Error>` is `Ok v | Err code`.
* bytes and unsigned integers are `N`; every place where the C++ type wraps carries an explicit `mod 2^k`
  (`u8 u16 u32 u64`). `char` is modelled as its byte value; where the code promotes a (signed) `char` to a wider
  type, the sign extension is written out (x86-64/GCC: `char` is signed).
* A view or buffer is the list of its bytes plus, where the code can look past the end, the memory that follows it.
* Loops are structural recursion or explicit fuel with `OutOfFuel` when exhausted.

## 2. Plan per property

| id | what is modelled | how it is proved |
| --- | --- | --- |
| C01 | `MemoryView::slice`, `MutableMemoryView::slice` on 64-bit indices | list lemma: equals `firstn`/`skipn` with clamped bounds, index-wise characterisation |
| C02 | `equals`, `write`, `read`, `fill` | case analysis and list lemmas |
| C03, C04 | ByteReader as a record (bytes, position, limit), all operations with uint64 wrap-around | invariant by induction over operation lists; refinement to a cursor over a list; refutation of the unrestricted version (limit below position) |
| C05 | ByteWriter over a byte list with explicit capacity and limit | frame theorem; refutation for writes crossing the limit; exact refinement (results, error codes, position, limit, bytes) of every history that does not put the limit below the position, including writes refused after they stored their bytes (WriterProps) |
| C06, C07 | readLE/BE, writeLE/BE built from the host-order byte transfer plus reversal | arithmetic on base-256 digits, induction over field lists |
| C08-C10 | tables and loops of base16.cpp | finite sweep over 256 bytes lifted to lists by induction; refutation witness for byte >= 128 |
| C11-C14 | base64encode/base64decode loops, tables, size functions; memory after the view is a parameter | induction three bytes at a time against a bit-string spec; refutation of memory independence |
| C15 | detail::wrap/unwrap/tryParseAtom | base-256 positional arithmetic |
| C16-C18 | UUID parse/toString/equals/less | finite nibble sweep + induction, explicit 16-byte destination with UB on overflow; lexicographic order |
| C19-C25 | StringView functions with uint16 sizes | inductions over lists, separate occurrence/split specs; refutations for compareTo and 3-argument split |
| C26-C28 | String factory functions with uint16 totals | list induction; refutations for wrap and for joining an empty list |
| C29-C31 | Path as component lists | list induction, normalisation against a location semantics; refutations |
| C32, C33 | Version comparison, parse, toString | lexicographic order lemmas; round trip with decimal printing |
| C34 | dial string parser | case analysis on split |
| C35, C36 | MemoryManager as a state machine with an arbitrary system allocator oracle | invariant over histories; refutation for swap |
| C37 | MemoryResource handles as an ownership state machine | invariant over histories |
| C38, C39 | Vector/Array with a ghost heap of constructed objects and throwing constructors | refinement to bounded list, exactly-once invariant |
| C40, C41 | Dictionary as two vectors | refinement to association list; refutation of replacement |
| C42 | VariableSpan iterator | induction over records |
| C43 | filter iterator | induction; refutation |
| C44-C46 | Optional/Result as sums, plus storage-level model with constructed/destroyed flags | laws by case analysis; invariants over histories |
| C47, C48 | MD5/SHA1/SHA256 update/digest and block functions with 32-bit arithmetic | buffering invariant over chunk lists; unrolled code equals round-indexed spec |
| C49 | Murmur3 update/digest | refutation; last-update theorem |
| C50 | MessageDigest::toString through Vector and ByteWriter | refutation / exact behaviour |
| C51 | Env over a list of NAME=VALUE strings with POSIX setenv/unsetenv/clearenv as specified | induction over the environment; refutations |
| C52 | StringBuilder over ByteWriter | refinement; boundary refutations |
| C53 | registry over Dictionary | corollary of C40 |
| C54 | StringWriter and formatters | length accounting |
| C55 | `MemoryView::dataAs<T>` with and without offset | case analysis on the bound check with 64-bit wrap; refutation of the wrapped sum |
| C56 | `atom()`/`tryParseAtom` on arbitrary bytes, sign extension of `char` | injectivity of base-256 digits; refutation for bytes above 127 |
| C57 | `makeUUID` (both overloads) | list lemma |
| C58 | ByteWriter `flip`, `clear`, `rewind`, `viewWritten` | state lemma over any write history |
| C59, C60 | `Path::compareTo`, `Path::length` | lexicographic order over the component order of C20; sum of sizes; refutations |
| C61 | `makePath(a, b, ...)`, `details::joinComponents` | list induction |
| C62-C64 | StringBuilder `measureFormatted`, `indexOf`, `substring` | decimal printing lemmas, occurrence spec; refutation at the last position |
| C65, C66 | `Version::parse` over view and following memory | locality; grammar of accepted texts; refutations |
| C67 | `makeArray`, `Array::size/empty`, `Vector::toArray` | arithmetic with 64-bit wrap; refutations |
| C68, C69 | histories of any number of Optional/Result objects as values; equality operators | refinement to a pure value store; case analysis |
| C70, C71 | one update of any length; any history of update and digest | exact 64-bit length counter arithmetic; chain lemma; refutations |
| C72, C73 | Sha3 and `getDigestLength` | exact value; refutations |
| C74 | `HashingAlgorithm::update(ByteReader&)` | reader lemma |
| C75 | Murmur3 32, 128 (x86 and x64 bodies) | equality with a published-form specification (block fold with tail) |
| C76 | Env iteration and `size()` with 16-bit counters | induction over the environment; endless-loop refutation |
| C77 | static initialisation order of the error registry | both orders modelled; refutation |
| C78 | `Error::toString` | text specification; refutation at 65536 characters |
| C79, C80 | ErrorString ownership over any history; range assertions and their texts | ownership invariant; text specification |
| C81, C82 | ArrayView over an element memory: equality, `[]`, `set`, `fill`, `slice`, `indexOf`, `forEach` | index-wise characterisation with byte offsets and 64-bit wrap; refutations |
| C83, C84, C90 | Char: bytes, code point, classification | exact effect on the four bytes, invariant over histories; finite sweep over one byte for the C classification functions; refutations |
| C85, C86, C91 | stream output of views, digests, optionals, dial strings, errors | exact texts and injectivity; print/parse round trip for dial strings |
| C87 | `makeRandomUUID` over the generator `std::default_random_engine` of libstdc++ (minstd_rand0) | modular arithmetic; refutation of randomness of all bytes |
| C88 | `UUID::toString(MutableMemoryView)` on every buffer length | case analysis |
| C89 | `MemoryView::lock` and the Lock objects | ownership invariant over histories |
| C92, C93, C94, C95 | String objects with their heap blocks and the views of them, over any program of make, copy, move, assign, swap, destroy, view, substring | refinement to variables holding texts; ownership invariant |
| C96 | the Path operations with every schedule of failing allocations | exact results; refutations where a failure is dropped |
| C97 | Path iterators, `forEach`, `Path::Root` | loop invariant |
| C98 | `Path::startsWith/endsWith/contains` of a text | characterisation through C19 and C21 |
| C99 | ByteReader, ByteWriter and MemoryResource objects with their heap blocks, over any program of allocate, construct (owning, borrowing, from a slice), move, assign, swap, moveResource, destroy, read, write | ownership invariant by induction over programs |
| C100 | the same: what a new reader or writer shows, and what a read or write of one object does to the memory and to every other object | refinement to the read cursor of C03; effect on every byte of every block |
| C101 | the same: moves, swaps, moveResource, empty objects | comparison of the answers before and after |
| C102 | a writer and a reader on the same memory, any interleaving | refinement to a FIFO queue |
| C103 | programs over any number of Vectors and Arrays, with copies, comparisons and everything of C38/C39 | refinement: the program sees lists; lifetimes; frame |
| C104 | the same: ==, !=, copies (failing ones too), comparison with a list and with nullptr | from the refinement; array null test refuted |
| C105 | split (C22) and join (C26) together | round trip one way; exact condition for the other way |
| C106 | replacing texts and characters (C28) twice | algebraic laws from the exact result of one replacement |
| C107 | Base16 and Base64 encoders and the Base16 decoder called twice | equality with one call, errors included; exact condition for Base64 |
| C108 | UUID comparison, toString and StringView::compareTo together | order of the bytes equals order of the texts |
| C109 | programs over any number of MemoryView, MutableMemoryView and StringView variables on one memory: construct, copy, move, assign, swap, slice, fill, write, read, index, typed access, compare, C strings | invariant and provenance of every window by induction over programs; two refutations |
| C110 | the same: bytes outside the ranges given for writing | frame invariant by induction; refuted by swap and move assignment across the two view types |
| C111 | the same: effect of each operation on the memory, the answers and the views made, and what other views see | exact effect per operation in every reachable state |
| C112 | the same: texts made from views and C strings and back | exact bytes below 2^16; exact truncation above |
| C113 | the same: copy, move, assignment and swap of variables | exact windows afterwards |
| C114 | programs over any number of String, Vector, Array, StringBuilder, MessageDigest, Version, UUID and Path variables and the heap manager they share, with an arbitrary malloc: create, copy, concatenate, append, push, print, parse, convert, move, assign, swap, destroy, lock | ownership invariant by induction over programs |
| C115 | the same while the manager is locked | induction over programs; every request fails |
| C116 | the same: effect of each operation on the values, and on the memory | refinement of a specification without memory: effect, or failure without change; refuted for the toString functions |
| C117 | the same: operations that need no memory | they have their effect in every state |
| C118 | every overload of == and != between String, StringView, StringLiteral and C strings | equality of texts for every pair of types; refuted for C strings of 65536 characters or more |
| C119 | <, <=, >, >= of StringView and < of String over compareTo | complements for all texts; strict total order on 7-bit texts; refutations |
| C120 | measure and measureFormatted against append, over sequences of pieces | exact condition by induction over the sequence; refuted for a number at the end |
| C121 | programs over any number of ArrayView<T> variables, any element sizes and alignments, one byte memory (TypedModel) | every fair program runs, by an invariant over the operations; provenance of every window; refuted for emplaceAll with too many values |
| C122 | the same programs | effect of each operation on memory, answers and elements for all reachable states; refuted for slices whose byte offset wraps |
| C123 | the same programs | bytes not given for writing keep their value, by induction over the program; refuted for emplaceAll with too many values |
| C124 | the same programs | exact windows after copy, conversion, move, assignment and swap |
| C125 | UUID parsing (UUIDModel) | all outcomes characterised by rows of tokens (a dash or a pair of digits); induction over the memory read |
| C126 | version parsing (VersionModel) | acceptance characterised by an independent specification of C numerals, dots and tags |
| C127 | path normalisation (PathModel) | simulation between the stack of normalize and (levels climbed, names); exact condition for keeping the location |
| C128 | the path operations together | algebraic laws from the exact descriptions C31, C61, C127; one refuted direction |
| C129 | Base16 and Base64 codecs over ByteWriter | each codec equals a specification that writes pieces of a fixed size until one does not fit; induction over the text |
| C130 | comparison operators (CompareModel) | case analysis over what the operands hold; lawfulness transferred from the payload's equality |
| C131 | Error (ErrorModel) | case analysis; equality decided by code and domain |
| C132 | size predictions of the codecs | corollary of C129 and the size of the texts of the specifications; refuted for two kinds of Base64 text |
| C133 | concatenation, joining, replacement (StringModel) for all lengths | each loop simulates pouring a script of parts into a block; induction over the parts |
| C134 | Dictionary as in C40, all histories including throwing keys | refinement to two columns by induction over the history (ColumnsSpec, ColumnsProps) |
| C135 | managers and resources as in C35/C36, all histories with swaps and moves | books in whole numbers kept by the specification; invariant by induction; conservation law for swaps (LedgerSpec, LedgerProps) |
| C136 | atom parsing as in C15, all byte strings, signed char | invariant of the shifting loop: the word is the window of masked characters; injectivity of big-endian words (AtomAllProps) |
| C137 | the StringBuilder model of C52, C63 and C64 without any bound on the length of the text | the buffer invariant of C52; the 16-bit index loop by induction on the distance to the first hit, divergence as OutOfFuel for every fuel (BuilderAllProps) |
| C138 | the model of C51 and C76 with arbitrary strings, argument memory and failing allocation | a relational specification of each call over the list of strings, proved sound and complete; histories by induction (EnvAllSpec, EnvAllProps) |
| C139 | the exception and StringWriter model of C54 without bounds | states of the writer: within its memory, or past it, where the next write is undefined; each formatter by case analysis on the wrapped size (ExceptionAllProps) |
| C140 | StringViewModel.sv_compareTo, PathModel.path_compareTo | soundness by cases on the specification, totality by trichotomy, uniqueness of the answer |
| C141 | PathModel.path_length, path_toString over StringModel.str_join | C133_join with all-or-nothing scripts, 16-bit arithmetic |
| C142 | DialModel, OutputModel.out_dial, AtomModel | C34_fields and C136 give the parts; lengths show a protocol with ':' cannot come back |
| C143 | CharModel | simulation of a four-byte specification; values as little-endian numbers; classification through the 256 bytes |
| C144 | AssertModel, ExceptionModel | case analysis, with the exact messages of C139; induction over calls |
| C145 | ExceptionModel mstep, mtext | simulation of a three-state specification, counting buffers |
| C146 | VersionModel | lexicographic order; accumulated pieces of the builder without bound; uniqueness of the cut at the plus sign |
| C147 | LockModel | simulation of an owner map with an event log; invariant that every taken range is given back or owned |
| C148 | EnvModel (env_forEach_do with an arbitrary callback) | refinement to a walk over places by induction on the visits; growth invariant for sets; induction on the number of variables for unset |
| C149 | ErrorModel, PosixModel (enumerations, makers, text of the POSIX domain), OutputModel | registry refinement of C53, pouring lemma of C133, bytes of identifiers of C142; comparison of the enumerations by computation lifted to a statement on names |
| C150 | TextOpsModel, StringViewModel | what each operand shows, exact relation of C140 lifted to the operators; sortability in both directions, by the longest of three texts deciding |
| C151 | PathAllocModel | survivors of the copy loop as an inductive relation, all choices realised; loss relation of normalize in both directions by induction from the end |
| C152 | OptResModel | step refinement of C45 extended to all operations, fate of an operation computed from the abstract values; induction over programs |
| C153 | ContainerModel | containers shown as class, bytes and elements with holes; step refinement with holes and lifetime invariant; induction over programs |
| C154 | ContainerValueModel (vc_run) | simulation by abstract containers with holes, by induction over programs; C154_alike characterises the comparison, C154_wrapped the copies of wrapped arrays |
| C155 | DigestValueModel (d_run), on the arrays of ContainerValueModel | simulation by lists of byte strings, from the exact step theorem behind C154 |
| C156 | TypedModel (t_step) | from the invariant of reachable states and the byte-level slice theorems |
| C157 | RandomModel (makeRandomUUID) | the step of the engine is a bijection on 1 .. 2^31 - 2 (inverse multiplier) |
| C158 | StringViewModel (search with the memory behind the views) | the loop is the character search over the text and one more byte, by induction |
| C159 | EnvIterModel (iterators as objects over the process of EnvModel) | refinement to positions by induction over the program; calls by C138 |
| C160 | The codecs with the source and the writer's storage in one block, every read sees earlier writes | Induction over the source: the part not yet read is unchanged; converse by buffers of one repeated byte |
| C161 | Path construction where any request can be refused | Induction over the parts and the pieces: one answer used for each copy |
| C162 | UUID objects in one memory, std::swap element by element (UUIDProgModel.v) | Simulation step by step and induction over the program; comparison, sections and digits of bytes against those of the number |
| C163 | Path objects and iterators holding places in memory, an arbitrary allocator that may use places again (PathIterModel.v) | Simulation with sequences that have one owner each: live sequences lie apart, positions are kept |
| C164 | AliasModel: references read at the time of the copy, over the buffers of ContainerModel | simulation to a bounded sequence |
| C165 | RefsModel: blocks of memory with names, objects own blocks, references are addresses | simulation to contents that keep their names; each block has one owner |
| C166 | RefResModel: the union of OptResModel with wrappers as numbers of elements, swap step by step | simulation to a table of names |

## 3. Trusted base

* Coq 8.16.1 kernel, including its `vm_compute` virtual machine (`coqchk` re-checks everything without it).
* Axioms: none. `Print Assumptions` stands under every property theorem in the `*Props.v` files and prints
  "Closed under the global context" for every one of them. `coqchk -o` lists, in addition, the seven constants
  `Coq.ssr.ssrunder.Under_rel.{Under_rel, Under_relE, Over_rel, Under_rel_from_rel, over_rel, over_rel_done,
  under_rel_done}`: they are the abstract members of a module type of the standard library, loaded with the
  standard library and used by none of the theorems.
* Only the standard library is used (`List`, `NArith`, `ZArith`, `Lia`, `Permutation`, `Ascii`, `String`).
* The reading of the C++ source: each definition cites what it models and states its simplifications. Nothing in
  this development is checked against a running program.
* The behaviour of what lies outside the repository, written into the models as definitions and parameters:
  `malloc`/`calloc`/`free` (an arbitrary oracle decides which requests succeed; blocks are distinct; contents of
  fresh `malloc` memory are arbitrary), `memcpy`/`memmove`/`memset`/`memcmp`, `snprintf` with `%d %u %lu %s`,
  `strtoul`, `strerror` (some C string for every code), `setenv`/`unsetenv`/`clearenv` (as glibc documents them),
  `isdigit` and its family in the "C" locale, `std::minstd_rand0`.
* Platform: x86-64 / GCC data model (64-bit `size_t`, signed `char`, `int` of 32 bits). Byte order of the host is a
  parameter (`host_be`) wherever the code depends on it.

## 4. What is modelled

| source | model | left out |
| --- | --- | --- |
| memoryView.*, mutableMemoryView.* | MemViewModel, LockModel, ViewsModel | types whose construction does more than write their bytes |
| memoryManager.*, memoryResource.* | MemoryModel, StreamObjModel, SystemModel | page size queries (`sysconf`) |
| byteReader.*, byteWriter.*, encoder.* | ByteIOModel, StreamObjModel, Base16Model | floating point overloads are byte copies of their size |
| base16.*, base64.* | Base16Model, Base64Model | |
| atom.*, uuid.*, dialstring.*, version.* | AtomModel, UUIDModel, RandomModel, DialModel, VersionModel | `getBuildVersion` |
| stringView.*, string.*, stringBuilder.*, char.* | StringViewModel, ViewsModel, StringModel, StringObjModel, BuilderModel, FmtModel, CharModel, TextOpsModel | `toLower`/`toUpper` beyond ASCII |
| path.* | PathModel, PathAllocModel, SystemModel | |
| array.hpp, arrayView.hpp, vector.hpp, details/array_utils.hpp | ContainerModel, ContainerValueModel, ArrayViewModel, TypedModel | throwing destructors; in TypedModel elements are trivially copyable |
| dictionary.hpp, range_view.hpp, variableSpan.hpp | DictModel, SpanModel | |
| optional.hpp, result.hpp | OptResModel | `Optional<T&>` is a pointer; type computations |
| hashing/* | HashModel, MurmurModel | alignment of word loads |
| env.*, error.*, errorDomain.*, systemErrorDomain.*, posixErrorDomain.hpp | EnvModel, ErrorModel | the error code table is constants |
| exception.*, errorString.cpp, details/string_utils.hpp, assert.* | ExceptionModel | |
| output_utils.hpp | OutputModel | stream formatting flags and failing streams |

Not modelled at all: overload resolution and the type computations of `traits/`, threads (the library starts none; it
has no synchronisation, so concurrent use of one object is outside), performance, and the build configuration.

## 5. Findings

Statements that are false of the code are proved false (`..._refuted`); the rest of the statement is proved under the
exact guard that is needed (`..._partial`). The list by area:

* Memory views: `dataAs<T>(offset)` accepts offsets whose sum with `sizeof(T)` wraps (C55, C109). A MutableMemoryView
  is a MemoryView, so `swap` and move assignment between the two types make read-only memory writable without a cast (C110).
* ByteReader/ByteWriter: `limit()` accepts a limit below the position (C04); a write that fits the capacity but not the
  limit overwrites bytes and then reports an error (C05).
* Base16: bytes above 127 index past the 128-entry table (C10). Base64: the decoder ignores the size of the view and
  stops only at a non-alphabet byte (C12, C13); the empty message is rejected; `decodedSize` is wrong for the
  URL-safe alphabet (C14).
* UUID: parse overflows the value on 36 digits, accepts misplaced dashes, may return indeterminate bytes, reads one
  character past the end, indexes past the table on bytes above 127 (C17).
* StringView: `compareTo` is not lexicographic, not antisymmetric, and terminates against an empty view (C20); the
  single-character `startsWith`/`endsWith` look at an empty view (C19); 65536 pieces are counted as 0 (C22); the
  three-argument `split` with an empty delimiter never ends (C23); `operator[]` does not check its index although it is
  documented to throw (C109); a view or C string of 65536 bytes or more is cut to its size modulo 2^16 (C112).
* String: concatenation truncates silently past 65535 characters, joining an empty list returns heap garbage (C27);
  replacement of characters above 127 does nothing and an empty pattern never ends (C28). `substring(from, len)` takes
  the length for the end of the piece, so the documented piece comes only for from = 0 (C95).
* Path: the empty text prints as the delimiter, "a//" does not round trip, 65535 delimiters parse to nothing (C29);
  `normalize` loses the root of "/../a" and turns "../.." into nothing, "a/.." leaves a path on which `isAbsolute`
  terminates (C30); `startsWith`/`endsWith` compare the last component textually (C31); comparing a relative with an
  absolute path terminates (C59); `length` wraps at 2^16 (C60). Without memory `normalize`, `getParent` and `subpath`
  drop the components they could not copy, so that "a/../b" can become "../b"; `subpath` may end the program, and the
  text of the path is empty (C96).
* Version: `v < v` holds, pre-release tags are ignored by `>` but not by `==` (C32); parse reads beyond its view (C65)
  and accepts malformed texts (C66).
* Dial strings: extra pieces are dropped (an IPv6 address loses its tail), "host:port" without protocol is rejected,
  white space is dropped, a NUL truncates the protocol (C34).
* MemoryManager: moving or swapping managers with outstanding memory credits the wrong manager (C36).
* Containers: `Array = nullptr` and a throwing `ArrayView::emplace` destroy elements twice (C39); `makeArray` wraps its
  byte count (C67); `Array::empty` disagrees with `size` (C67).
* Containers as values: an array without elements can compare different from nullptr, although it equals one that compares
  equal to it (C104); a vector equals itself even if its elements do not equal themselves (C104).
* Dictionary: `put` never replaces (C41); a throwing key move leaves a value without key (C40).
* RangeView delivers its first element unfiltered (C43). VariableSpan shortens truncated records silently (C42).
* Optional/Result: `map` with an Optional-returning callback collapses `Some(none)` (C44); `flatMap` on an lvalue
  moves the payload out; self swap of a Result and assignment of an Optional from its own payload use a destroyed
  payload (C45); an Optional equals itself whatever `==` says (C69).
* Hashing: one update of 2^33 bytes or more miscounts the length (C70); `digest()` is not repeatable (C71); Sha3 gives
  a constant (C72); `getDigestLength` is in bits (C73); Murmur3 forgets earlier updates (C49) and depends on the host
  byte order (C75); `MessageDigest::toString` is always empty (C50).
* Env: values are cut at the second '=' , `clear` reports the opposite of what it did, names are read past the view
  (C51); `size()` never ends from 65536 variables on (C76).
* Error domains: whether the POSIX domain is registered depends on the static initialisation order (C77);
  registrations beyond 128 are dropped. `Error::toString` of a 65536-character text is empty (C78).
* Exceptions: message sizes wrap at 16 bits, which overruns the heap; a failed `calloc` is written through (C54);
  a moved-from exception keeps its size with a null buffer (C79).
* ArrayView: views of the same place are equal whatever `==` says (C81); slices of views of 2^63 elements and more wrap,
  `forEach(index, value)` hands out copies, `empty()` asks for the address and not for the size (C82).
* Char: more than five bytes are written behind the object, and the C string of a copied four-byte character reads an
  indeterminate byte (C83); the value of a non-ASCII Char is not its code point, and two ways to make one character give
  different Chars (C84); classification of anything but a single byte is undefined behaviour (C90). On a big-endian host
  this concerns every Char, and with it `StringView::trim`.
* Output: an atom is printed through `char[sizeof(N)+1]` with `N` of type `size_t`: where it has fewer than eight bytes the
  buffer overflows (C86, C91). Printed dial strings with ':' in the address are read back differently (C86). Errors of two
  domains with one name print alike (C91).
* Random UUIDs: a 32-bit seed, 31-bit numbers stored in 64-bit words: half of the bytes are zero, the second half follows
  from the first, no UUID is a version 4 UUID (C87).
* `UUID::toString` into a short buffer ends with a '-' or an old byte (C88).
* Locks do not nest: destroying one Lock unlocks pages another Lock still covers (C89). The public constructor of Lock
  locks nothing but its destructor unlocks.
* Whole programs: `toString` of digests, versions, UUIDs and paths answers an empty text when memory is short, so a program
  cannot tell a failure from an empty text (C116). `a = mv(b)` of Versions leaves in `b` the numbers of `b` and the tags of
  `a`. A digest given memory that could not be had throws instead of returning an error.
* Text operators: a C string of 65536 characters or more equals a short prefix of itself (C118). `a < ""` and the other
  orderings against an empty right operand end the program for every non-empty `a`; with characters above 127 two texts
  can each be less than the other (C119).
* A buffer sized with `measure` and `measureFormatted` loses a number that ends the text, since formatting needs one byte
  more; `measure("...")` counts the terminating zero, which hides this when a quoted string came before (C120).
* ArrayView: `emplaceAll` does not compare the number of values with the number of elements, it writes behind the view
  (C121, C123). `slice(from, to)` multiplies by the element size without a check: `slice(2^63, 2^63 + 2)` of two-byte
  elements shows the first two (C122).
* Joining with a normalised second path can lead elsewhere: `x/y` joined with `../..`, which normalises to
  nothing, stays `x/y` (C128). The parity of the levels climbed is all that normalisation keeps (C127).
* `==` of Optionals and of Results is declared noexcept although the payload's operator may throw, so an exception ends
  the program; `!=` and the comparisons with plain values let it pass (C130).
* `Base64Decoder::decodedSize` is 0 for text whose length is no multiple of four (e.g. with a line feed at the end) and
  for URL-safe text starting with `-` or `_`, though decoding such text yields bytes (C132).
* Strings of 65536 characters and more: makeString stops at the first part that does not fit and shows heap content
  after it; makeStringReplace leaves single parts out (C133).
* Env: unsetting each variable while walking over them skips variables and, with three or more, reads past the end of the
  environment; `env.unset(var.name)` and `env.set(var.name, ...)` with the view handed out by the walk always fail with
  EINVAL, since the C library reads on to the end of the value (C148).
* `makeError(BasicError::Overflow, ...)`, returned by vectors and by `MutableMemoryView`, has code 0: it converts to false
  and reads as the C library's text for success; `BasicError::InvalidInput` equals `GenericError::PERM` and reads as
  "operation not permitted" (C149).
* Texts without NUL can go round under `<`: `"aa" < "\xc8\xc8" < "x" < "aa"`; C150 says exactly which collections of
  texts can be sorted or used as keys of a map.
* Iterators of different paths at the same position compare equal (`Path::Iterator::operator==` looks at the index only),
  and an iterator used after its path is gone can show a component of another path that got the same memory (C163).
* A default-constructed VariableSpan leaves its element count uninitialised (variableSpan.hpp:150, 193): its size() is
  indeterminate. The model only builds spans with the two-argument constructor. The move assignment of its iterator calls
  a swap that does not exist (variableSpan.hpp:102-104), so a program using it does not compile.
* ArrayView::emplace(i, view[i]) reads the element after destroying it (arrayView.hpp:228-230): replacing an element by
  itself is undefined, while set(), fill() and push_back() are safe with own elements (C164).
