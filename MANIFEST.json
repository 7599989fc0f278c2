{
 "claims": [
  {
   "property": "C01",
   "status": "proved",
   "theorems": [
    "C01_slice_exact",
    "C01_range_meaning",
    "C01_slice_slice",
    "C01_index",
    "C01_sliceFor",
    "C01_sliceFor_any"
   ],
   "note": "Slices of both view types are exactly the clamped index range and stay inside the view; nested slices compose; indexing; sliceFor for all arguments, in elements while byte offsets are representable."
  },
  {
   "property": "C02",
   "status": "proved",
   "theorems": [
    "C02_equals",
    "C02_write",
    "C02_read",
    "C02_fill",
    "C02_fill_range"
   ],
   "note": "Equality, write (incl. overlapping source), read, fill and ranged fill."
  },
  {
   "property": "C03",
   "status": "proved",
   "theorems": [
    "C03_reader_refines_cursor",
    "C03_delivered_in_order"
   ],
   "note": "Refinement of every history to an abstract cursor in unbounded arithmetic; in-order delivery."
  },
  {
   "property": "C04",
   "status": "partial",
   "theorems": [
    "C04_reader_memory_safe",
    "C04_writer_memory_safe",
    "C04_limit_partial",
    "C04_limit_refuted",
    "C04_writer_limit_refuted"
   ],
   "note": "False in full: limit() accepts values below the position (C04_limit_refuted, and for writers C04_writer_limit_refuted). Proved for histories respecting the contract, and memory safety for all histories."
  },
  {
   "property": "C05",
   "status": "partial",
   "theorems": [
    "C05_write_partial",
    "C05_history_partial",
    "C05_rejected_write_refuted",
    "C05_limit_history"
   ],
   "note": "False in full: a write that fits the capacity but not the limit clobbers the bytes and returns an error (C05_rejected_write_refuted). The exact effect of one write, ideal behaviour for histories that never lower the limit, and the exact behaviour (results, error codes, bytes) of all histories that do not put the limit below the position (C05_limit_history) are proved."
  },
  {
   "property": "C06",
   "status": "proved",
   "theorems": [
    "C06_writer_byte_order",
    "C06_order_meaning",
    "C06_reader_byte_order",
    "C06_value_of_bytes"
   ],
   "note": "Both orders, all widths, either host byte order."
  },
  {
   "property": "C07",
   "status": "proved",
   "theorems": [
    "C07_record_roundtrip"
   ],
   "note": "Heterogeneous records, any host byte orders on both sides."
  },
  {
   "property": "C08",
   "status": "proved",
   "theorems": [
    "C08_encode_exact",
    "C08_written",
    "C08_encodedSize",
    "C08_iterator",
    "C08_encode_reader"
   ],
   "note": "Text, size prediction, iterator, reader overload, and error when out of room."
  },
  {
   "property": "C09",
   "status": "proved",
   "theorems": [
    "C09_decode_encode",
    "C09_decode_total",
    "C09_iterator"
   ],
   "note": "Complete characterisation on 7-bit text (bytes above 127 are C10)."
  },
  {
   "property": "C10",
   "status": "partial",
   "theorems": [
    "C10_decode_safe_partial",
    "C10_decode_refuted"
   ],
   "note": "False in full: kHexToBin has 128 entries and is indexed by an unchecked byte (C10_decode_refuted). Safe on 7-bit text."
  },
  {
   "property": "C11",
   "status": "proved",
   "theorems": [
    "C11_encode_rfc4648",
    "C11_encodedSize"
   ],
   "note": "Both alphabets against a bit-level RFC 4648 specification."
  },
  {
   "property": "C12",
   "status": "partial",
   "theorems": [
    "C12_decode_encode_partial",
    "C12_decode_encode_refuted"
   ],
   "note": "False in full: empty message rejected; unpadded text followed by alphabet characters decodes too much (C12_decode_encode_refuted). Proved otherwise."
  },
  {
   "property": "C13",
   "status": "partial",
   "theorems": [
    "C13_decode_exact",
    "C13_decode_local_partial",
    "C13_decode_local_refuted"
   ],
   "note": "False in full: the scan loop ignores the size of the view (C13_decode_local_refuted). Exact behaviour on every memory proved (C13_decode_exact); locality when the text contains a terminator."
  },
  {
   "property": "C14",
   "status": "partial",
   "theorems": [
    "C14_decodedSize_partial",
    "C14_decodedSize_url_refuted"
   ],
   "note": "True for the standard alphabet; false for the URL-safe decoder (C14_decodedSize_url_refuted)."
  },
  {
   "property": "C15",
   "status": "proved",
   "theorems": [
    "C15_accepts",
    "C15_round_trip",
    "C15_injective_and_ordered",
    "C15_literal"
   ],
   "note": "Round trip, injectivity and order for every NUL-free 7-bit text of at most 8 bytes; acceptance by length for all bytes."
  },
  {
   "property": "C16",
   "status": "proved",
   "theorems": [
    "C16_to_string",
    "C16_round_trip"
   ],
   "note": "toString into any buffer of at least 36 bytes and parse of the result, for every UUID."
  },
  {
   "property": "C17",
   "status": "partial",
   "theorems": [
    "C17_strict_partial",
    "C17_overflow_refuted",
    "C17_misplaced_refuted",
    "C17_indeterminate_refuted",
    "C17_overread_refuted",
    "C17_high_byte_refuted"
   ],
   "note": "Refuted: 36 digits overflow the value, misplaced dashes are accepted, dashes only give indeterminate bytes, one character past the end is read, bytes above 127 index past the table. Proved strict for 7-bit texts with the dashes in place and for wrong lengths."
  },
  {
   "property": "C18",
   "status": "proved",
   "theorems": [
    "C18_equality",
    "C18_order",
    "C18_strict_total_order",
    "C18_null_swap"
   ],
   "note": "memcmp order is lexicographic, strict, total and consistent with ==."
  },
  {
   "property": "C19",
   "status": "partial",
   "theorems": [
    "C19_equals",
    "C19_isEmpty",
    "C19_substring",
    "C19_startsWith",
    "C19_endsWith",
    "C19_char_partial",
    "C19_char_refuted"
   ],
   "note": "equals, isEmpty, substring, startsWith and endsWith on strings are exact. The single character overloads are exact on non-empty views only; C19_char_refuted: startsWith(char) reads past an empty view and both report a NUL for empty ones."
  },
  {
   "property": "C20",
   "status": "partial",
   "theorems": [
    "C20_compareTo_shortlex_partial",
    "C20_shortlex_is_order_partial",
    "C20_same_length_lexicographic_partial",
    "C20_compareTo_refuted"
   ],
   "note": "False in full (C20_compareTo_refuted: not lexicographic, zero for different strings, not antisymmetric, cyclic, ends the program against the empty string). Proved: on non-empty 7-bit strings without NUL it is the shortest-first total order; on equal lengths without NUL it is lexicographic."
  },
  {
   "property": "C21",
   "status": "proved",
   "theorems": [
    "C21_indexOf",
    "C21_lastIndexOf",
    "C21_indexOf_char",
    "C21_lastIndexOf_char",
    "C21_contains",
    "C21_empty_needle_reads_outside"
   ],
   "note": "All strings, non-empty needles, start indices and any memory behind the views. Extra: the empty needle reads outside both strings."
  },
  {
   "property": "C22",
   "status": "partial",
   "theorems": [
    "C22_split_partial",
    "C22_split_char_partial",
    "C22_pieces",
    "C22_count_partial",
    "C22_empty_delimiter",
    "C22_count_refuted"
   ],
   "note": "Pieces and indices proved exact for all strings and non-empty delimiters; the count is exact unless there are 65536 pieces (C22_count_refuted: reported as 0)."
  },
  {
   "property": "C23",
   "status": "partial",
   "theorems": [
    "C23_split_terminates_partial",
    "C23_split3_terminates_refuted"
   ],
   "note": "Proved for all overloads except the three-argument callback with the empty delimiter, which never ends on a non-empty string (C23_split3_terminates_refuted)."
  },
  {
   "property": "C24",
   "status": "proved",
   "theorems": [
    "C24_trim",
    "C24_trim_char",
    "C24_trimmed_unique"
   ],
   "note": "White space and single character trim, maximal and idempotent."
  },
  {
   "property": "C25",
   "status": "proved",
   "theorems": [
    "C25_hash_polynomial",
    "C25_hash_respects_equality"
   ],
   "note": ""
  },
  {
   "property": "C26",
   "status": "partial",
   "theorems": [
    "C26_copy",
    "C26_concat",
    "C26_join_partial",
    "C26_join_args"
   ],
   "note": "Copying, makeString(a, b, ...), makeStringJoin(by, a, b, ...) proved for all argument lists; makeStringJoin over an array proved for non-empty arrays, the empty array is refuted under C27."
  },
  {
   "property": "C27",
   "status": "partial",
   "theorems": [
    "C27_join_error_partial",
    "C27_join_views_error_partial",
    "C27_empty_join_refuted",
    "C27_concat_refuted",
    "C27_join_strings_refuted",
    "C27_replace_refuted"
   ],
   "note": "Proved: an array join or a join of StringView arguments that does not fit is an error. False: C27_concat_refuted (concatenation silently truncated), C27_empty_join_refuted (heap garbage), C27_join_strings_refuted, C27_replace_refuted."
  },
  {
   "property": "C28",
   "status": "partial",
   "theorems": [
    "C28_replace",
    "C28_replace_char_partial",
    "C28_replace_char_refuted",
    "C28_empty_pattern_never_ends"
   ],
   "note": "Replacement of strings proved for all inputs with representable result; of characters for 7-bit characters. C28_replace_char_refuted: characters from 128 on are never replaced. Extra: an empty pattern never ends."
  },
  {
   "property": "C29",
   "status": "partial",
   "theorems": [
    "C29_parse_partial",
    "C29_text_round_trip_partial",
    "C29_empty_text_refuted",
    "C29_path_round_trip_partial",
    "C29_path_round_trip_refuted",
    "C29_many_delimiters_refuted"
   ],
   "note": "Proved: parse is the piece list without an empty last piece; toString(parse(s)) = s for non-empty s without trailing delimiter; exact condition for parse(toString(p)) = p. Refuted: empty text, paths with an empty last component, texts of 65535 delimiters."
  },
  {
   "property": "C30",
   "status": "partial",
   "theorems": [
    "C30_idempotent",
    "C30_no_dots_partial",
    "C30_location_partial",
    "C30_absolute_partial",
    "C30_nothing_left_refuted",
    "C30_location_refuted"
   ],
   "note": "Idempotence proved for all paths; no '.', '..' at most first. Location and absoluteness proved when the path never climbs above its start (after a leading root or '..') and has no inner empty component; refuted otherwise ('/../a', '../..', 'a//..', 'a/..')."
  },
  {
   "property": "C31",
   "status": "partial",
   "theorems": [
    "C31_parent_basename",
    "C31_parent_basename_single",
    "C31_subpath",
    "C31_getComponent",
    "C31_equals",
    "C31_contains_partial",
    "C31_contains_refuted",
    "C31_startsWith_partial",
    "C31_endsWith_partial",
    "C31_startsWith_refuted"
   ],
   "note": "Parent/basename, subpath, getComponent, equals proved; contains proved for non-empty operand; startsWith/endsWith proved with the exact (weaker) textual-prefix meaning of the last component; component-prefix reading refuted."
  },
  {
   "property": "C32",
   "status": "partial",
   "theorems": [
    "C32_gt",
    "C32_gt_strict_order",
    "C32_lt_partial",
    "C32_lt_refuted",
    "C32_equals",
    "C32_equals_not_gt",
    "C32_prerelease_refuted"
   ],
   "note": "operator> is proved to be the lexicographic strict order on (major, minor, patch) and == equality of numbers and pre-release tag. operator< is !(a > b): proved right for versions whose numbers differ, refuted (v < v) otherwise; pre-release tags break consistency with ==."
  },
  {
   "property": "C33",
   "status": "proved",
   "theorems": [
    "C33_round_trip",
    "C33_text",
    "C33_parse",
    "C33_dash_limit"
   ],
   "note": "Round trip for every version whose tags contain no '+' and whose pre-release tag has no '-' at its ends (dots and inner dashes allowed). Includes that the byte parse reads past the text is the NUL left by snprintf. C33_dash_limit shows that tags ending in '-' are outside."
  },
  {
   "property": "C34",
   "status": "partial",
   "theorems": [
    "C34_fields",
    "C34_address_only",
    "C34_round_trip_partial",
    "C34_long_protocol",
    "C34_refuted"
   ],
   "note": "the parse is characterised exactly; formatting the parts gives the input back for texts with at most two colons, no surrounding white space and a protocol of at most eight 7-bit characters; refuted otherwise (extra pieces dropped, white space lost, NUL truncation)"
  },
  {
   "property": "C35",
   "status": "proved",
   "theorems": [
    "C35_accounting",
    "C35_allocate",
    "C35_lock"
   ],
   "note": "over any history of allocate/release/lock/unlock/transfer with several managers (manager swaps and moves are C36)"
  },
  {
   "property": "C36",
   "status": "partial",
   "theorems": [
    "C36_idle_swap_partial",
    "C36_swap_refuted",
    "C36_move_refuted"
   ],
   "note": "holds for swaps of managers without outstanding memory; refuted for swaps with outstanding memory and for every move construction"
  },
  {
   "property": "C37",
   "status": "proved",
   "theorems": [
    "C37_exactly_once",
    "C37_no_dangling",
    "C37_transfer",
    "C37_manager_must_outlive"
   ],
   "note": "over any history of resources and managers in which managers outlive their blocks, as the API documents; C37_manager_must_outlive shows the precondition is needed"
  },
  {
   "property": "C38",
   "status": "proved",
   "theorems": [
    "C38_bounded_sequence"
   ],
   "note": "Any history of emplace_back (constructor may throw), pop_back, clear, operator[] and indexOf; observed size, empty, capacity, full and contents after each step equal those of a bounded sequence."
  },
  {
   "property": "C39",
   "status": "partial",
   "theorems": [
    "C39_lifetimes_partial",
    "C39_all_destroyed_partial",
    "C39_order_partial",
    "C39_throwing_factory",
    "C39_array_null_refuted",
    "C39_view_emplace_refuted"
   ],
   "note": "Proved for every program that does not assign nullptr to an Array and in which no constructor throws inside ArrayView::emplace; both of those are proved to destroy elements twice (refuted theorems)."
  },
  {
   "property": "C40",
   "status": "partial",
   "theorems": [
    "C40_map_partial",
    "C40_for_n_partial",
    "C40_find",
    "C40_throwing_key_refuted",
    "C40_capacity_refuted"
   ],
   "note": "Refinement to a bounded association list for every history, when moving a key does not throw; proved false when it does (value stays, later keys get wrong values)."
  },
  {
   "property": "C41",
   "status": "partial",
   "theorems": [
    "C41_all",
    "C41_new_key_partial",
    "C41_replace_refuted"
   ],
   "note": "Proved for keys not yet present; proved that put never replaces an existing entry."
  },
  {
   "property": "C42",
   "status": "proved",
   "theorems": [
    "C42_any_bytes",
    "C42_size",
    "C42_round_trip",
    "C42_end"
   ],
   "note": "Exact result for arbitrary bytes, all prefix widths, byte orders and hosts; the round trip is a corollary; C42_end says what the end iterator does."
  },
  {
   "property": "C43",
   "status": "partial",
   "theorems": [
    "C43_yields",
    "C43_empty",
    "C43_filter_partial",
    "C43_filter_refuted"
   ],
   "note": "Exact result proved: the first element is delivered even when the predicate rejects it."
  },
  {
   "property": "C44",
   "status": "partial",
   "theorems": [
    "C44_called_iff_present",
    "C44_exceptions",
    "C44_functor_identity",
    "C44_functor_composition",
    "C44_functor_nested_refuted",
    "C44_nested_collapses",
    "C44_monad_left_identity",
    "C44_monad_right_identity",
    "C44_monad_associativity",
    "C44_flatMap_consumes",
    "C44_filter",
    "C44_access"
   ],
   "note": "Callback iff present, exceptions pass through, functor and monad laws for callbacks that may throw, filter, orElse, get: proved for every optional. Refuted for map with a callback that itself returns an Optional: Optional<Optional<W>>{f(x)} picks the converting constructor, so Some(none) becomes none and the composition law fails (C44_functor_nested_refuted; exact behaviour in C44_nested_collapses). flatMap on an lvalue hands the callback an rvalue (C44_flatMap_consumes). operator* is noexcept and terminates on an empty optional."
  },
  {
   "property": "C45",
   "status": "partial",
   "theorems": [
    "C45_lifetimes_partial",
    "C45_all_destroyed_partial",
    "C45_result_self_swap_refuted",
    "C45_optional_own_payload_refuted",
    "C45_optional_self_swap",
    "C45_throwing_argument_terminates"
   ],
   "note": "For every history of any number of Optional and Result objects in which no Optional is assigned from its own payload and no Result is swapped with itself: every payload is used and destroyed only while alive, destroyed at most once, and exactly once when all objects are gone. Refuted in general: Result self-swap / self-move-assignment and o = o.move() read a destroyed payload. Throwing inside a noexcept function ends the program (C45_throwing_argument_terminates)."
  },
  {
   "property": "C46",
   "status": "proved",
   "theorems": [
    "C46_selected",
    "C46_selected_plain",
    "C46_selected_void",
    "C46_then_left_identity",
    "C46_then_right_identity",
    "C46_then_associativity",
    "C46_orElse_laws",
    "C46_mapError_laws",
    "C46_access"
   ],
   "note": "All overloads of then/orElse/mapError of Result<V,E> and Result<void,E>: exact continuation called, other alternative unchanged, monad laws, for continuations that may throw."
  },
  {
   "property": "C47",
   "status": "proved",
   "theorems": [
    "C47_md5",
    "C47_sha1",
    "C47_sha256",
    "C47_cut"
   ],
   "note": "For every message (of any length) cut in chunks of less than 2^32 bytes each, every host byte order and every content of uninitialised arrays, the digest is the one of RFC 1321 / FIPS 180-4 as written in HashSpec.v."
  },
  {
   "property": "C48",
   "status": "proved",
   "theorems": [
    "C48_md5",
    "C48_sha1",
    "C48_sha256",
    "C48_sha256_small"
   ],
   "note": "The three block functions, and the compact SHA-256 variant, equal the published compression functions on every state and block. The tables of HashSpec.v are checked against roots of primes (SHA) there; the MD5 sine table is literal."
  },
  {
   "property": "C49",
   "status": "partial",
   "theorems": [
    "C49_refuted",
    "C49_last_update_only_partial",
    "C49_history_partial"
   ],
   "note": "False as stated (C49_refuted): every update starts again from the seed. Proved for every history: the digest is that of the last chunk alone, zero without updates."
  },
  {
   "property": "C50",
   "status": "partial",
   "theorems": [
    "C50_refuted"
   ],
   "note": "False: the vector created by makeVector(n) has size 0, so the string returned is empty for every digest."
  },
  {
   "property": "C51",
   "status": "partial",
   "theorems": [
    "C51_get_partial",
    "C51_set_partial",
    "C51_unset",
    "C51_history_partial",
    "C51_refused",
    "C51_no_memory",
    "C51_set_refuted",
    "C51_clear_refuted",
    "C51_empty_name_refuted",
    "C51_unterminated_refuted"
   ],
   "note": "Proved for every history of set, unset and clear over values without '='; a reported failure leaves the environment unchanged. False in general: a value is cut at its first '=' (C51_set_refuted), clear reports failure (C51_clear_refuted), names and values are read up to a NUL beyond the view. The C library's setenv/unsetenv/clearenv are modelled after glibc."
  },
  {
   "property": "C52",
   "status": "partial",
   "theorems": [
    "C52_history",
    "C52_remaining",
    "C52_after_build",
    "C52_concatenation_partial",
    "C52_text_exact_fit",
    "C52_number_exact_fit_refuted",
    "C52_long_text_refuted"
   ],
   "note": "Exact characterisation of every append history (C52_history); concatenation if one byte is to spare; an exactly fitting number is dropped and a text of 65536 characters is seen as empty (refuted theorems)."
  },
  {
   "property": "C53",
   "status": "proved",
   "theorems": [
    "C53_registry",
    "C53_found_iff"
   ],
   "note": "Exact for every history: the first 128 registrations are searched in order, later ones are silently dropped; up to 128 this is the claim."
  },
  {
   "property": "C54",
   "status": "partial",
   "theorems": [
    "C54_text_partial",
    "C54_overrun_refuted",
    "C54_no_memory_refuted"
   ],
   "note": "Holds for texts of at most 65527 characters when memory is found. Refuted at 65528 characters (the reserved size wraps, heap overrun) and when calloc fails (writes through nullptr)."
  },
  {
   "property": "C55",
   "status": "partial",
   "theorems": [
    "C55_dataAs",
    "C55_dataAs_at_partial",
    "C55_dataAs_at_any",
    "C55_dataAs_at_refuted"
   ],
   "note": "False in full: offset + sizeof(T) wraps (C55_dataAs_at_refuted). Every offset and size is described exactly by C55_dataAs_at_any."
  },
  {
   "property": "C56",
   "status": "partial",
   "theorems": [
    "C56_distinct_partial",
    "C56_atoms_refuted"
   ],
   "note": "Refuted: a byte above 127 is sign extended and erases the preceding characters; proved for 7-bit texts."
  },
  {
   "property": "C57",
   "status": "proved",
   "theorems": [
    "C57_from_view",
    "C57_from_words",
    "C57_index"
   ],
   "note": "Both makeUUID overloads; host byte order is a parameter. makeRandomUUID is not modelled."
  },
  {
   "property": "C58",
   "status": "proved",
   "theorems": [
    "C58_flip_exposes_written"
   ],
   "note": "All sequences of fitting writes on any buffer."
  },
  {
   "property": "C59",
   "status": "partial",
   "theorems": [
    "C59_compareTo_partial",
    "C59_strict_order",
    "C59_compareTo_refuted"
   ],
   "note": "Total order proved for paths that are both absolute or both relative with non-empty 7-bit components; refuted for a relative path compared with an absolute one (the program ends)."
  },
  {
   "property": "C60",
   "status": "partial",
   "theorems": [
    "C60_length_is_text_length_partial",
    "C60_length_refuted"
   ],
   "note": "Proved while the text is shorter than 2^16; refuted beyond."
  },
  {
   "property": "C61",
   "status": "proved",
   "theorems": [
    "C61_makePath"
   ],
   "note": ""
  },
  {
   "property": "C62",
   "status": "proved",
   "theorems": [
    "C62_measure",
    "C62_decimal",
    "C62_measured_buffer"
   ],
   "note": "For unsigned integers (append has no signed overloads)."
  },
  {
   "property": "C63",
   "status": "partial",
   "theorems": [
    "C63_indexOf_partial",
    "C63_indexOf_refuted"
   ],
   "note": "First occurrence, except that one at the very end of the text is never found (refuted theorem)."
  },
  {
   "property": "C64",
   "status": "proved",
   "theorems": [
    "C64_substring"
   ],
   "note": "For buffers below 64 KiB, the range of StringView sizes."
  },
  {
   "property": "C65",
   "status": "partial",
   "theorems": [
    "C65_local_partial",
    "C65_local_refuted"
   ],
   "note": "True when the byte after the view is not a digit, white space or sign (e.g. NUL); otherwise parse reads beyond the view (refuted theorem)."
  },
  {
   "property": "C66",
   "status": "partial",
   "theorems": [
    "C66_reject_partial",
    "C66_plus_partial",
    "C66_reject_refuted"
   ],
   "note": "Texts with fewer than two dots and texts with extra '+' pieces are rejected; other malformed texts are accepted (refuted theorem)."
  },
  {
   "property": "C67",
   "status": "partial",
   "theorems": [
    "C67_make_array_partial",
    "C67_make_array_refuted",
    "C67_to_array",
    "C67_empty_refuted"
   ],
   "note": "Proved when n*sizeof(T) fits 64 bits; proved false for every n where it wraps, and Array::empty() is proved wrong for an array made from an empty vector with capacity."
  },
  {
   "property": "C68",
   "status": "proved",
   "theorems": [
    "C68_values"
   ],
   "note": "Refinement to optional values and disjoint sums for every orderly history (same guard as C45)."
  },
  {
   "property": "C69",
   "status": "partial",
   "theorems": [
    "C69_equality",
    "C69_results",
    "C69_same_object_refuted",
    "C69_same_object_reflexive"
   ],
   "note": "Exact characterisation for distinct objects and for Results; an Optional compared with itself is equal whatever the payload's == says (C69_same_object_refuted), harmless when == is reflexive."
  },
  {
   "property": "C70",
   "status": "partial",
   "theorems": [
    "C70_md5_partial",
    "C70_sha1_partial",
    "C70_sha256_partial",
    "C70_refuted"
   ],
   "note": "Exact result for one update of any length: right below 2^33 bytes; from 2^33 bytes on the length appended is wrong (C70_refuted: what is hashed is not the padded message)."
  },
  {
   "property": "C71",
   "status": "partial",
   "theorems": [
    "C71_md5_partial",
    "C71_sha1_partial",
    "C71_sha256_partial",
    "C71_refuted"
   ],
   "note": "Exact digests of every history: digest() leaves the padding in the hasher, so later digests are those of the padded message; asking twice gives two answers (C71_refuted)."
  },
  {
   "property": "C72",
   "status": "partial",
   "theorems": [
    "C72_refuted"
   ],
   "note": "False: the digest is 32 zero bytes for every message (update is empty)."
  },
  {
   "property": "C73",
   "status": "partial",
   "theorems": [
    "C73_refuted",
    "C73_murmur_refuted"
   ],
   "note": "False: the number is that of bits, eight times the size of every digest."
  },
  {
   "property": "C74",
   "status": "proved",
   "theorems": [
    "C74_reader"
   ],
   "note": "For every update function and reader within its bounds."
  },
  {
   "property": "C75",
   "status": "proved",
   "theorems": [
    "C75_murmur3_32",
    "C75_murmur3_128_x64",
    "C75_murmur3_128_x86",
    "C75_too_long_undefined",
    "C75_big_endian_differs"
   ],
   "note": "All three functions, little-endian machine, messages below 2^31 bytes; undefined from 2^31 bytes on, and different on a big-endian machine (C75_too_long_undefined and C75_big_endian_differs mark the limits)."
  },
  {
   "property": "C76",
   "status": "partial",
   "theorems": [
    "C76_iteration_partial",
    "C76_endless_refuted"
   ],
   "note": "Proved for fewer than 65536 variables of fewer than 65536 characters, with values cut at '='; endless loop from 65536 variables on (C76_endless_refuted)."
  },
  {
   "property": "C77",
   "status": "partial",
   "theorems": [
    "C77_posix_partial",
    "C77_posix_refuted"
   ],
   "note": "Holds when errorDomain.cpp is initialised before systemErrorDomain.cpp; refuted for the other order, which the language allows."
  },
  {
   "property": "C78",
   "status": "partial",
   "theorems": [
    "C78_known",
    "C78_unknown_partial",
    "C78_long_tag_refuted"
   ],
   "note": "Holds when the text has fewer than 65536 characters; a text of 65536 characters comes out empty (refuted)."
  },
  {
   "property": "C79",
   "status": "partial",
   "theorems": [
    "C79_messages_partial",
    "C79_moved_from_refuted"
   ],
   "note": "Texts, single release and absence of leaks proved; a moved-from exception keeps the old size with a null buffer, so asking for its message is refuted."
  },
  {
   "property": "C80",
   "status": "partial",
   "theorems": [
    "C80_value_partial",
    "C80_index_partial"
   ],
   "note": "Acceptance exact; the text holds for messages of at most 65527 characters (see C54)."
  },
  {
   "property": "C81",
   "status": "partial",
   "theorems": [
    "C81_equals_partial",
    "C81_same_elements_partial",
    "C81_same_place_refuted"
   ],
   "note": "Proved for every equality under which no element shown differs from itself, in particular for decidable sameness; false otherwise: views of the same place are equal whatever == says (C81_same_place_refuted)."
  },
  {
   "property": "C82",
   "status": "partial",
   "theorems": [
    "C82_at",
    "C82_history_partial",
    "C82_slice_partial",
    "C82_slice_refuted",
    "C82_forEach",
    "C82_forEach_index_partial",
    "C82_forEach_index_refuted",
    "C82_indexOf",
    "C82_contains",
    "C82_fill_throws",
    "C82_empty_partial",
    "C82_empty_refuted",
    "C82_bool"
   ],
   "note": "Histories through nested slices, indexing, forEach, indexOf and contains proved for all sizes. Refuted: slice bounds times sizeof(T) wrap at 2^64, forEach with an index works on copies (changes are lost), empty() is false for memory smaller than one element."
  },
  {
   "property": "C83",
   "status": "partial",
   "theorems": [
    "C83_bytes_partial",
    "C83_zero_cuts",
    "C83_five_refuted",
    "C83_overflow_refuted",
    "C83_history",
    "C83_copy_c_str_partial",
    "C83_copy_c_str_refuted"
   ],
   "note": "Exact for characters of at most four bytes without zero, over any history (C83_history). Refuted: longer byte sequences are cut or overrun the object; the C string of a copied four-byte character has an indeterminate end."
  },
  {
   "property": "C84",
   "status": "partial",
   "theorems": [
    "C84_ascii_partial",
    "C84_code_point_refuted",
    "C84_big_endian_refuted",
    "C84_total_order",
    "C84_order_partial",
    "C84_order_refuted"
   ],
   "note": "Exact for ASCII on little-endian hosts; the order is total. Refuted for every code point from 128 on, and on big-endian hosts for all: the value is that of the raw bytes."
  },
  {
   "property": "C85",
   "status": "partial",
   "theorems": [
    "C85_view",
    "C85_view_injective",
    "C85_view_decodes",
    "C85_digest",
    "C85_digest_injective",
    "C85_optional_partial",
    "C85_optional_alike",
    "C85_optional_refuted"
   ],
   "note": "Exact texts for views and digests, which are injective. Refuted for optionals: Some(\"None\") prints as None; C85_optional_alike says exactly which optionals print alike."
  },
  {
   "property": "C86",
   "status": "partial",
   "theorems": [
    "C86_text_partial",
    "C86_round_trip_partial",
    "C86_stable_partial",
    "C86_stable_address_partial",
    "C86_refuted",
    "C86_small_size_t_refuted"
   ],
   "note": "Text and round trip for parts without ':' and outer white space, where size_t has at least eight bytes; parse-print-parse is stable. Refuted elsewhere; below eight bytes the buffer overflows."
  },
  {
   "property": "C87",
   "status": "partial",
   "theorems": [
    "C87_not_null",
    "C87_distinct_partial",
    "C87_distinct_refuted",
    "C87_few_refuted",
    "C87_zero_bytes_refuted",
    "C87_predictable_refuted"
   ],
   "note": "Never null; distinct for seeds below 2^31-1. Refuted: seeds repeat, at most 2^31-2 UUIDs exist, half of the bytes are zero on 64-bit hosts, and the second half follows from the first."
  },
  {
   "property": "C88",
   "status": "partial",
   "theorems": [
    "C88_short",
    "C88_prefix_partial",
    "C88_prefix_refuted"
   ],
   "note": "Exact content for every length (C88_short); a prefix when the buffer does not end inside a byte. Refuted otherwise: the last byte is a '-' or an old byte of the buffer."
  },
  {
   "property": "C89",
   "status": "partial",
   "theorems": [
    "C89_locked_partial",
    "C89_released_partial",
    "C89_failure",
    "C89_shared_refuted",
    "C89_wrap_refuted"
   ],
   "note": "For every history whose locked ranges share no page with living locks, the locked pages are exactly those covered by living locks. Refuted when pages are shared (locks do not nest), and for the public constructor, which locks nothing."
  },
  {
   "property": "C90",
   "status": "partial",
   "theorems": [
    "C90_classes_partial",
    "C90_case_partial",
    "C90_eof",
    "C90_wide_refuted",
    "C90_multibyte_refuted",
    "C90_big_endian_refuted"
   ],
   "note": "Exact for every one-byte Char on a little-endian host, and for Eof. Refuted: any other value is outside the domain of the C functions."
  },
  {
   "property": "C91",
   "status": "partial",
   "theorems": [
    "C91_text_partial",
    "C91_identifies_partial",
    "C91_small_size_t_refuted",
    "C91_same_name_refuted"
   ],
   "note": "Exact text and identification where size_t has at least eight bytes and domain texts are distinct and free of ':'. Refuted elsewhere."
  },
  {
   "property": "C92",
   "status": "proved",
   "theorems": [
    "C92_values",
    "C92_move",
    "C92_chars"
   ],
   "note": "Refinement of the object and memory model to variables holding texts, for every program; C92_move and C92_chars state the rules directly."
  },
  {
   "property": "C93",
   "status": "proved",
   "theorems": [
    "C93_defined",
    "C93_no_leak",
    "C93_one_owner"
   ],
   "note": "C93_defined: properly named operations are never undefined; C93_no_leak; C93_one_owner."
  },
  {
   "property": "C94",
   "status": "proved",
   "theorems": [
    "C94_view_survives",
    "C94_view_dies"
   ],
   "note": "C94_view_survives for any operations that destroy no String; C92_values covers destruction of Strings exactly; C94_view_dies is the other direction."
  },
  {
   "property": "C95",
   "status": "partial",
   "theorems": [
    "C95_substring_partial",
    "C95_tail",
    "C95_substring_end",
    "C95_substring_refuted"
   ],
   "note": "substring(from, len) takes len for the end index: C95_substring_end is what it does, C95_substring_refuted the general failure, C95_substring_partial the case from = 0; substring(from) holds (C95_tail)."
  },
  {
   "property": "C96",
   "status": "partial",
   "theorems": [
    "C96_parse",
    "C96_make",
    "C96_single",
    "C96_normalize_partial",
    "C96_subpath_partial",
    "C96_copies",
    "C96_parent_refuted",
    "C96_normalize_refuted",
    "C96_subpath_refuted",
    "C96_single_parent_refuted",
    "C96_text_refuted"
   ],
   "note": "parse and makePath hold for every schedule (C96_parse, C96_make, C96_single). normalize, getParent and subpath drop components, terminate or raise, toString gives the empty text (..._refuted); they are right when nothing fails (..._partial), and C96_copies says what getParent gives in every case."
  },
  {
   "property": "C97",
   "status": "proved",
   "theorems": [
    "C97_for",
    "C97_collect",
    "C97_deref",
    "C97_root"
   ],
   "note": "Range loop with its iterator, forEach, dereference at every position, Root."
  },
  {
   "property": "C98",
   "status": "partial",
   "theorems": [
    "C98_starts_ends",
    "C98_contains_partial",
    "C98_contains_refuted"
   ],
   "note": "Exact for startsWith and endsWith; contains holds for non-empty texts (C98_contains_partial), an empty one is compared with the byte behind it (C98_contains_refuted)."
  },
  {
   "property": "C99",
   "status": "proved",
   "theorems": [
    "C99_one_owner",
    "C99_no_leak",
    "C99_defined",
    "C99_own_memory"
   ],
   "note": "One owner per block, no leak, and the exact condition under which an operation is defined."
  },
  {
   "property": "C100",
   "status": "proved",
   "theorems": [
    "C100_opened",
    "C100_read",
    "C100_write",
    "C100_refused",
    "C100_others"
   ],
   "note": "What a new reader or writer shows; reads refine the cursor of C03 over the bytes shown; a write's effect on every byte of every block and every variable. (A write refused because of a lowered limit still stores its bytes, see C05.)"
  },
  {
   "property": "C101",
   "status": "proved",
   "theorems": [
    "C101_move",
    "C101_empty",
    "C101_swap",
    "C101_take"
   ],
   "note": "Answers of the moved-to object equal those of the source; the source is empty."
  },
  {
   "property": "C102",
   "status": "proved",
   "theorems": [
    "C102_queue",
    "C102_in_order"
   ],
   "note": "Any interleaving refines a FIFO queue; in the queue the delivered bytes are a prefix of the accepted ones."
  },
  {
   "property": "C103",
   "status": "partial",
   "theorems": [
    "C103_values_partial",
    "C103_lifetimes_partial",
    "C103_others"
   ],
   "note": "Without assigning nullptr to an array, throwing ArrayView::emplace and makeArray sizes that wrap, which break arrays (C39, C67)."
  },
  {
   "property": "C104",
   "status": "partial",
   "theorems": [
    "C104_seen",
    "C104_equal_partial",
    "C104_equal_refuted",
    "C104_equivalence_partial",
    "C104_copy_partial",
    "C104_copy_fails_partial",
    "C104_list_partial",
    "C104_null_vector_partial",
    "C104_null_array_refuted"
   ],
   "note": "Same programs as C103. A container equals itself even if its elements do not (C104_equal_refuted), and an array without elements may differ from nullptr (C104_null_array_refuted)."
  },
  {
   "property": "C105",
   "status": "proved",
   "theorems": [
    "C105_join_split",
    "C105_join_split_char",
    "C105_split_join",
    "C105_split_join_char"
   ],
   "note": "Any heap; the count that split reports is C22."
  },
  {
   "property": "C106",
   "status": "proved",
   "theorems": [
    "C106_self",
    "C106_absent",
    "C106_length",
    "C106_back",
    "C106_agree",
    "C106_char_gone",
    "C106_char_back"
   ],
   "note": "C106_back_long shows why the text to replace by must be one character."
  },
  {
   "property": "C107",
   "status": "proved",
   "theorems": [
    "C107_base16_encode",
    "C107_base16_decode",
    "C107_base64_encode",
    "C107_base64_text",
    "C107_base16_written",
    "C107_base64_written",
    "C107_base64_only"
   ],
   "note": "in_two: the second call is made when the first one succeeded. C107_base16_written and C107_base64_written say what two calls leave in the destination, C107_base64_only when it is what one call leaves."
  },
  {
   "property": "C108",
   "status": "proved",
   "theorems": [
    "C108_text_order",
    "C108_compare",
    "C108_operators"
   ],
   "note": "Order of bytes, order of texts and compareTo of the printed texts."
  },
  {
   "property": "C109",
   "status": "partial",
   "theorems": [
    "C109_no_stray_access_partial",
    "C109_views_stay_inside",
    "C109_text_index_refuted",
    "C109_typed_access_refuted"
   ],
   "note": "No access leaves the memory and no view the ranges given, for programs whose typed-access offsets do not wrap and which index texts within their size; both conditions are shown necessary (_refuted)."
  },
  {
   "property": "C110",
   "status": "partial",
   "theorems": [
    "C110_readonly_memory_partial",
    "C110_readonly_memory_refuted"
   ],
   "note": "Holds for every program that does not exchange mutable with immutable views; swap and move assignment across the two types make read-only memory writable (_refuted)."
  },
  {
   "property": "C111",
   "status": "proved",
   "theorems": [
    "C111_shared_memory",
    "C111_other_views_see"
   ],
   "note": "Exact effect, answer and new view for every operation in every reachable state."
  },
  {
   "property": "C112",
   "status": "partial",
   "theorems": [
    "C112_text_shows_all_partial",
    "C112_c_string_partial",
    "C112_text_view",
    "C112_long_text_refuted"
   ],
   "note": "Exact below 2^16 bytes; longer views are cut to their size modulo 2^16 (_refuted, for every such view)."
  },
  {
   "property": "C113",
   "status": "proved",
   "theorems": [
    "C113_copy",
    "C113_move",
    "C113_assign",
    "C113_move_assign",
    "C113_swap"
   ],
   "note": "Exact windows after each operation."
  },
  {
   "property": "C114",
   "status": "proved",
   "theorems": [
    "C114_programs_run",
    "C114_size",
    "C114_one_owner",
    "C114_all_given_back"
   ],
   "note": "Programs over any number of variables of eight owning classes and one heap manager; malloc is an arbitrary oracle. Elements are bytes."
  },
  {
   "property": "C115",
   "status": "proved",
   "theorems": [
    "C115_locked",
    "C115_refused",
    "C115_unlock",
    "C115_when"
   ],
   "note": "Induction over programs: locked exactly from a lock to the next unlock; every operation that takes memory fails meanwhile."
  },
  {
   "property": "C116",
   "status": "partial",
   "theorems": [
    "C116_one_effect",
    "C116_effect_or_failure_partial",
    "C116_enough_memory_partial",
    "C116_failure_told_partial",
    "C116_failure_told_refuted"
   ],
   "note": "Proved for every operation but the four toString functions, which answer an empty text instead of an error when memory is short (refuted), and for texts that fit 16 bits; toString of a digest is always empty (C50)."
  },
  {
   "property": "C117",
   "status": "proved",
   "theorems": [
    "C117_no_memory_needed",
    "C117_always_work",
    "C117_destruction"
   ],
   "note": "For every operation that takes no memory, in every reachable state."
  },
  {
   "property": "C118",
   "status": "partial",
   "theorems": [
    "C118_both_orders",
    "C118_equal_partial",
    "C118_transitive_partial",
    "C118_equal_refuted",
    "C118_unterminated"
   ],
   "note": "Proved for all texts of fewer than 65536 characters and every pair of operand types the library offers (the others do not compile, or compare pointers). Refuted for longer C strings, whose length is cut to 16 bits: they equal their first (length mod 65536) characters."
  },
  {
   "property": "C119",
   "status": "partial",
   "theorems": [
    "C119_complement",
    "C119_order_partial",
    "C119_string",
    "C119_strict_order_partial",
    "C119_order_refuted"
   ],
   "note": "The operators are each other's complement for all texts. Strict total order and agreement with == proved for texts of 7-bit characters other than NUL with a non-empty right operand. Refuted otherwise: any comparison with the empty text on the right ends the program, two texts can each be less than the other, and different texts can be both <= and >=."
  },
  {
   "property": "C120",
   "status": "partial",
   "theorems": [
    "C120_exact",
    "C120_one_more",
    "C120_measured",
    "C120_number_last_refuted"
   ],
   "note": "Exact condition proved: nothing is lost if and only if every number comes after a quoted string or before something not empty; one byte more always suffices. Refuted for a text ending in a number, which is dropped."
  },
  {
   "property": "C121",
   "status": "partial",
   "theorems": [
    "C121_no_stray_access_partial",
    "C121_views_stay_inside",
    "C121_emplace_all_refuted"
   ],
   "note": "Proved for programs in which emplaceAll is not given more values than the view has elements; refuted without that condition (it writes behind the view). Programs over any number of ArrayViews of any element sizes and alignments."
  },
  {
   "property": "C122",
   "status": "partial",
   "theorems": [
    "C122_effect_partial",
    "C122_elements_partial",
    "C122_others_keep_partial",
    "C122_slice_refuted"
   ],
   "note": "Proved for all reachable states; what a slice shows is proved when its byte offsets fit 64 bits and refuted otherwise; emplaceAll needs room."
  },
  {
   "property": "C123",
   "status": "partial",
   "theorems": [
    "C123_const_memory_partial",
    "C123_const_memory_refuted"
   ],
   "note": "Proved when emplaceAll is not given more values than the view has elements, refuted without that condition."
  },
  {
   "property": "C124",
   "status": "proved",
   "theorems": [
    "C124_windows"
   ],
   "note": "Exact windows and types after copy, conversion, move, assignment, move assignment and swap, including a variable with itself."
  },
  {
   "property": "C125",
   "status": "proved",
   "theorems": [
    "C125_determined",
    "C125_accepted",
    "C125_refused",
    "C125_otherwise"
   ],
   "note": "Exact description of all outcomes of parsing (accepted, refused, undefined); what of it is undesirable is refuted under C17."
  },
  {
   "property": "C126",
   "status": "proved",
   "theorems": [
    "C126_reads",
    "C126_accepted",
    "C126_refused"
   ],
   "note": "For memory that ends in a zero byte behind the text and a heap that does not fail; what of it is undesirable is refuted under C66, other bytes behind the text under C65."
  },
  {
   "property": "C127",
   "status": "proved",
   "theorems": [
    "C127_meaning",
    "C127_relative",
    "C127_absolute",
    "C127_relative_location",
    "C127_absolute_location"
   ],
   "note": "Exact components for all paths, and the exact condition for keeping the location for paths without empty components after the first; the failures are C30's refutations."
  },
  {
   "property": "C128",
   "status": "partial",
   "theorems": [
    "C128_normalize_left",
    "C128_normalize_right_partial",
    "C128_normalize_right_refuted",
    "C128_join_assoc",
    "C128_cut",
    "C128_uncut",
    "C128_parent_child",
    "C128_child_parent",
    "C128_contains_parts",
    "C128_starts_ends"
   ],
   "note": "All laws proved for all paths, except that normalising the second operand first changes nothing (whatever the first operand) exactly if it climbs at most one level above its start (refuted otherwise)."
  },
  {
   "property": "C129",
   "status": "proved",
   "theorems": [
    "C129_encode16",
    "C129_encode64",
    "C129_decode16",
    "C129_decode64",
    "C129_kept",
    "C129_reader_kept"
   ],
   "note": "exact descriptions of all outcomes of the four codecs for every amount of room; the text written is that of the independent specifications of C24 and C25"
  },
  {
   "property": "C130",
   "status": "proved",
   "theorems": [
    "C130_optional",
    "C130_result",
    "C130_void",
    "C130_mixed",
    "C130_equivalence",
    "C130_throwing",
    "C130_itself"
   ],
   "note": "all operators of optional.hpp:336-391 and result.hpp:917-973 for operators of the payload that may throw, also for one object compared with itself; payloads are values, so references into the operands are not modelled here"
  },
  {
   "property": "C131",
   "status": "proved",
   "theorems": [
    "C131_equal",
    "C131_equivalence",
    "C131_zero_and_swap"
   ],
   "note": "all members of Error that compare, convert or exchange"
  },
  {
   "property": "C132",
   "status": "partial",
   "theorems": [
    "C132_encode",
    "C132_decode16",
    "C132_predicted64",
    "C132_decode64_partial",
    "C132_decode64_refuted"
   ],
   "note": "Holds for both encoders, Base16 decoding of arbitrary bytes, and Base64 decoding of standard text with a terminator and a length that is a multiple of four. Refuted: a text of another length, or a URL-safe one starting with - or _, is predicted to give nothing though it is decoded."
  },
  {
   "property": "C133",
   "status": "proved",
   "theorems": [
    "C133_concat",
    "C133_join_args",
    "C133_join",
    "C133_replace",
    "C133_complete",
    "C133_right_iff"
   ],
   "note": "exact for all lengths; the number of pieces of an array below 2^64; replacement with an empty pattern never ends (C28) and is excluded"
  },
  {
   "property": "C134",
   "status": "proved",
   "theorems": [
    "C134_history",
    "C134_iteration",
    "C134_find"
   ],
   "note": "Exact behaviour for all histories; no assumption about what throws."
  },
  {
   "property": "C135",
   "status": "proved",
   "theorems": [
    "C135_books",
    "C135_conserved",
    "C135_granted"
   ],
   "note": "Exact balances for all histories in which managers outlive their use; conservation for swaps."
  },
  {
   "property": "C136",
   "status": "proved",
   "theorems": [
    "C136_value",
    "C136_literal",
    "C136_text",
    "C136_same"
   ],
   "note": "Exact for all texts, on platforms where char is signed."
  },
  {
   "property": "C137",
   "status": "proved",
   "theorems": [
    "C137_queries",
    "C137_told",
    "C137_indexOf"
   ],
   "note": "Exact for all histories and queries; divergence is shown as running out of every amount of fuel."
  },
  {
   "property": "C138",
   "status": "proved",
   "theorems": [
    "C138_read",
    "C138_call",
    "C138_history"
   ],
   "note": "Exact for all environments and arguments; setenv, unsetenv and clearenv as in the GNU C library."
  },
  {
   "property": "C139",
   "status": "proved",
   "theorems": [
    "C139_message",
    "C139_no_memory"
   ],
   "note": "Exact for all arguments; assumes strerror() texts are shorter than 32768 characters."
  },
  {
   "property": "C140",
   "status": "proved",
   "theorems": [
    "C140_text",
    "C140_path",
    "C140_self",
    "C140_zero",
    "C140_mirror"
   ],
   "note": "Relational specification independent of the code (CompareAllSpec.v); equivalence with the model for all texts and paths, totality, reflexivity, exact conditions for zero and for opposite signs."
  },
  {
   "property": "C141",
   "status": "proved",
   "theorems": [
    "C141_length",
    "C141_text",
    "C141_nothing",
    "C141_agree"
   ],
   "note": "For all component lists, delimiters and allocators (C141_length, C141_text, C141_nothing, C141_agree)."
  },
  {
   "property": "C142",
   "status": "proved",
   "theorems": [
    "C142_print",
    "C142_round_trip",
    "C142_identity",
    "C142_stable"
   ],
   "note": "Hosts where size_t has at least eight bytes (below, printing overflows a buffer: C86). Exact conditions in both directions for all bytes."
  },
  {
   "property": "C143",
   "status": "proved",
   "theorems": [
    "C143_history",
    "C143_shows",
    "C143_new",
    "C143_order",
    "C143_classes",
    "C143_symbols",
    "C143_case"
   ],
   "note": "Exact counterpart of the partial C83, C84 and C90, for all bytes and both byte orders."
  },
  {
   "property": "C144",
   "status": "proved",
   "theorems": [
    "C144_passes",
    "C144_complaint",
    "C144_has_text",
    "C144_sequence"
   ],
   "note": "Exact counterpart of the partial C80, for every assertion function. One default text is used both for pointers that should and should not be null."
  },
  {
   "property": "C145",
   "status": "proved",
   "theorems": [
    "C145_says",
    "C145_memory"
   ],
   "note": "Exact counterpart of the partial C79."
  },
  {
   "property": "C146",
   "status": "proved",
   "theorems": [
    "C146_lt",
    "C146_preorder",
    "C146_text",
    "C146_read_back",
    "C146_round_trip",
    "C146_stable"
   ],
   "note": "Exact counterpart of the partial C32 and of the guard of C33."
  },
  {
   "property": "C147",
   "status": "proved",
   "theorems": [
    "C147_history",
    "C147_no_leak"
   ],
   "note": "Exact counterpart of the partial C89 without its condition on shared pages."
  },
  {
   "property": "C148",
   "status": "proved",
   "theorems": [
    "C148_walk",
    "C148_sets",
    "C148_unset_each",
    "C148_name_in_place",
    "C148_unset_in_place"
   ],
   "note": "Exact: what walking over a changing environment does, including its undefined cases (see DESIGN section 5)."
  },
  {
   "property": "C149",
   "status": "proved",
   "theorems": [
    "C149_text",
    "C149_print",
    "C149_posix",
    "C149_tag",
    "C149_names"
   ],
   "note": "Exact counterpart of the partial C78 and C91. The text of errors made here assumes that the map of domains is initialised first (C77)."
  },
  {
   "property": "C150",
   "status": "proved",
   "theorems": [
    "C150_equal",
    "C150_order",
    "C150_sortable",
    "C150_sorted"
   ],
   "note": "Exact counterpart of the partial C118 and C119."
  },
  {
   "property": "C151",
   "status": "proved",
   "theorems": [
    "C151_subpath",
    "C151_parent",
    "C151_any_choice",
    "C151_normalize"
   ],
   "note": "Exact counterpart of the partial C96; the text of a path under any heap is C141."
  },
  {
   "property": "C152",
   "status": "proved",
   "theorems": [
    "C152_programs",
    "C152_safe"
   ],
   "note": "Exact counterpart of the partial C45; map with callbacks that return Optionals is exact in C44_nested_collapses."
  },
  {
   "property": "C153",
   "status": "proved",
   "theorems": [
    "C153_programs",
    "C153_no_holes",
    "C153_null_array"
   ],
   "note": "Exact counterpart of the partial C39 (and of the array wrap of C67). Hypotheses: the byte sizes of argument lists and of the memory handed to makeVector fit 64 bits."
  },
  {
   "property": "C154",
   "status": "proved",
   "theorems": [
    "C154_programs",
    "C154_alike",
    "C154_wrapped"
   ],
   "note": "Exact counterpart of the partial C103 and C104: abstract containers with holes, no guard on reachable states."
  },
  {
   "property": "C155",
   "status": "proved",
   "theorems": [
    "C155_values",
    "C155_equality"
   ],
   "note": "toString() is stated as it is (always empty, see C50)."
  },
  {
   "property": "C156",
   "status": "proved",
   "theorems": [
    "C156_slice",
    "C156_elements",
    "C156_rest"
   ],
   "note": "Exact counterpart of the partial C82 and C122 for slices."
  },
  {
   "property": "C157",
   "status": "proved",
   "theorems": [
    "C157_bytes",
    "C157_same",
    "C157_all"
   ],
   "note": "Exact counterpart of the partial C87."
  },
  {
   "property": "C158",
   "status": "proved",
   "theorems": [
    "C158_first",
    "C158_last",
    "C158_contains",
    "C158_nowhere",
    "C158_unreadable",
    "C158_edge",
    "C158_path"
   ],
   "note": "Exact counterpart of the empty-text case left out of C21 and refuted in C98."
  },
  {
   "property": "C159",
   "status": "proved",
   "theorems": [
    "C159_programs",
    "C159_total",
    "C159_steps"
   ],
   "note": "Exact for every program: C159_programs with C159_total; C159_steps states how often an iterator can be advanced."
  },
  {
   "property": "C160",
   "status": "proved",
   "theorems": [
    "C160_decode16",
    "C160_decode16_text",
    "C160_decode64",
    "C160_decode64_empty",
    "C160_decode64_text",
    "C160_encode16",
    "C160_encode64",
    "C160_decode16_sharp",
    "C160_encode16_sharp",
    "C160_encode64_sharp",
    "C160_decode64_sharp"
   ],
   "note": "Codecs within one block of memory (InPlaceModel.v): every read sees earlier writes. Equality with the codec on a copy under the stated conditions; sharpness of the conditions of all four codecs; text decoded over itself is replaced by its bytes."
  },
  {
   "property": "C161",
   "status": "proved",
   "theorems": [
    "C161_single",
    "C161_make",
    "C161_parse"
   ],
   "note": "Both directions, on the model of path construction with refused requests (PathAllocModel.v). The requests of a copy and of a vector are each one request, whatever their size."
  },
  {
   "property": "C162",
   "status": "proved",
   "theorems": [
    "C162_program",
    "C162_number"
   ],
   "note": "Refinement of the memory model, in which objects lie one after the other and every access goes through an address, to numbers. Text with misplaced dashes is excluded because parsing it is not safe (C17). An index outside the object is answered by the exception, an operand that was never made by ANoObject."
  },
  {
   "property": "C163",
   "status": "proved",
   "theorems": [
    "C163_program",
    "C163_always",
    "C163_dangling"
   ],
   "note": "Memory is a collection of live Strings at places; the bytes within a String are not modelled here. Requests for memory are granted (refusals: C96, C151, C161). C163_dangling shows that the condition on destroyed sequences is needed."
  },
  {
   "property": "C164",
   "status": "proved",
   "theorems": [
    "C164_program",
    "C164_only",
    "C164_find_own"
   ],
   "note": "Exact: the program is undefined if and only if an existing element is replaced by itself. Copies of elements do not throw here (C153 covers those that do)."
  },
  {
   "property": "C165",
   "status": "proved",
   "theorems": [
    "C165_program",
    "C165_stays",
    "C165_gone"
   ],
   "note": "Exact: C165_program gives all answers and says when the program is undefined; C165_stays and C165_gone are its two consequences for one reference. Arrays come from toArray() only, element constructors do not throw."
  },
  {
   "property": "C166",
   "status": "proved",
   "theorems": [
    "C166_program",
    "C166_alias",
    "C166_elements",
    "C166_stays",
    "C166_names"
   ],
   "note": "Exact: C166_program gives all answers and says when the program is undefined; C166_alias, C166_elements, C166_stays and C166_names say what that means for one result. The elements stay where they are (C165 says for how long) and functions handed to the combinators do not throw."
  }
 ]
}