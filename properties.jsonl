{"id": "C01", "title": "Slicing a memory view is clamped and in bounds", "statement": "MemoryView::slice(from,to) and MutableMemoryView::slice(from,to) never fail and never expose a byte outside the view: the result is exactly the bytes with index i such that from <= i < to and i < size(); in particular slice of an inverted or too large range is empty or truncated, and slicing a slice equals one slice of the original.", "quantifier": "every view size, every from and to over the whole unsigned 64-bit range, every byte content", "why_tests_cant": "the clamp involves two 64-bit arguments and an unbounded view; tests sample a handful of pairs", "anchors": ["include/solace/memoryView.hpp: MemoryView::slice", "src/memoryView.cpp", "include/solace/mutableMemoryView.hpp: MutableMemoryView::slice", "src/mutableMemoryView.cpp"]}
{"id": "C02", "title": "Memory view comparison and byte transfer", "statement": "Two views are equal iff they hold the same bytes; MutableMemoryView::write copies the whole source to the front of the destination and changes nothing else, or reports an error and changes nothing; MutableMemoryView::fill sets every byte; MemoryView::read style copies are all-or-nothing.", "quantifier": "every pair of buffers of every size and content", "why_tests_cant": "all-or-nothing behaviour must hold for each size relation and content", "anchors": ["src/memoryView.cpp: MemoryView::equals", "src/mutableMemoryView.cpp: MutableMemoryView::write/read/fill"]}
{"id": "C03", "title": "ByteReader delivers the buffer in order, once, and never past its limit", "statement": "From construction, any sequence of reads, skips, rewinds, clears and typed reads delivers exactly the bytes at consecutive positions; an operation that cannot be satisfied returns an error and leaves position, limit and contents unchanged; position <= limit <= capacity holds after every operation of a history in which limit() is never set below the current position.", "quantifier": "every buffer and every finite sequence of reader operations with arbitrary 64-bit arguments", "why_tests_cant": "the state machine has unboundedly many histories with wrapping 64-bit arguments", "anchors": ["include/solace/byteReader.hpp", "src/byteReader.cpp"]}
{"id": "C04", "title": "Setting a ByteReader/ByteWriter limit keeps position <= limit", "statement": "After any history of operations, remaining() never exceeds capacity() and reads never return bytes beyond the limit the user has set, whatever value limit(n) was called with.", "quantifier": "every history of operations including limit(n) below the current position", "why_tests_cant": "the failing histories are specific orderings of limit() and advance()", "anchors": ["include/solace/byteReader.hpp: limit", "include/solace/byteWriter.hpp: limit", "src/byteReader.cpp", "src/byteWriter.cpp"]}
{"id": "C05", "title": "A rejected ByteWriter write leaves the buffer untouched", "statement": "ByteWriter::write either stores all given bytes at the current position and advances by exactly that many, leaving every other byte of the buffer unchanged, or reports an error and leaves the buffer and the position unchanged.", "quantifier": "every buffer, limit, position and source length", "why_tests_cant": "needs the frame condition on every byte of the buffer for every position/limit/length", "anchors": ["src/byteWriter.cpp: ByteWriter::write"]}
{"id": "C06", "title": "Fixed width integers have the documented byte order", "statement": "writeBE stores the most significant byte first and writeLE the least significant byte first for 8/16/32/64-bit integers, on either host byte order, and readBE/readLE return the value so stored.", "quantifier": "every integer of each width, either host byte order", "why_tests_cant": "2^64 values times positions; tests check a few literals on one host", "anchors": ["include/solace/byteReader.hpp: readLE/readBE", "include/solace/byteWriter.hpp: writeLE/writeBE", "src/byteReader.cpp", "src/byteWriter.cpp"]}
{"id": "C07", "title": "A record written field by field reads back unchanged", "statement": "Writing any sequence of LE/BE integers and raw byte chunks with a ByteWriter and reading the written region with a ByteReader using the same sequence of types returns the same sequence of values and leaves the reader exactly at its end.", "quantifier": "every sequence (any length) of fields and values that fits the buffer", "why_tests_cant": "induction over sequences of heterogeneous fields", "anchors": ["include/solace/byteWriter.hpp", "include/solace/byteReader.hpp"]}
{"id": "C08", "title": "Base16 encoding is exact lower-case hexadecimal", "statement": "Base16Encoder::encode of n bytes produces exactly 2n characters, character pair i being the two lower-case hexadecimal digits of byte i, high nibble first; encodedSize predicts the length; the base16 encode iterator yields the same characters.", "quantifier": "every byte string that fits the destination", "why_tests_cant": "unbounded inputs", "anchors": ["src/base16.cpp: Base16Encoder::encode, base16_encode", "include/solace/base16.hpp"]}
{"id": "C09", "title": "Base16 decode inverts encode and rejects everything else", "statement": "Base16Decoder::decode(encode(x)) succeeds with x; on any 7-bit text it succeeds iff the length is even and every character is a hexadecimal digit (either case) and then yields the denoted bytes; otherwise it returns an error.", "quantifier": "every byte string, every text of bytes below 128", "why_tests_cant": "unbounded inputs; rejection must hold for every malformed text", "anchors": ["src/base16.cpp: Base16Decoder::decode, charToBin"]}
{"id": "C10", "title": "Base16 decoding is memory safe on arbitrary bytes", "statement": "Decoding arbitrary, possibly hostile, bytes never reads outside the decoder's tables.", "quantifier": "every byte string over all 256 byte values", "why_tests_cant": "depends on a byte value no existing test uses", "anchors": ["src/base16.cpp: kHexToBin, charToBin"]}
{"id": "C11", "title": "Base64 encoding conforms to RFC 4648", "statement": "Base64Encoder (and the URL-safe variant) maps every byte string to the RFC 4648 text: concatenated 6-bit groups over the standard (URL-safe) alphabet, '=' padded to a multiple of four; encodedSize predicts its length.", "quantifier": "every byte string of representable size that fits the destination", "why_tests_cant": "unbounded inputs with three tail cases", "anchors": ["src/base64.cpp: base64encode, Base64Encoder::encodedSize"]}
{"id": "C12", "title": "Base64 decode inverts encode", "statement": "Decoding the text produced by the encoder returns the original bytes, for both alphabets.", "quantifier": "every non-empty byte string, both alphabets, every content of the memory after the text", "why_tests_cant": "unbounded inputs; behaviour depends on memory after the view", "anchors": ["src/base64.cpp: base64decode"]}
{"id": "C13", "title": "Base64 decoding reads only the text it was given", "statement": "Decoding never examines memory outside the given view, so the result is a function of the view contents only.", "quantifier": "every text and every content of adjacent memory", "why_tests_cant": "the fault depends on memory adjacent to the argument, which tests do not control", "anchors": ["src/base64.cpp: base64decode"]}
{"id": "C14", "title": "Base64 decodedSize predicts the decoded length", "statement": "For every text produced by the encoder the decoder's reported decoded size is the number of bytes that decoding produces, for both alphabets.", "quantifier": "every byte string, both alphabets", "why_tests_cant": "unbounded inputs, two alphabets", "anchors": ["src/base64.cpp: Base64Decoder::decodedSize"]}
{"id": "C15", "title": "Atoms are faithful short strings", "statement": "tryParseAtom accepts exactly strings of at most 8 bytes; atomToString of the parsed value returns the original NUL-free 7-bit string; two different such strings never share an atom value, and numeric order of atoms is the byte-wise order of the strings.", "quantifier": "every string of up to 8 bytes", "why_tests_cant": "2^64 atoms; injectivity is a relation between all pairs", "anchors": ["include/solace/atom.hpp", "src/atom.cpp"]}
{"id": "C16", "title": "UUID text round trip", "statement": "UUID::toString yields 36 characters in the 8-4-4-4-12 lower-case form and UUID::parse of it returns the same UUID.", "quantifier": "every 128-bit UUID", "why_tests_cant": "2^128 values", "anchors": ["src/uuid.cpp: UUID::toString, UUID::parse"]}
{"id": "C17", "title": "UUID parsing is safe and strict on arbitrary text", "statement": "UUID::parse of an arbitrary text either returns an error or a UUID whose canonical text equals the input up to letter case, and never writes outside the 16-byte value.", "quantifier": "every text", "why_tests_cant": "malformed dash placement is a combinatorial space", "anchors": ["src/uuid.cpp: UUID::parse"]}
{"id": "C18", "title": "UUID equality and ordering are a total order", "statement": "== holds iff all 16 bytes agree; < is a strict total order, byte-wise lexicographic, consistent with ==; isNull holds iff all bytes are zero; swap exchanges the values.", "quantifier": "all pairs and triples of UUIDs", "why_tests_cant": "relations over all pairs/triples", "anchors": ["include/solace/uuid.hpp", "src/uuid.cpp"]}
{"id": "C19", "title": "StringView comparison predicates", "statement": "equals, startsWith, endsWith, substring and isEmpty agree with their mathematical definition on sequences, with substring clamped to the string.", "quantifier": "all pairs of strings of up to 65535 bytes and all indices", "why_tests_cant": "relations over all pairs of strings", "anchors": ["src/stringView.cpp", "include/solace/stringView.hpp"]}
{"id": "C20", "title": "StringView ordering is a total order", "statement": "compareTo returns zero exactly for equal strings, is antisymmetric in sign, transitive and lexicographic, so that it can be used as a sort key.", "quantifier": "all pairs and triples of strings", "why_tests_cant": "order axioms relate all pairs and triples", "anchors": ["src/stringView.cpp: StringView::compareTo"]}
{"id": "C21", "title": "StringView searching finds the first/last occurrence", "statement": "indexOf returns the smallest index at or after the start at which the needle occurs, lastIndexOf the largest, and none iff there is no occurrence; contains agrees with indexOf.", "quantifier": "all strings, non-empty needles and start indices", "why_tests_cant": "minimality/maximality over all positions and absence of false negatives", "anchors": ["src/stringView.cpp: indexOf/lastIndexOf/contains"]}
{"id": "C22", "title": "StringView split is exact and lossless", "statement": "split by a character or non-empty delimiter delivers, in order, delimiter-free pieces whose join with the delimiter is the original string; the number of pieces is the number of greedy non-overlapping delimiter occurrences plus one; indices and count passed to the callback are right.", "quantifier": "all strings and delimiters", "why_tests_cant": "a global property of an unbounded loop", "anchors": ["include/solace/stringView.hpp: split", "src/stringView.cpp"]}
{"id": "C23", "title": "StringView split terminates", "statement": "Every overload of split terminates for every string and every delimiter, including the empty one.", "quantifier": "all strings and delimiters", "why_tests_cant": "non-termination cannot be observed by a test", "anchors": ["include/solace/stringView.hpp: split"]}
{"id": "C24", "title": "StringView trim", "statement": "trim removes exactly the maximal prefix and suffix of white space (or of the given character) and nothing else; it is idempotent.", "quantifier": "all strings", "why_tests_cant": "maximality over all strings", "anchors": ["src/stringView.cpp: trim"]}
{"id": "C25", "title": "StringView hash is compatible with equality", "statement": "Equal strings have equal hash codes and the hash is the degree-31 polynomial of its characters modulo 2^64.", "quantifier": "all strings", "why_tests_cant": "all pairs of strings", "anchors": ["src/stringView.cpp: hashCode"]}
{"id": "C26", "title": "String construction copies, concatenation and join are exact", "statement": "makeString/makeStringJoin build exactly the concatenation (with separators) of their arguments when the total length is representable in the string size type.", "quantifier": "all lists of strings whose total length is at most 65535", "why_tests_cant": "unbounded argument lists", "anchors": ["src/string.cpp: makeString, makeStringJoin", "include/solace/string.hpp"]}
{"id": "C27", "title": "String concatenation and join never lose data silently", "statement": "When the total length is not representable the caller gets an error rather than a shorter or garbage string; joining an empty list gives the empty string.", "quantifier": "all lists of strings", "why_tests_cant": "needs inputs longer than 64 KiB or the empty list", "anchors": ["src/string.cpp: makeStringJoin, totalSize"]}
{"id": "C28", "title": "String replacement substitutes every occurrence", "statement": "makeStringReplace(s, what, with) replaces each greedy left-to-right non-overlapping occurrence of what and changes nothing else.", "quantifier": "all strings, non-empty patterns, replacements with representable result length", "why_tests_cant": "global property of a loop", "anchors": ["src/string.cpp: makeStringReplace"]}
{"id": "C29", "title": "Path text round trip", "statement": "Path::parse of Path::toString gives the same path for every path that parse can produce, and toString(parse(s)) = s for every text without a trailing delimiter.", "quantifier": "all texts, all component lists", "why_tests_cant": "unbounded inputs", "anchors": ["src/path.cpp: Path::parse, Path::toString"]}
{"id": "C30", "title": "Path normalisation", "statement": "normalize is idempotent, its result contains no '.' or '..' component, it keeps absolute paths absolute and preserves the location denoted by the path.", "quantifier": "all paths", "why_tests_cant": "semantic equivalence over all component lists", "anchors": ["src/path.cpp: Path::normalize"]}
{"id": "C31", "title": "Path structure queries", "statement": "getParent/getBasename split a path at its last component; subpath(from,to) is the clamped component range; startsWith/endsWith/contains/equals agree with component sequence prefix/suffix/infix/equality.", "quantifier": "all pairs of paths and indices", "why_tests_cant": "relations over all pairs", "anchors": ["src/path.cpp"]}
{"id": "C32", "title": "Version order is a strict order", "statement": "operator< and operator> on versions are mutually converse strict orders consistent with ==, and order by major, minor, patch first.", "quantifier": "all pairs and triples of versions", "why_tests_cant": "order axioms over all triples", "anchors": ["include/solace/version.hpp", "src/version.cpp"]}
{"id": "C33", "title": "Version text round trip", "statement": "Version::parse(v.toString()) equals v including pre-release and build tags, for every version with tags free of separators whose text fits a String (65535 characters).", "quantifier": "all versions whose text fits a String", "why_tests_cant": "unbounded strings and 2^96 number triples", "anchors": ["src/version.cpp: Version::parse, Version::toString"]}
{"id": "C34", "title": "Dial string parsing", "statement": "tryParseDailString splits [protocol:]address[:service] so that formatting the parts again gives the input, and rejects protocols that are not representable as atoms.", "quantifier": "all texts", "why_tests_cant": "unbounded inputs", "anchors": ["src/dialstring.cpp"]}
{"id": "C35", "title": "MemoryManager accounting", "statement": "After any history of allocations and releases, size() is the sum of the sizes of the live blocks, size() <= capacity(), limit() = capacity()-size(); a request is refused iff it exceeds limit(), the manager is locked or the system allocator fails; refused requests change nothing.", "quantifier": "every finite history of allocate/free/lock/unlock with arbitrary sizes and arbitrary system allocator answers", "why_tests_cant": "unbounded histories", "anchors": ["include/solace/memoryManager.hpp", "src/memoryManager.cpp"]}
{"id": "C36", "title": "MemoryManager can be moved while blocks are outstanding", "statement": "Swapping or moving managers keeps each manager's size() equal to the blocks accounted to it and later releases credit the manager that holds the account.", "quantifier": "every history that includes swap/move of managers", "why_tests_cant": "needs interleavings of swap and free", "anchors": ["src/memoryManager.cpp: MemoryManager::swap", "include/solace/memoryManager.hpp"]}
{"id": "C37", "title": "Owned memory is released exactly once", "statement": "Across any history of constructing, moving, assigning, swapping and destroying MemoryResource objects, each acquired buffer is disposed exactly once, never used after, and none leaks once all objects are destroyed.", "quantifier": "every finite history over any number of resources", "why_tests_cant": "unbounded ownership histories", "anchors": ["include/solace/memoryResource.hpp"]}
{"id": "C38", "title": "Vector behaves as a bounded sequence", "statement": "Any history of emplace_back, pop_back, clear and element access on a Vector behaves like a list with a fixed capacity: an insert beyond the capacity is refused with an error and changes nothing, pop_back on an empty vector is a no-op, access out of range is rejected.", "quantifier": "every capacity and finite history", "why_tests_cant": "unbounded histories", "anchors": ["include/solace/vector.hpp"]}
{"id": "C39", "title": "Container elements are destroyed exactly once", "statement": "Every element constructed inside an Array or Vector is destroyed exactly once over the life of the container, for every history including constructors that throw part-way.", "quantifier": "every history and every point at which an element constructor throws", "why_tests_cant": "every crash point of every construction", "anchors": ["include/solace/array.hpp", "include/solace/vector.hpp", "include/solace/details/array_utils.hpp"]}
{"id": "C40", "title": "Dictionary lookup", "statement": "find(k) returns a value stored under k iff k was put; put refuses when full and then changes nothing; keys and values stay paired.", "quantifier": "every finite history of puts and finds", "why_tests_cant": "unbounded histories", "anchors": ["include/solace/dictionary.hpp"]}
{"id": "C41", "title": "Dictionary put replaces", "statement": "After put(k,v) succeeds, find(k) returns v, also when k was already present.", "quantifier": "every dictionary and key", "why_tests_cant": "needs histories with repeated keys", "anchors": ["include/solace/dictionary.hpp: put"]}
{"id": "C42", "title": "VariableSpan walks size-prefixed records", "statement": "Iterating a VariableSpan over the serialisation of a list of byte strings (1/2/4/8-byte length prefix, either byte order) yields exactly that list; over arbitrary bytes it yields only sub-ranges of the view and terminates after the declared count.", "quantifier": "every list of records, every prefix width and byte order, every malformed buffer", "why_tests_cant": "unbounded and hostile inputs", "anchors": ["include/solace/variableSpan.hpp"]}
{"id": "C43", "title": "Filtered ranges contain only selected elements", "statement": "Iterating a filtered range view yields exactly the elements satisfying the predicate, in order.", "quantifier": "every sequence and predicate", "why_tests_cant": "all sequences", "anchors": ["include/solace/range_view.hpp"]}
{"id": "C44", "title": "Optional combinators are lawful", "statement": "map/flatMap/filter/orElse obey the functor and monad laws; a callback is invoked iff a value is present; get on an empty optional raises and never yields a value.", "quantifier": "every value type, value and callback", "why_tests_cant": "universally quantified over functions", "anchors": ["include/solace/optional.hpp"]}
{"id": "C45", "title": "Optional and Result payload lifetimes", "statement": "Over any history of construction, assignment, swap, reset and destruction of Optional and Result objects, each payload is constructed before use and destroyed exactly once.", "quantifier": "every finite history over any number of objects", "why_tests_cant": "unbounded lifetime histories", "anchors": ["include/solace/optional.hpp", "include/solace/result.hpp"]}
{"id": "C46", "title": "Result combinators are lawful", "statement": "then/orElse/mapError call exactly the continuation selected by the state, propagate the other alternative unchanged and obey the monad laws.", "quantifier": "every result and continuation", "why_tests_cant": "universally quantified over functions", "anchors": ["include/solace/result.hpp"]}
{"id": "C47", "title": "Digest of a message does not depend on how it is fed", "statement": "For MD5, SHA1 and SHA256, updating with any sequence of chunks gives the same digest as one update with their concatenation, and equals the published algorithm's digest of that message.", "quantifier": "every message shorter than 2^32 bytes and every way of cutting it in chunks (including empty ones)", "why_tests_cant": "unbounded messages times all partitions", "anchors": ["src/hashing/md5.cpp", "src/hashing/sha1.cpp", "src/hashing/sha2.cpp"]}
{"id": "C48", "title": "Hash implementations equal their published definition", "statement": "The block function of MD5, SHA1 and SHA256 equals the round-by-round definition of RFC 1321 / FIPS 180-4 on every state and block.", "quantifier": "every chaining state and 64-byte block", "why_tests_cant": "2^512 blocks", "anchors": ["src/hashing/md5.cpp: md5_process", "src/hashing/sha1.cpp: sha1_process", "src/hashing/sha2.cpp: sha256_process"]}
{"id": "C49", "title": "Murmur3 digests accumulate updates", "statement": "Updating a Murmur3 hasher with two chunks digests their concatenation, as for every other HashingAlgorithm.", "quantifier": "every pair of chunks and seed", "why_tests_cant": "all pairs of chunks", "anchors": ["src/hashing/murmur3.cpp"]}
{"id": "C50", "title": "A message digest prints as hexadecimal", "statement": "MessageDigest::toString returns the two-digit lower-case hexadecimal rendering of every digest byte.", "quantifier": "every digest", "why_tests_cant": "all digests; no test covers it", "anchors": ["src/hashing/messageDigest.cpp"]}
{"id": "C51", "title": "Environment variables read back what was set", "statement": "After set(n,v) with replace, get(n) returns v; unset removes it and only it; other variables are unaffected; clear empties the environment and reports success.", "quantifier": "every environment, name and value", "why_tests_cant": "all values, e.g. those containing '='", "anchors": ["src/env.cpp", "include/solace/env.hpp"]}
{"id": "C52", "title": "StringBuilder accumulates exactly what is appended", "statement": "The view of a StringBuilder is the concatenation of the appended pieces as long as they fit its buffer, numbers being rendered in decimal without loss.", "quantifier": "every capacity and sequence of appends", "why_tests_cant": "unbounded histories and boundary fits", "anchors": ["include/solace/stringBuilder.hpp", "src/stringBuilder.cpp"]}
{"id": "C53", "title": "Error domain registry", "statement": "findErrorDomain returns the domain first registered under the id and none iff no domain was registered, for up to 128 registrations.", "quantifier": "every registration history", "why_tests_cant": "unbounded histories", "anchors": ["src/errorDomain.cpp"]}
{"id": "C54", "title": "Exception messages are complete", "statement": "The text of an IndexOutOfRange, Overflow, IllegalArgument, NoSuchElement, InvalidState or IO exception contains prefix, decimal values and bounds without truncation and without overrunning its buffer.", "quantifier": "all prefixes, names and values whose text fits 16 bits", "why_tests_cant": "all values and lengths", "anchors": ["src/exception.cpp", "src/errorString.cpp", "include/solace/details/string_utils.hpp"]}
{"id": "C55", "title": "Typed access to a memory view stays inside it", "statement": "dataAs<T>() and dataAs<T>(offset) return the object stored at the given offset when it lies completely inside the view and are rejected otherwise, for every offset.", "quantifier": "every view, every 64-bit offset, every object size", "why_tests_cant": "the failing offsets are within a few bytes of 2^64; tests only try small offsets", "anchors": ["include/solace/memoryView.hpp MemoryView::dataAs"]}
{"id": "C56", "title": "Distinct short strings have distinct atoms whatever their bytes", "statement": "Two different NUL-free strings of at most 8 bytes, including UTF-8 text with bytes above 127, never parse to the same atom value.", "quantifier": "all pairs of NUL-free strings of up to 8 bytes", "why_tests_cant": "a relation between all pairs of 2^64 strings; tests only use ASCII", "anchors": ["include/solace/atom.hpp: detail::wrap", "src/atom.cpp: tryParseAtom"]}
{"id": "C57", "title": "makeUUID preserves the bytes it is given", "statement": "makeUUID of a memory view returns its first 16 bytes and raises an exception for any shorter view; makeUUID of four words lays the words out in order, each in host byte order.", "quantifier": "every view and every four 32-bit words, both byte orders", "why_tests_cant": "2^128 values and every view size", "anchors": ["src/uuid.cpp: makeUUID"]}
{"id": "C58", "title": "ByteWriter flip exposes exactly what was written", "statement": "After any sequence of writes that fit, viewWritten is exactly the concatenation of the written bytes; flip makes exactly those bytes the remaining view, with the position at zero and the buffer unchanged; rewind keeps the limit; clear makes the whole buffer available again.", "quantifier": "every buffer and every sequence of writes that fits", "why_tests_cant": "all histories of writes and all buffer contents", "anchors": ["include/solace/byteWriter.hpp: flip, clear, rewind, viewWritten, viewRemaining", "src/byteWriter.cpp: ByteWriter::write"]}
{"id": "C59", "title": "Path comparison", "statement": "Path::compareTo is a strict total order on paths, consistent with equals.", "quantifier": "all pairs and triples of paths", "why_tests_cant": "order laws over all paths", "anchors": ["src/path.cpp: Path::compareTo"]}
{"id": "C60", "title": "Path length", "statement": "Path::length(delim) is the length of the text that toString(delim) produces.", "quantifier": "all paths and delimiters", "why_tests_cant": "unbounded inputs, 16-bit wrap-around", "anchors": ["src/path.cpp: Path::length, Path::toString"]}
{"id": "C61", "title": "Joining paths", "statement": "makePath(a, b, ...) has exactly the components of its path arguments and its text arguments, in order.", "quantifier": "all argument lists", "why_tests_cant": "unbounded argument lists and paths", "anchors": ["include/solace/path.hpp: makePath, details::joinComponents, details::countPathComponents"]}
{"id": "C62", "title": "Measured size of formatted numbers", "statement": "StringBuilder::measureFormatted(v) is the number of characters append(v) writes, and the appended text is the decimal numeral of v (digits only, no leading zero), from which v can be read back.", "quantifier": "every unsigned integer up to 64 bits", "why_tests_cant": "2^64 values and every power-of-ten boundary", "anchors": ["src/stringBuilder.cpp:StringBuilder::measureFormatted", "src/stringBuilder.cpp:StringBuilder::append"]}
{"id": "C63", "title": "StringBuilder::indexOf finds the first occurrence", "statement": "indexOf(ch, from) returns the least index at or after from at which the character occurs in the accumulated text, and none exactly if it does not occur.", "quantifier": "every history of appends, character and start index", "why_tests_cant": "all texts, including occurrences at the very end", "anchors": ["src/stringBuilder.cpp:StringBuilder::indexOf"]}
{"id": "C64", "title": "StringBuilder::substring selects a range of the text", "statement": "substring(from, to) is exactly the characters of the accumulated text with index in [from, to), whatever from and to are.", "quantifier": "every history of appends, every from and to", "why_tests_cant": "all bounds, including ones beyond the end or reversed", "anchors": ["src/stringBuilder.cpp:StringBuilder::substring"]}
{"id": "C65", "title": "Version::parse looks only at its argument", "statement": "The result of Version::parse(view) depends only on the characters in the view and never reads memory outside it.", "quantifier": "every text and every content of the surrounding memory", "why_tests_cant": "quantifies over the memory around the argument", "anchors": ["src/version.cpp:Version::parse"]}
{"id": "C66", "title": "Version::parse rejects malformed versions", "statement": "Version::parse returns an error for every text that is not MAJOR.MINOR.PATCH[-pre][+build] with decimal numbers that fit 32 bits.", "quantifier": "every text", "why_tests_cant": "all malformed texts", "anchors": ["src/version.cpp:Version::parse"]}
{"id": "C67", "title": "Arrays have as many elements as their size", "statement": "makeArray(n) gives an array with size() = n whose n elements are all accessible; an array made from a vector has exactly its elements; empty() says that there are none.", "quantifier": "every element size, count and history", "why_tests_cant": "every count up to 2^64, including products that wrap", "anchors": ["include/solace/array.hpp: makeArray, Array::size, Array::empty", "include/solace/vector.hpp: Vector::toArray"]}
{"id": "C68", "title": "Optional and Result objects behave as values", "statement": "Over any history of construction, copy, move, swap, assignment, reset, access and destruction of Optional and Result objects, every answer is the one given by plain optional values and disjoint sums under the same operations: swap and move assignment exchange the two states, a copy leaves its source alone, a move leaves its source with the moved-from payload, a throwing assignment leaves the Optional empty.", "quantifier": "every finite history over any number of objects, every value and every placement of exceptions", "why_tests_cant": "unbounded histories over aliased objects", "anchors": ["include/solace/optional.hpp", "include/solace/result.hpp"]}
{"id": "C69", "title": "Equality of Optionals and Results", "statement": "Two Optionals (Results) compare equal iff both are empty, or both hold the same alternative with equal contents; != is the negation; comparison with a value, Ok(v) or Err(e) agrees with it.", "quantifier": "every pair of objects and every payload equality", "why_tests_cant": "quantified over payload types and their comparison", "anchors": ["include/solace/optional.hpp operator==", "include/solace/result.hpp operator=="]}
{"id": "C70", "title": "Digests are right whatever the length of one update", "statement": "MD5, SHA1 and SHA256 of a message fed in one update equal the published digest for every length the standards allow.", "quantifier": "every message, including those of 2^32 bytes and more", "why_tests_cant": "messages of gigabytes are not tested; every length matters for the byte counter", "anchors": ["src/hashing/md5.cpp: md5_update", "src/hashing/sha1.cpp: sha1_update", "src/hashing/sha2.cpp: sha256_update"]}
{"id": "C71", "title": "digest() can be asked again", "statement": "In any history of update and digest calls, digest() returns the published digest of everything fed so far, and asking for it does not change later answers.", "quantifier": "every history of update and digest calls on one hasher", "why_tests_cant": "unbounded histories", "anchors": ["src/hashing/md5.cpp: MD5::digest", "src/hashing/sha1.cpp: Sha1::digest", "src/hashing/sha2.cpp: Sha256::digest"]}
{"id": "C72", "title": "Sha3 digests depend on the message", "statement": "The digest of Sha3 is the SHA3-256 digest of the message fed; in particular different messages do not all have one digest.", "quantifier": "every message and every cut in chunks", "why_tests_cant": "all messages", "anchors": ["src/hashing/sha3.cpp"]}
{"id": "C73", "title": "getDigestLength is the number of bytes of the digest", "statement": "getDigestLength() of a hashing algorithm is the length in bytes, as documented, of the digest() it returns for any message.", "quantifier": "every algorithm and message", "why_tests_cant": "the digest of every message has to have that length", "anchors": ["include/solace/hashing/digestAlgorithm.hpp: HashingAlgorithm::getDigestLength", "src/hashing/md5.cpp", "src/hashing/sha1.cpp", "src/hashing/sha2.cpp", "src/hashing/sha3.cpp"]}
{"id": "C74", "title": "Hashing from a reader consumes exactly the unread bytes", "statement": "update(ByteReader&) has the effect of update with the bytes between the reader's position and its limit, and leaves the reader at its limit.", "quantifier": "every algorithm, hasher state and reader state", "why_tests_cant": "all reader states", "anchors": ["include/solace/hashing/digestAlgorithm.hpp: HashingAlgorithm::update(ByteReader&)"]}
{"id": "C75", "title": "Murmur3 of one update is the published hash", "statement": "On a little-endian machine a Murmur3_32 or Murmur3_128 hasher that is given one message digests to the published MurmurHash3 of that message (x86_32 rendered big-endian; x64_128 or x86_128, by architecture, rendered little-endian).", "quantifier": "every message shorter than 2^31 bytes, every seed", "why_tests_cant": "all lengths modulo the block size, all contents and seeds; the last bytes go through a fall-through switch of up to fifteen cases", "anchors": ["src/hashing/murmur3.cpp", "include/solace/hashing/murmur3.hpp"]}
{"id": "C76", "title": "Iterating the environment visits every variable", "statement": "Iterating over Env, or forEach, visits every variable once, in order, with its name and its value; size() is their number and empty() says whether there is none.", "quantifier": "every environment", "why_tests_cant": "all environments, in particular any number of variables and any values", "anchors": ["src/env.cpp", "include/solace/env.hpp"]}
{"id": "C77", "title": "The POSIX error domain is always known", "statement": "In every program the domain of POSIX errors can be found under its id as soon as main runs, whatever other domains are registered and in whatever order the static objects of the library are initialised.", "quantifier": "every order of static initialisation and every later registration", "why_tests_cant": "A test sees the one order its linker chose", "anchors": ["src/systemErrorDomain.cpp", "src/errorDomain.cpp"]}
{"id": "C78", "title": "Text of an Error", "statement": "Error::toString gives the message of the registered domain for the code; for an unregistered domain the name of the domain, a colon, a space and the tag, or the empty string when memory runs out.", "quantifier": "every registration history, domain, code, tag and allocator", "why_tests_cant": "all tags and names", "anchors": ["src/error.cpp", "src/atom.cpp"]}
{"id": "C79", "title": "Exception messages are owned exactly once", "statement": "However exceptions are created, moved and destroyed, each keeps its message until it is destroyed or moved from, a moved-from exception can be asked for its message safely, and every message buffer is released exactly once.", "quantifier": "every sequence of constructions, moves and destructions", "why_tests_cant": "unbounded histories; double frees and leaks are silent", "anchors": ["include/solace/details/string_utils.hpp", "src/errorString.cpp", "include/solace/exception.hpp"]}
{"id": "C80", "title": "Range assertions", "statement": "assertValueInRange and assertIndexInRange return the value iff it lies in the range, and otherwise raise an exception whose text gives the message, the value and the bounds in decimal.", "quantifier": "every value, bound and message", "why_tests_cant": "all values and messages", "anchors": ["src/assert.cpp", "include/solace/assert.hpp", "src/exception.cpp"]}
{"id": "C81", "title": "Equality of array views", "statement": "Two array views are equal exactly when they show the same number of elements and the elements are equal one by one, wherever in memory they lie.", "quantifier": "all element types, sizes, memories and views, also overlapping ones", "why_tests_cant": "unbounded sizes and placements; the address shortcut matters only for unusual equalities", "anchors": ["include/solace/arrayView.hpp: ArrayView::equals"]}
{"id": "C82", "title": "Array views are windows on a sequence", "statement": "Reading and changing elements through an array view or slices of it (operator[], set, fill, forEach, slice, indexOf, contains, empty) has exactly the effect it has on the corresponding section of the sequence: out of range indices are refused, nothing outside the view changes, forEach gives every element in order and keeps the changes the callback makes.", "quantifier": "all element sizes, memories, views, nested slices and histories of operations", "why_tests_cant": "unbounded sizes, nesting and histories; 64-bit wrap around", "anchors": ["include/solace/arrayView.hpp"]}
{"id": "C83", "title": "A Char keeps its bytes", "statement": "A Char made from the bytes of a character gives these bytes back (getBytes, getBytesCount, c_str), also after any sequence of copies, moves, assignments and swaps, and two Chars are equal exactly when they hold the same bytes.", "quantifier": "all byte sequences, all histories of constructions, assignments, moves and swaps, either byte order", "why_tests_cant": "all characters and histories; the byte that ends the C string is indeterminate after a copy", "anchors": ["include/solace/char.hpp", "src/char.cpp"]}
{"id": "C84", "title": "The value of a Char is its code point", "statement": "getValue() and the order of Chars are those of the code point, whether the Char is made from the number or from its UTF-8 bytes.", "quantifier": "all code points, either byte order of the host", "why_tests_cant": "1.1 million code points, pairs of them and two byte orders", "anchors": ["include/solace/char.hpp: Char::Char, getValue, compareTo", "src/char.cpp"]}
{"id": "C85", "title": "Printing views, digests and optionals", "statement": "A memory view prints as its bytes in hexadecimal (or <null>), a digest as its bytes in brackets and an Optional as its value or None; different values print differently, and Base16 decoding the text of a view gives its bytes.", "quantifier": "all byte sequences and optionals", "why_tests_cant": "unbounded sizes", "anchors": ["include/solace/output_utils.hpp"]}
{"id": "C86", "title": "Printing and reading a dial string", "statement": "A dial string prints as protocol:address[:service], and reading what was printed gives the same dial string.", "quantifier": "all protocols, addresses and services, all sizes of size_t", "why_tests_cant": "all texts; the buffer is too small only where size_t is small", "anchors": ["include/solace/output_utils.hpp: operator<< DialString", "src/dialstring.cpp"]}
{"id": "C87", "title": "Random UUIDs differ", "statement": "makeRandomUUID never gives the null UUID, gives different UUIDs for different seeds, and every one of its bits is random.", "quantifier": "every seed, both word sizes and byte orders", "why_tests_cant": "2^32 seeds", "anchors": ["src/uuid.cpp: makeRandomUUID"]}
{"id": "C88", "title": "Printing a UUID into a short buffer", "statement": "UUID::toString into a buffer that is shorter than the text writes a prefix of the text and nothing outside the buffer.", "quantifier": "every UUID, buffer length and old content", "why_tests_cant": "2^128 UUIDs, every length and content", "anchors": ["src/uuid.cpp: UUID::toString"]}
{"id": "C89", "title": "Memory stays locked while its Lock lives", "statement": "After MemoryView::lock() succeeds the pages of the view stay locked in memory until the Lock object that holds them is destroyed, whatever is locked, moved, assigned and destroyed meanwhile, and nothing stays locked once all Lock objects are gone. A lock that fails changes nothing.", "quantifier": "all views, page sizes and histories of locks, moves, assignments and destructions", "why_tests_cant": "unbounded histories; overlaps of pages depend on the placement of buffers", "anchors": ["src/memoryView.cpp: MemoryView::lock, Lock::~Lock", "include/solace/memoryView.hpp: MemoryView::Lock"]}
{"id": "C90", "title": "Character classes", "statement": "isAlphabetic, isDigit, isWhitespace and the other classes answer as the C locale does, and toLower/toUpper change the letters and nothing else, for every Char.", "quantifier": "every Char, either byte order", "why_tests_cant": "2^32 Chars; outside one byte the C functions have undefined behaviour, which tests may not show", "anchors": ["src/char.cpp"]}
{"id": "C91", "title": "Printing an error", "statement": "An Error prints as domain:code:message[:tag], where the domain is the name of its registered domain or its identifier, so that errors that print alike are the same.", "quantifier": "all errors and registrations of domains, all sizes of size_t", "why_tests_cant": "all errors, registries and messages", "anchors": ["include/solace/output_utils.hpp: operator<< Error", "src/error.cpp"]}
{"id": "C92", "title": "Strings are values", "statement": "However a program makes, copies, moves, assigns, swaps and destroys Strings, each String has the text it was given last: a move hands the text over and leaves the source empty, assignment and swap exchange texts, copies are independent, and size, empty, charAt, forEach and == answer from that text.", "quantifier": "all programs of String operations, all texts and literals, all failures of allocation", "why_tests_cant": "ranges over all histories of operations on any number of Strings", "anchors": ["include/solace/string.hpp: String", "src/string.cpp: makeString", "include/solace/memoryResource.hpp: MemoryResource"]}
{"id": "C93", "title": "String memory is owned once and given back", "statement": "No operation on existing Strings is undefined: no block is given back twice or read afterwards, no literal is given back. Every block in use belongs to exactly one String, and when all Strings are destroyed all blocks are given back.", "quantifier": "all programs of String operations", "why_tests_cant": "ranges over all histories of operations", "anchors": ["include/solace/memoryResource.hpp: ~MemoryResource, swap", "include/solace/string.hpp: String", "src/string.cpp: makeString"]}
{"id": "C94", "title": "Views of a String live as long as its text", "statement": "A view of a String shows the characters the String had when the view was taken, through moves, assignments and swaps of the String, until the String that then holds the text is destroyed; after that reading the view is undefined.", "quantifier": "all programs, all points at which a view is taken and read", "why_tests_cant": "ranges over all histories between taking and reading the view", "anchors": ["include/solace/string.hpp: view, substring", "src/stringView.cpp: substring"]}
{"id": "C95", "title": "Pieces of a String", "statement": "substring(from, len) is the piece of len characters that starts at from (cut at the end of the String), substring(from) the piece from there to the end.", "quantifier": "all Strings, starts and lengths", "why_tests_cant": "all starts and lengths", "anchors": ["include/solace/string.hpp: substring, operator()"]}
{"id": "C96", "title": "Paths when memory runs out", "statement": "At whichever allocation memory runs out, an operation that makes a path (parse, makePath, normalize, getParent, subpath, toString) gives the same result as with enough memory or reports the failure; it never gives a different path.", "quantifier": "all paths and texts, every schedule of granted and refused allocations", "why_tests_cant": "every allocation of every operation can fail, in any combination", "anchors": ["src/path.cpp: parse, makePath, normalize, getParent, subpath, toString", "include/solace/path.hpp: joinComponents, makePath"]}
{"id": "C97", "title": "Walking over a path", "statement": "A loop over a path, and forEach, visit the components from first to last, once each; looking behind the end raises an exception. Path::Root is absolute and prints as the delimiter.", "quantifier": "all paths and loop bodies", "why_tests_cant": "all lengths and all bodies", "anchors": ["include/solace/path.hpp: Iterator, begin, end, forEach", "src/path.cpp: Iterator::operator++, operator->, Root"]}
{"id": "C98", "title": "Checks of a path against a text", "statement": "startsWith, endsWith and contains with a text say whether the printed path starts with, ends with or contains that text.", "quantifier": "all paths and texts", "why_tests_cant": "all pairs of a path and a text", "anchors": ["include/solace/path.hpp: startsWith, endsWith, contains"]}
{"id": "C99", "title": "Memory of readers and writers is released exactly once", "statement": "In a program that builds readers, writers and memory resources from each other (owning, borrowing, moving, assigning, swapping, taking the resource out, destroying), every allocated block is owned by exactly one object as long as it is in use, is given back when that object is destroyed and never twice, and nothing is left when all objects are gone. An operation is undefined only if it looks at bytes whose owner is gone.", "quantifier": "all programs over any number of resources, readers and writers", "why_tests_cant": "ownership must hold after every history of moves, swaps and destructions", "anchors": ["include/solace/byteReader.hpp: ByteReader", "include/solace/byteWriter.hpp: ByteWriter, moveResource", "include/solace/memoryResource.hpp: MemoryResource"]}
{"id": "C100", "title": "Readers and writers sharing memory see each other's bytes and nothing else", "statement": "A newly made reader or writer stands at position 0, its limit is its capacity, and it shows exactly the memory it was made from: all of it, the slice asked for, what a writer has written, or what is left before the limit. A reader delivers the bytes that are in its memory at that moment. A write that fits changes exactly the bytes it covers, for everyone who looks at that memory, and a write larger than the memory changes nothing. No operation on one reader or writer changes the position or limit of another.", "quantifier": "all reachable states, all overlapping windows, all operations", "why_tests_cant": "all ways windows of a block can overlap and all histories leading there", "anchors": ["src/byteReader.cpp", "src/byteWriter.cpp", "include/solace/byteReader.hpp: viewRemaining", "include/solace/byteWriter.hpp: viewWritten, viewRemaining"]}
{"id": "C101", "title": "Moving readers and writers", "statement": "A moved-to reader, writer or resource behaves as the source did; the source is left empty with position, limit and capacity zero and refuses every byte. Assignment and swap exchange two objects. moveResource hands over the memory with its content and ownership.", "quantifier": "all reachable states and all operations after the move", "why_tests_cant": "must hold for every state moved and every later operation", "anchors": ["include/solace/byteReader.hpp: ByteReader(ByteReader&&), swap, operator=", "include/solace/byteWriter.hpp: ByteWriter(ByteWriter&&), swap, operator=, moveResource", "include/solace/memoryResource.hpp: MemoryResource(MemoryResource&&)"]}
{"id": "C102", "title": "A writer and a reader on the same memory are a queue", "statement": "With a writer and a reader over the same memory, in any interleaving in which the reader asks only for what has been written, every write that fits succeeds, every write that does not is refused without effect, and the reader gets the bytes of the accepted writes in order, each exactly once.", "quantifier": "all interleavings of writes and reads of any sizes and integer formats", "why_tests_cant": "unbounded interleavings", "anchors": ["include/solace/byteReader.hpp: read, readLE, readBE", "include/solace/byteWriter.hpp: write, writeLE, writeBE"]}
{"id": "C103", "title": "Vectors and arrays are values", "statement": "A program that makes vectors and arrays, copies, moves, swaps, converts, fills, compares and destroys them sees exactly what it would see if every one of them were a list of its own: no operation changes a container it does not name, and every element constructed, copies included, is destroyed exactly once, or is still in a container.", "quantifier": "all programs over any number of containers, all element types, all points where a constructor throws or memory is missing", "why_tests_cant": "unbounded histories and aliasing of containers, every failure point", "anchors": ["include/solace/vector.hpp: makeVector, Vector::equals", "include/solace/array.hpp: makeArray, Array::equals", "include/solace/details/array_utils.hpp: CopyConstructArray_, ExceptionGuard"]}
{"id": "C104", "title": "Equality and copies of vectors and arrays", "statement": "Two vectors (or arrays) are equal exactly when they have the same number of elements and these are equal one by one; != is the opposite; it is an equivalence if equality of the elements is. A copy equals the original and is independent of it; a copy that fails leaves everything as it was. An array equals a list of values exactly when it has those elements. A container equals nullptr exactly when it has no elements.", "quantifier": "all reachable states, all contents and lengths, all element equalities, all failure points of the copy", "why_tests_cant": "all lengths, contents and failure points", "anchors": ["include/solace/vector.hpp: operator==, operator!=, equals, makeVector", "include/solace/array.hpp: operator==, operator!=, equals, makeArray"]}
{"id": "C105", "title": "Splitting and joining are inverse", "statement": "Joining the pieces of a split with the same separator gives back the string, for every non-empty separator. Splitting a join gives back the pieces exactly when no piece together with the separator behind it contains the separator too early; for a separating character, exactly when no piece contains it.", "quantifier": "all strings, separators and lists of pieces, any heap", "why_tests_cant": "all strings and separators, overlapping occurrences included", "anchors": ["include/solace/stringView.hpp: split", "src/string.cpp: makeStringJoin"]}
{"id": "C106", "title": "Laws of replacement", "statement": "Replacing a text by itself, or one that does not occur, leaves the string as it was; every replaced occurrence changes the length by the difference of the lengths; replacing a text by a character that is not in the string and back restores the string. makeStringReplace with characters and with one-character texts give the same; afterwards none of the replaced characters is left, doing it again changes nothing, and replacing back restores the string exactly when it did not contain the new character.", "quantifier": "all strings, patterns and replacements (characters below 128 for the overload with characters), any heap", "why_tests_cant": "all strings and patterns", "anchors": ["src/string.cpp: makeStringReplace"]}
{"id": "C107", "title": "Encoding in pieces", "statement": "Feeding a Base16 encoder or decoder in two calls (whole pairs for the decoder) does the same to the destination, errors included, as one call with everything. For Base64 this holds when the first piece is a multiple of three bytes, and the texts are different in every other case unless the second piece is empty.", "quantifier": "all destinations and all pieces", "why_tests_cant": "all lengths and contents and all ways to cut", "anchors": ["src/base16.cpp: Base16Encoder::encode, Base16Decoder::encode", "src/base64.cpp: Base64Encoder::encode, Base64UrlEncoder::encode"]}
{"id": "C108", "title": "UUIDs are ordered as their texts", "statement": "A UUID is less than, equal to or greater than another exactly when StringView::compareTo says so of their texts.", "quantifier": "all pairs of UUIDs", "why_tests_cant": "2^256 pairs", "anchors": ["src/uuid.cpp: operator<, toString", "src/stringView.cpp: compareTo"]}
{"id": "C109", "title": "Views never reach outside the memory they were given", "statement": "Whatever a program does with memory views, mutable views and string views (constructing, copying, moving, swapping, slicing, reading, writing, filling, indexing, typed access), every access is either inside the memory the program handed to them or rejected with an error or exception, and no view ever covers a byte outside those ranges.", "quantifier": "all programs over any number of views, all memories, offsets and sizes", "why_tests_cant": "unbounded programs; all offsets including those that wrap", "anchors": ["include/solace/memoryView.hpp: MemoryView", "include/solace/mutableMemoryView.hpp: MutableMemoryView", "include/solace/stringView.hpp: StringView, operator[]"]}
{"id": "C110", "title": "Memory given for reading is not written", "statement": "A program that was given a range only as a MemoryView (or text) and does not use mutable_cast does not change the bytes of that range.", "quantifier": "all programs over any number of views", "why_tests_cant": "unbounded programs with aliasing views", "anchors": ["include/solace/memoryView.hpp: swap, operator=", "include/solace/mutableMemoryView.hpp: MutableMemoryView, write, fill, read"]}
{"id": "C111", "title": "Views of the same memory", "statement": "write, read, fill, element and typed assignment put exactly the bytes they are documented to put, at the place the view designates, also when source and destination overlap; every other view shows the new bytes where it overlaps that place and its old bytes elsewhere; slices and copies show the bytes of their source; sizes, elements, addresses and comparisons answer for the bytes shown at that moment.", "quantifier": "all reachable states of programs with any number of views, all operations", "why_tests_cant": "all overlaps of all views in all histories", "anchors": ["src/memoryView.cpp: slice, operator[], equals", "src/mutableMemoryView.cpp: write, read, fill, slice, operator[]", "include/solace/memoryView.hpp: dataAs, offsetAddress"]}
{"id": "C112", "title": "String views of memory and of C strings", "statement": "A StringView made from a MemoryView shows all bytes of the view, one made from a C string all bytes before its terminator, and the memory view of a StringView shows exactly its characters.", "quantifier": "all memories, views and C strings, all histories", "why_tests_cant": "all lengths, including those the 16-bit size cannot hold", "anchors": ["include/solace/stringView.hpp: StringView(MemoryView), view", "src/stringView.cpp: StringView(const char*)"]}
{"id": "C113", "title": "Copying, moving and swapping views", "statement": "A copy designates the memory of the original; a moved memory view is left empty and a moved string view unchanged; assignment copies, move assignment of memory views exchanges the two; swap exchanges, also of a view with itself; none of these touches the memory, another view or the type of a variable.", "quantifier": "all reachable states and all variables, equal ones included", "why_tests_cant": "all aliasing patterns in all histories", "anchors": ["include/solace/memoryView.hpp: MemoryView(MemoryView&&), operator=, swap", "include/solace/mutableMemoryView.hpp: operator=, swap", "include/solace/stringView.hpp: swap"]}
{"id": "C114", "title": "Memory of a whole program is accounted for and given back", "statement": "In any program over strings, vectors, arrays, string builders, digests, versions, UUIDs and paths that share the system heap manager, whatever malloc does: no operation is undefined or ends the program; the manager reports exactly the bytes in use and never more than its capacity; every block in use is held by exactly one object and no object holds a block given back; destroying all objects gives all memory back.", "quantifier": "all programs over any number of variables, all capacities, all behaviours of malloc", "why_tests_cant": "unbounded programs, and a failure of malloc at any call", "anchors": ["src/memoryManager.cpp: MemoryManager::allocate, HeapMemoryDisposer", "include/solace/memoryResource.hpp: MemoryResource", "include/solace/string.hpp, vector.hpp, array.hpp, stringBuilder.hpp, version.hpp, path.hpp: constructors, moves, swap"]}
{"id": "C115", "title": "A locked manager gives no memory", "statement": "From lock() to unlock() no program, whatever it does, makes the manager take memory or its size grow; every operation that needs memory fails; objects can still be used, moved and destroyed; after unlock() memory is given as before.", "quantifier": "all programs between lock and unlock, all states in which the manager is locked", "why_tests_cant": "unbounded programs and states", "anchors": ["src/memoryManager.cpp: lock, unlock, allocate"]}
{"id": "C116", "title": "Every operation has its effect or fails without one", "statement": "Every operation of a program over several owning objects has exactly its documented effect on the values, changing no other variable, and takes exactly the memory of its result; or some of that memory cannot be had, and then it reports an error and changes nothing.", "quantifier": "all reachable states of all programs, all operations, all behaviours of malloc", "why_tests_cant": "all states, all sharing patterns and a failure at any request", "anchors": ["include/solace/string.hpp: makeString", "include/solace/vector.hpp: makeVector, push_back, toArray", "src/stringBuilder.cpp: build", "src/hashing/messageDigest.cpp: toString", "src/version.cpp: toString", "src/uuid.cpp: toString", "src/path.cpp: parse, toString"]}
{"id": "C117", "title": "What needs no memory always works", "statement": "push_back, pop_back, append, build of a text of at most 65535 bytes, toArray, constructions by move, move assignment, swap, destruction, literals, versions and UUIDs never ask for memory and have their effect in every state, also when the manager is locked, full, or malloc fails.", "quantifier": "all reachable states of all programs", "why_tests_cant": "all states, including every exhausted one", "anchors": ["include/solace/vector.hpp: push_back, pop_back, toArray", "src/stringBuilder.cpp: append, build", "include/solace/memoryResource.hpp: swap, ~MemoryResource"]}
{"id": "C118", "title": "Equality of texts does not depend on their types", "statement": "Between String, StringView, StringLiteral and C strings, in every combination and order the library offers, == is true exactly when the two texts have the same characters, != is its negation, and swapping the operands or going through a third operand of another type never changes the answer.", "quantifier": "all texts, all buffers with unused bytes, all C strings including null and unterminated ones, all pairs of operand types", "why_tests_cant": "There are thirteen overloads of each operator over unbounded texts; tests compare a few literals and never a C string longer than the 16-bit size.", "anchors": ["include/solace/string.hpp: operator==, operator!=", "include/solace/stringView.hpp: operator==, operator!=", "src/stringView.cpp: StringView(char const*), equals"]}
{"id": "C119", "title": "The ordering operators form one strict total order", "statement": "<, <=, > and >= on StringViews and < on Strings agree with each other and with ==: exactly one of a < b, a == b, a > b holds, a <= b is a < b or a == b, >= is the negation of <, and < is irreflexive and transitive, so texts can be sorted and used as keys.", "quantifier": "all pairs and triples of texts", "why_tests_cant": "Transitivity and totality range over all triples of texts; the failures need characters above 127, NUL characters or empty operands.", "anchors": ["include/solace/stringView.hpp: operator<, operator<=, operator>, operator>=", "include/solace/string.hpp: operator<", "src/stringView.cpp: compareTo"]}
{"id": "C120", "title": "A buffer of the measured sizes takes all that was measured", "statement": "If a StringBuilder is given a buffer whose size is the sum of measure / measureFormatted over the things then appended to it, nothing is dropped: the view is the concatenation of all the pieces.", "quantifier": "all sequences of characters, texts, quoted strings and numbers", "why_tests_cant": "Whether the last byte is there depends on the order of the pieces over unbounded sequences; tests use buffers with bytes to spare.", "anchors": ["include/solace/stringBuilder.hpp: measure, measureFormatted", "src/stringBuilder.cpp: append, measureFormatted, maybeAdvance"]}
{"id": "C121", "title": "Views of elements never reach outside what they were given", "statement": "Whatever a program does with any number of ArrayViews, of any element types, over the same memory - wrapping, slicing, copying, moving, swapping, reading, setting, emplacing, filling - no element is read or written outside the memory or at an unaligned address, every operation answers or throws, and no view ever covers a byte outside the ranges the program wrapped.", "quantifier": "all memories, all element sizes and alignments, all programs that compile and wrap memory they own", "why_tests_cant": "Aliasing views of different element types combine into unboundedly many histories; a stray access need not be visible.", "anchors": ["include/solace/arrayView.hpp: operator[], slice, set, emplace, emplaceAll, fill, forEach, indexOf, equals", "include/solace/mutableMemoryView.hpp: slice, sliceFor, construct"]}
{"id": "C122", "title": "Each operation on a view of elements has exactly its effect", "statement": "In every state every ArrayView operation changes exactly the bytes of the elements it names and answers what they hold: size counts the complete elements, [i] is the i-th, indexOf gives the first equal element, == compares element by element, slice(from, to) shows the elements from..to-1, a thrown exception leaves all views as they were, and views that share no byte with the written one show the same elements as before.", "quantifier": "all reachable states of all programs over many aliasing views, all operations and arguments", "why_tests_cant": "It ranges over all element sizes, sizes of memory that are not a multiple of them, and all ways in which views overlap.", "anchors": ["include/solace/arrayView.hpp: size, operator[], slice, set, emplace, emplaceAll, fill, forEach, indexOf, contains, equals"]}
{"id": "C123", "title": "Constant elements stay constant", "statement": "A byte that a program never wrapped as elements that may be changed keeps its value, whatever is copied, converted to const, sliced, moved, assigned and swapped: no operation turns a view of constant elements into one of mutable elements.", "quantifier": "all programs, all memories, all bytes", "why_tests_cant": "The claim is about every sequence of conversions, a test follows one.", "anchors": ["include/solace/arrayView.hpp: asConst, operator ArrayView<T const>, slice, swap, operator="]}
{"id": "C124", "title": "Copying, moving, assigning and swapping views of elements", "statement": "A copied, converted or assigned view has the window of its source, which stays as it was; a moved-from view is empty; move assignment and swap exchange the two windows, also of a view with itself; a source converted on the way stays; the type of a variable never changes.", "quantifier": "all reachable states, all pairs of variables including a variable and itself", "why_tests_cant": "All states and pairs, including self assignment and converted sources.", "anchors": ["include/solace/arrayView.hpp: ArrayView(ArrayView&&), operator=, swap, asConst"]}
{"id": "C125", "title": "Exactly which texts are UUIDs", "statement": "Parsing gives a UUID that depends on nothing but the text if and only if the text has 36 characters, made of four dashes and sixteen pairs of hexadecimal digits that no dash divides; the bytes of the UUID are the values of the pairs in order. The other accepted texts (indeterminate bytes, or one character read behind the text), the refused ones and those with undefined behaviour are described exactly as well.", "quantifier": "all texts of all lengths, all memory behind them", "why_tests_cant": "256^36 texts: which of them are accepted is a claim about all of them.", "anchors": ["src/uuid.cpp: UUID::parse", "src/base16.cpp: charToBin"]}
{"id": "C126", "title": "Exactly which texts are versions", "statement": "A text (with a zero byte behind it) is parsed as a version if and only if it contains two dots and at most one plus sign follows the number read after the second dot. The numbers of the version are the C library's readings of the three parts modulo 2^32 (a part that does not begin with a numeral counts as 0), the tags are what follows the third number, cut at the plus sign, without the dashes around the first tag. All other texts are refused as invalid input.", "quantifier": "all texts, all memory behind the zero byte", "why_tests_cant": "The accepted language is infinite.", "anchors": ["src/version.cpp: Version::parse"]}
{"id": "C127", "title": "What normalisation does to every path", "statement": "Following a path goes up some number of levels above the start and then down some names. The normalised relative path has these names, after one '..' if the number of levels is odd; an absolute one keeps its root if it never climbs above the root. So normalisation keeps the location denoted, wherever one starts, if and only if a relative path climbs at most one level above the start, and an absolute one none above the root.", "quantifier": "all paths for the components; for the location all paths without empty components after the first, and all starting locations", "why_tests_cant": "Paths of any length, with any nesting of names and '..'.", "anchors": ["src/path.cpp: Path::normalize"]}
{"id": "C128", "title": "The operations on paths agree with each other", "statement": "Joining is associative; the two parts of a path cut anywhere give the path when joined, and cutting a joined path gives the operands; the parent of a path with its last name put back is the path, the parent of a child is the path; a joined path contains both operands, starts with the first and ends with the second; normalising an operand before joining does not change the normalised result.", "quantifier": "all paths, all cutting points", "why_tests_cant": "Laws over all pairs and triples of paths.", "anchors": ["src/path.cpp: normalize, getParent, getBasename, subpath, startsWith, endsWith, contains, equals", "include/solace/path.hpp: makePath"]}
{"id": "C129", "title": "What encoding and decoding leave behind when they fail", "statement": "Encoding writes the full text in pieces of two (Base16) or four (Base64) characters, decoding in pieces of one or three bytes; a piece that does not fit stops the work with an overflow error, and exactly the whole pieces before it have been written. An odd number of hexadecimal digits is refused before anything is written; a character that is no digit is refused after the bytes before it have been written. Whatever the outcome, bytes written earlier, the limit and the size of the destination stay, and what is added is an initial part of the full result.", "quantifier": "all byte strings, all destinations (position, limit, size)", "why_tests_cant": "All inputs of all lengths combined with all amounts of room.", "anchors": ["src/encoding/base16.cpp: Base16Encoder::encode, Base16Decoder::encode", "src/encoding/base64.cpp: Base64Encoder::encode, Base64Decoder::encode", "src/byteWriter.cpp: ByteWriter::write"]}
{"id": "C130", "title": "Comparing with none, with values and with each other", "statement": "== of two Optionals, Results or Result<void> is equality of what they hold; comparing with a plain value, an Ok or an Err is comparing with an object made of it, comparing with none is comparing with an empty one, != is the negation. If the equality of the payloads is an equivalence relation, so is that of Optionals, Results and Result<void>. An exception of the payload's operator ends the program in == of two objects and reaches the caller in != and in comparisons with values.", "quantifier": "all payload types and comparison operators, including ones that throw; all operands", "why_tests_cant": "Laws over all payload types, operators and triples of operands.", "anchors": ["include/solace/optional.hpp: operator==, operator!=, operator||", "include/solace/result.hpp: operator==, operator!="]}
{"id": "C131", "title": "Errors compare by domain and code", "statement": "Two Errors are equal exactly when their domains and codes are equal, whatever their tags; this is an equivalence relation. An Error is false exactly when its code is zero. Swapping exchanges everything they hold.", "quantifier": "all errors", "why_tests_cant": "All codes, domains and tags.", "anchors": ["include/solace/error.hpp: Error::operator==, operator bool, swap"]}
{"id": "C132", "title": "A destination of the predicted size is enough", "statement": "A destination with room for the number of bytes that the encoder or decoder predicts for its input is large enough, and this number is the number of bytes written. For the encoders a smaller destination is refused.", "quantifier": "all inputs whose predicted size is representable, all destinations", "why_tests_cant": "All inputs of all lengths, with any characters.", "anchors": ["src/base16.cpp: Base16Encoder::encodedSize, Base16Decoder::encodedSize", "src/base64.cpp: Base64Encoder::encodedSize, Base64Decoder::decodedSize"]}
{"id": "C133", "title": "Strings built from parts, whatever their total length", "statement": "Concatenation, joining and replacement allocate the total length modulo 65536 and pour the parts into it: concatenation silently stops at the first part that does not fit, joining fails (but leaves out a separator after a String), replacement leaves parts out and fails only if the last one does not fit. The string shows what was poured, followed by what the heap block held before; so it is the whole text if and only if this is shorter than 65536 characters.", "quantifier": "all argument lists, separators, patterns, replacements; all heaps", "why_tests_cant": "All numbers and lengths of parts, including totals beyond 65535, with any heap content.", "anchors": ["src/string.cpp: makeStringJoin, makeStringReplace", "include/solace/string.hpp: makeString, makeStringJoin"]}
{"id": "C134", "title": "What a Dictionary does whatever throws", "statement": "Under every history of put, find and contains, with constructors of keys and values throwing at any point, a Dictionary behaves as a column of keys and a column of values: a put is refused without effect when either column is full, a value whose key could not be made stays in the column of values, find(k) answers the value in the row of the first key equal to k, keys(), values(), size(), empty() and capacity() show the columns. Iteration yields the rows exactly when no key was lost.", "quantifier": "every pair of buffers, every history, every point at which a constructor throws", "why_tests_cant": "the outcome depends on the whole history of throwing constructors and full columns; unboundedly many interleavings", "anchors": ["include/solace/dictionary.hpp: Dictionary::put, find, contains, begin, end, keys, values, size, capacity"]}
{"id": "C135", "title": "What managers account for when they are swapped and moved", "statement": "For every history of allocations, releases, swaps and moves of MemoryManagers, size() of each manager is a balance cut to 64 bits: a block is charged to the manager that gave it out and credited to the manager its giver was constructed as (or moved from), a swap exchanges the balances only, a move copies the balance. With swaps only, the sizes of all managers together are the bytes outstanding. A request is granted exactly when it fits the 64-bit difference of capacity and balance, the manager is unlocked and the system has memory.", "quantifier": "every finite history over any number of managers and resources", "why_tests_cant": "the balance depends on the whole history of swaps, moves and releases", "anchors": ["src/memoryManager.cpp: swap, allocate, free, dispose", "include/solace/memoryManager.hpp: MemoryManager(MemoryManager&&)"]}
{"id": "C136", "title": "The value of an atom for every name, printable or not", "statement": "Parsing an atom from any text of at most 8 bytes gives the big-endian, zero-padded value of the text up to its first NUL in which every character before the last character of 128 or more is replaced by 255; longer texts are rejected. A literal of at most 7 characters is the same atom as the text parsed at run time, printing an atom gives the replaced text, and two texts are the same atom exactly when their replaced texts are equal.", "quantifier": "every byte string", "why_tests_cant": "there are 2^64 names, and collisions involve pairs of them", "anchors": ["include/solace/atom.hpp: atom, tryParseAtom, atomToString", "src/atom.cpp"]}
{"id": "C137", "title": "String builders whatever the length of the text", "statement": "After every history of appends to a StringBuilder, with t the text of the pieces that fitted: length() is the length of t cut to 16 bits, view() and the built String are that many first characters of t, substring(from, to) is the part of t between the (clamped) indices cut in the same way, remaining() is the room left cut to 16 bits, and all of it is right exactly when t has fewer than 65536 characters. indexOf finds the first occurrence at or after the given index, the very end excepted, as long as every index fits 16 bits; in a longer text the search wraps around modulo 65536, and does not return if none of the first 65536 positions matches.", "quantifier": "every buffer, every finite history of appends, every index and character", "why_tests_cant": "texts and histories are unbounded, and non-termination cannot be tested", "anchors": ["src/stringBuilder.cpp: view, length, substring, indexOf, build", "include/solace/stringBuilder.hpp: remaining"]}
{"id": "C138", "title": "The environment of any process, and calls with any arguments", "statement": "The environment is a list of strings of any form, length and number. With fewer than 65536 strings, size(), empty(), forEach and get() show each string as the characters before its first '=' and those up to the second, its length cut to 16 bits, and get finds the first with the name; with 65536 or more they never return. A call of set or unset reads the C string that starts at its argument, past the end of the view, and is undefined exactly when there is no NUL in that memory; set then replaces the first string of the variable, or keeps it, or appends a new one, and refuses null, empty and '=' names (EINVAL) and missing memory (ENOMEM) without any change; unset removes all strings of the variable; clear removes all and returns the current errno as an error.", "quantifier": "every list of environment strings, every finite history of calls with any arguments and any pattern of failing memory", "why_tests_cant": "histories, strings and what lies behind the arguments in memory are unbounded; non-termination and undefined behaviour cannot be tested", "anchors": ["src/env.cpp", "include/solace/env.hpp"]}
{"id": "C139", "title": "Exception messages whatever the length of the arguments, and without memory", "statement": "For every exception and all arguments of the declared types: if the memory it reserves (its text plus a NUL for each literal) is less than 65536 bytes, the message and what() are its full text. Otherwise a missing element or invalid state message is cut to its length modulo 65536, an illegal argument with a name of 65533 to 65535 characters gets a garbled short message, and every other one writes outside its memory. Without memory, the missing element and invalid state messages are empty with no C string, and any other non-empty message is undefined.", "quantifier": "every exception constructor with every argument, every error number and system message shorter than 32768 characters, memory found or not", "why_tests_cant": "the arguments are unbounded and undefined behaviour cannot be tested", "anchors": ["src/exception.cpp", "src/errorString.cpp", "include/solace/details/string_utils.hpp"]}
{"id": "C140", "title": "Comparison of any two texts and of any two paths", "statement": "compareTo of two texts of any bytes answers with the sign of one byte of the longer text when the lengths differ (the one at the last position of the right-hand text if that is shorter, the last one of the right-hand text, negated, if that is longer), ends the program when only the right-hand text is empty, and otherwise compares the parts before the first NUL lexicographically. compareTo of two paths is decided by the first two components that do not compare equal, then by the numbers of components. Everything is equal to itself; the pairs reported equal, and those compared consistently both ways round, are exactly characterised.", "quantifier": "all pairs of texts of any bytes, all pairs of paths", "why_tests_cant": "The answer depends on one byte at a position computed from both lengths; samples of ordinary names all look ordered.", "anchors": ["src/stringView.cpp: StringView::compareTo", "src/path.cpp: Path::compareTo", "include/solace/string.hpp: String::compareTo"]}
{"id": "C141", "title": "Text and length of any path", "statement": "length() of a path is the length of its text modulo 2^16. toString() gives the text when it has fewer than 2^16 bytes and memory is found, otherwise the empty text. A path without components shows the uninitialised bytes of a block whose size is minus that of the delimiter, or ends the program if it has lost its components. length() and toString() agree exactly when the text fits or its length is a multiple of 2^16.", "quantifier": "all paths, all delimiters, every behaviour of the allocator", "why_tests_cant": "The wrap of 16-bit lengths only shows for paths of more than 65535 characters, and the behaviour of the allocator is outside the tests' control.", "anchors": ["src/path.cpp: Path::length, Path::toString", "src/string.cpp: makeStringJoin"]}
{"id": "C142", "title": "Dial strings of any bytes: when printing and parsing are inverse", "statement": "Any dial string prints as the bytes of its protocol up to the first NUL, the address and, if not empty, the service, separated by ':'. Reading this back gives the same dial string if and only if the three parts are free of ':' and of white space at their ends and the printed protocol names the same atom. A text comes back unchanged from parsing and printing if and only if it consists of two or three such parts, the third not empty, with a protocol of at most eight non-NUL bytes that an atom keeps. For texts with ':' and without NUL, parsing, printing and parsing again is parsing once.", "quantifier": "all dial strings, all texts of any bytes shorter than 2^16", "why_tests_cant": "The round trip fails for combinations of white space, extra colons, NULs and bytes above 127 in particular positions.", "anchors": ["src/dialstring.cpp: tryParseDailString", "include/solace/output_utils.hpp: operator<<(ostream, DialString)", "include/solace/atom.hpp: wrap, unwrap"]}
{"id": "C143", "title": "Chars holding any bytes, on any host", "statement": "For every history of constructions (from views of any length, chars, bytes), assignments, moves and swaps over any number of Char variables: the behaviour is undefined exactly when a view of more than five bytes or an unknown variable is used; otherwise each variable holds exactly its four bytes and no fifth byte ever changes. A Char shows its bytes before the first zero, as a C string exactly if one of the four bytes or the fifth is a known zero. Equality is that of all four bytes, the order is lexicographic from the last byte (little-endian) or the first (big-endian). Every classification and case conversion is that of the single byte, false or nothing for Eof, and undefined for all other values; on a big-endian host the byte is the last one.", "quantifier": "all histories, all byte values, hosts of either byte order", "why_tests_cant": "Tests run on one host with small ASCII samples; the set of undefined cases and the indeterminate fifth byte cannot be observed by running.", "anchors": ["include/solace/char.hpp: Char", "src/char.cpp: Char::Char, swap, getBytesCount, c_str, isDigit .. toUpper"]}
{"id": "C144", "title": "Assertions of every kind, with tags of any length", "statement": "A call of assertTrue, assertErrno, assertNull, assertNotNull, assertValueInRange, assertIndexInRange, assertFail, assertFailErrno or raiseInvalidStateError returns exactly if its condition holds, and then gives back its pointer or value unchanged. Otherwise it raises an exception whose text is exactly that described by its tag (nothing for nullptr; a tag of n characters counts as its first n mod 2^16), the default text, errno and its description, or the value and its range. That text is shown whole if it fits 16-bit sizes with the reserve of its kind; otherwise it is cut (invalid state) or memory is overrun (errno, ranges). A sequence of assertions returns all the values, or stops at the first that fails with its complaint.", "quantifier": "all assertion functions, arguments, errno values, and tags of any length including nullptr; all sequences of calls", "why_tests_cant": "Tests use a few short tags; the lengths at which texts are cut or memory is overrun and all combinations of arguments cannot be enumerated.", "anchors": ["include/solace/assert.hpp: assertTrue, assertErrno, assertNull, assertNotNull", "src/assert.cpp: assertValueInRange, assertIndexInRange, raiseInvalidStateError, assertFail, assertFailErrno"]}
{"id": "C145", "title": "What an exception says at any point of any history of moves", "statement": "After any history of making, moving and destroying exceptions, asking any of them for its text gives: its text, if it has not been moved from; the empty text, if it was moved from (or made from a moved-from one) and its text was empty; and is undefined in every other case. The buffers not yet returned to the allocator are exactly as many as the exceptions still having a text, and none is returned twice.", "quantifier": "all histories over any number of exceptions with texts of any length, every exception of the history", "why_tests_cant": "A test sees one order of moves; use of the null buffer of a moved-from exception need not crash in a test.", "anchors": ["include/solace/details/string_utils.hpp: ErrorString move constructor, view", "include/solace/exception.hpp: Exception(Exception&&), toString", "src/errorString.cpp: ~ErrorString"]}
{"id": "C146", "title": "Order, text and re-reading of any versions", "statement": "For all versions: a < b holds exactly if the numbers of a come before those of b or are the same, so it is a total preorder whose strict part is >; a < b and b < a both hold exactly if the numbers agree, and == means that together with equal pre-release tags. The text of a version with tags of any length is MAJOR.MINOR.PATCH[-pre][+build], or its first (length mod 2^16) characters, and empty if there is no memory. A version whose text is shorter than 2^16 is read back with its numbers and the tags its tail is taken for, refused exactly if the tail has two plus signs, and read back unchanged exactly if no tag has a plus sign and the pre-release tag neither begins nor ends with a dash; what was read back has these properties.", "quantifier": "all versions, tags of any bytes and length, allocators that fail or not", "why_tests_cant": "Tests compare a few versions and print short ones; the exact condition for the round trip ranges over all tags.", "anchors": ["include/solace/version.hpp: operator<, equals", "src/version.cpp: operator >, toString, parse"]}
{"id": "C147", "title": "Which pages are locked after any history of locks, shared pages included", "statement": "For every history of lock(), constructed Locks, moves, assignments and destructions over any number of Lock variables: it is undefined exactly if a statement uses a variable it may not; otherwise every variable holds the range the moves and assignments say, lock() reports failure exactly when the system refused, and a page is locked exactly if some successful lock() touched it and no Lock whose range touches it was destroyed since. Hence a locked page is always touched by a living Lock, and nothing stays locked once all Locks are gone, even when ranges share pages.", "quantifier": "all histories over any number of variables, ranges and page sizes, overlapping or not", "why_tests_cant": "Tests cannot observe which pages are locked, and the interplay of ranges that share pages depends on the whole history.", "anchors": ["include/solace/memoryView.hpp: MemoryView::Lock", "src/memoryView.cpp: lock, Lock::~Lock"]}
{"id": "C148", "title": "Walking over an environment that the callback changes", "statement": "For every environment and every callback, whatever it does to the environment: forEach calls it once per string there was at the start, for the places 0, 1, 2, ... in turn, each shown as the string that is in that place by then; the place just after the last string is shown as an empty name and value, and a place beyond that is undefined behaviour. Hence a callback that only sets variables sees each original variable exactly once, in order, with its current value, and none it adds; unsetting each visited variable removes the only one of one, leaves the second of two, and is undefined behaviour for three or more; and the view of a name handed to the callback, given back to set or unset, is always refused and changes nothing.", "quantifier": "all environments, all callbacks and callback states, all names, values and memory after them", "why_tests_cant": "The outcome depends on how the callback changes the list at each step; a test shows one program, and the undefined reads usually happen to work.", "anchors": ["include/solace/env.hpp: Env::forEach, Env::begin, Env::end, Env::Iterator", "src/env.cpp: Env::Iterator::operator++, Env::Iterator::operator->, Env::set, Env::unset"]}
{"id": "C149", "title": "The errors the library makes, and how any error reads", "statement": "After any registrations, toString() and printing of any Error use its domain if that is among the first 128 registered, and otherwise the bytes of its identifier up to a NUL, with the tag; a text too long for a String comes out with its length modulo 65536, showing at most the identifier and old memory. An error made by makeError, makeSystemError or makeErrno reads as the C library's text for its code, whatever is registered later and whatever its tag, or as a fixed text without memory. Printing it shows the name, code and message of that domain and then the tag given, if any. Errors made of two names of the three enumerations are equal only if it is one name or InvalidInput and PERM, or AGAIN and WOULDBLOCK; BasicError::Overflow alone counts as no error.", "quantifier": "all registration histories, domains, codes, tags, heaps and texts of the C library", "why_tests_cant": "The text depends on the whole registration history, on lengths beyond 16 bits and on what the heap held before.", "anchors": ["src/error.cpp: Error::toString", "src/systemErrorDomain.cpp: SystemErrorDomain::message, makeErrno", "include/solace/posixErrorDomain.hpp: BasicError, GenericError, SystemErrors, makeError, makeSystemError", "include/solace/output_utils.hpp: operator<< (Error)"]}
{"id": "C150", "title": "All comparison operators on all texts, and which texts can be sorted", "statement": "== and != between operands of any comparable types tell whether what is seen is the same, in both orders: a C string is seen up to its length modulo 65536, null as empty, and memory without a zero byte is undefined. <, <=, > and >= on any two texts answer by the lengths, the texts up to a NUL, and the sign of one byte of the longer text, and end the program exactly if a text is compared with the empty one. A collection of texts can be sorted by < exactly if different texts of the same length differ before a NUL, the empty text is not with longer ones, a text has a byte from 128 on at the last position of a shorter one exactly if it does not itself end with a byte from 1 to 127, and of two texts of the same length with a shorter one around, one that ends with such a byte is after one that does not.", "quantifier": "all operands of all types, all pairs of texts, all (also infinite) collections of texts", "why_tests_cant": "Sortability is a statement on all triples of an arbitrary collection; the failures need lengths, NULs and signs of bytes to meet.", "anchors": ["include/solace/stringView.hpp: operator==, operator!=, operator<, operator<=, operator>, operator>=", "include/solace/string.hpp: operator==, operator!=, operator<", "src/stringView.cpp: compareTo, StringView(char const*)"]}
{"id": "C151", "title": "Paths made of paths when any request for memory is refused", "statement": "Whatever requests are refused: subpath ends the program if its vector is refused, and otherwise gives the components of the range whose copies were granted; getParent gives the empty path if its array is refused, raises if the only component of a path is refused, and otherwise gives all but the last component whose copies were granted; every choice of components is possible. normalize gives the empty path if its vector is refused, and otherwise the normal form of the path after losing names and \"..\" that have nothing to climb out of; every such loss is possible.", "quantifier": "all paths, ranges and sequences of granted and refused requests", "why_tests_cant": "There are as many failure schedules as subsets of the components.", "anchors": ["src/path.cpp: Path::normalize, Path::getParent, Path::subpath"]}
{"id": "C152", "title": "What every program with Optionals and Results does", "statement": "The first operation that breaks or ends a program with any number of Optionals and Results is told by the values alone: it is undefined exactly when a Result is swapped with or moved to itself, or a non-empty Optional is assigned from its own value; it ends exactly when a constructor throws inside a noexcept constructor, or a move throws inside a swap that has something to move. All other programs run with the values one expects, and every payload is used and destroyed only while alive, at most once, those alive at the end being the ones held by the living objects.", "quantifier": "all sequences of operations, payload types, moved-from states, throwing constructors at any place", "why_tests_cant": "The statement is about every program and every place where a constructor throws.", "anchors": ["include/solace/optional.hpp: Optional constructors, swap, operator=, move", "include/solace/result.hpp: Result constructors, swap, operator="]}
{"id": "C153", "title": "What every program with Vectors and Arrays does", "statement": "A program with any number of Vectors and Arrays is undefined exactly when an operation touches an element that is still counted but was destroyed, and this is told by the values alone: such elements come only from assigning nullptr to an Array with elements and from a constructor that throws inside ArrayView::emplace. Popping, clearing, setting, emplacing over, disposing of or destroying a container that way is undefined; moving, swapping, converting and appending are not. All other programs run, each call answers as told, each container has the class, capacity, size and elements told, and every element is destroyed at most once, after its construction, those alive being exactly the ones not destroyed.", "quantifier": "all sequences of operations, element sizes, counts (also those whose byte size wraps in makeArray and makeVector(n)), throwing constructors at any place", "why_tests_cant": "The statement is about every program and every place where a constructor throws, and undefined behaviour does not show reliably when run.", "anchors": ["include/solace/vector.hpp: Vector, makeVector, makeVectorOf", "include/solace/array.hpp: Array, makeArray, makeArrayOf", "include/solace/arrayView.hpp: operator[], set, emplace"]}
{"id": "C154", "title": "What every program that copies, compares and changes vectors and arrays does, exactly", "statement": "For every sequence of operations on Vectors and Arrays that includes makeVector/makeArray from existing containers, ==, !=, comparison of an Array with an initializer list, the null test, and reading all elements: the program is undefined exactly when an operation touches a position whose element is gone (its construction threw after the old element was destroyed) or memory behind the elements (copying an Array whose byte count wrapped). Otherwise every answer and every container is determined: a copy holds the same elements in new memory of exactly their size, an allocation failure answers NOMEM and a throwing copy propagates the exception, both leaving the containers unchanged; a container equals itself, containers of different lengths differ, and otherwise == is decided by the first pair that differs; elements are destroyed at most once and only after construction.", "quantifier": "every element type, equality, element size, sequence of operations, allocation failure and throwing constructor", "why_tests_cant": "Needs every interleaving of copies, comparisons and failed element constructions, including counts whose byte size wraps.", "anchors": ["include/solace/vector.hpp: makeVector, operator==, operator!=", "include/solace/array.hpp: makeArray, equals, operator==, operator!=, empty", "include/solace/arrayView.hpp: ArrayView::operator=="]}
{"id": "C155", "title": "Message digests are values", "statement": "For every sequence of constructions from bytes (which may fail for lack of memory and then throw), moves, swaps, assignments of expiring digests, destructions, indexing, comparisons and conversions of MessageDigest objects, every answer is the one the same operations on plain byte strings give, nothing is undefined, and the digests read as those byte strings at the end: a moved-from digest is empty, assignment exchanges the two digests, an index beyond the size throws, == holds exactly for the same bytes, the length in bits is eight times the size, and toString() is the empty string for every digest.", "quantifier": "every number of digests, every content up to 2^61 bytes, every sequence of operations, allocation failures", "why_tests_cant": "Needs every interleaving of moves, swaps and comparisons over digests of every length.", "anchors": ["include/solace/hashing/messageDigest.hpp: MessageDigest", "src/hashing/messageDigest.cpp: MessageDigest::MessageDigest, MessageDigest::toString"]}
{"id": "C156", "title": "What a slice of a view of elements shows, for all bounds", "statement": "In every reachable state, slice(from, to) of an ArrayView of elements of any size succeeds, changes no memory and no other view, and shows exactly the bytes of the view between (from * sizeof(T)) mod 2^64 and (to * sizeof(T)) mod 2^64, clamped to the view. So for elements whose size is a power of two, positions count modulo 2^64 / sizeof(T); for other sizes a slice can show elements made of bytes of two; slice(from, 2^64 - 1) is the rest of the elements for every size.", "quantifier": "every reachable state, view, element size and alignment, and every 64-bit (or larger) from and to", "why_tests_cant": "Ranges over all bounds, including those whose byte offsets wrap, and over all element sizes.", "anchors": ["include/solace/arrayView.hpp: ArrayView::slice", "src/memoryView.cpp: MemoryView::slice", "src/mutableMemoryView.cpp: MutableMemoryView::slice"]}
{"id": "C157", "title": "Which UUIDs makeRandomUUID makes", "statement": "For every seed of the random device the UUID is determined: on 64-bit hosts it is two numbers of eight bytes, on 32-bit hosts four numbers of four bytes, each 16807 times the one before modulo 2^31 - 1, beginning with 16807 times the seed (reduced modulo 2^31 - 1, with 0 counted as 1). Two seeds give the same UUID exactly when they are the same after that reduction, and the UUIDs made are exactly those that begin with one of the numbers 1 .. 2^31 - 2, one for each.", "quantifier": "every seed, host byte order and word size", "why_tests_cant": "Ranges over all 2^32 seeds and all UUIDs; the exact image needs the engine's step to be invertible.", "anchors": ["src/uuid.cpp: makeRandomUUID"]}
{"id": "C158", "title": "Searching for the empty text", "statement": "indexOf, lastIndexOf and contains with an empty text look for the byte that happens to lie at the empty text's address: they give the first (last) place, from the one asked for on, where the text or the single byte behind it has that byte. They find nothing when the start lies behind the text or the text has the greatest size 65535. If no byte can be read at the empty text every other search is undefined; if none can be read behind the text, indexOf is defined exactly when it ends inside the text and lastIndexOf never. Path::contains with an empty text answers in the same way about the printed path.", "quantifier": "all texts, memory behind the text and at the empty text, start indexes and paths", "why_tests_cant": "Ranges over all texts and all memory around them; a test sees one accidental layout.", "anchors": ["src/stringView.cpp: StringView::indexOf, StringView::lastIndexOf", "include/solace/stringView.hpp: StringView::contains", "src/path.cpp: Path::contains"]}
{"id": "C159", "title": "Iterators kept while the environment changes", "statement": "In every program that makes, copies, assigns, exchanges, advances, compares and dereferences iterators over the environment, with set, unset and clear between, an iterator is a position and the number of variables there were when it was made. Advancing it succeeds exactly until that number is reached and raises from then on, whatever became of the environment. Looking shows the variable that is at the position now; right behind the last variable an empty name and value; further behind, or after clear(), it is undefined; at the end it raises. Iterators are equal exactly when their positions are. Assignment from a temporary exchanges the two. begin() and end() do not return when there are 65536 variables or more.", "quantifier": "all programs over any number of iterators, all environments, all arguments of set and unset", "why_tests_cant": "Ranges over all interleavings of iterator operations with changes of the environment.", "anchors": ["include/solace/env.hpp: Env::Iterator, Env::begin, Env::end", "src/env.cpp: Env::Iterator::operator++, Env::Iterator::operator->"]}
{"id": "C160", "title": "Encoding and decoding within one buffer", "statement": "The source given to a Base16 or Base64 encoder or decoder may lie in the same block of memory as the storage its ByteWriter writes to, and overlap it. Let p be the offset in the block at which the writer writes next and let the source be n bytes at offset s of the block. Hexadecimal text is decoded exactly as a separate copy of it would be (same answer, same bytes written, same writer) if p <= s + 1 or s + n <= p, and bytes are encoded to hexadecimal text exactly as a copy would be if p + n <= s + 1 or s + n <= p. Base64 text of l characters of the alphabet is decoded exactly as a copy would be if p <= s or s + l <= p, so text decoded over itself is replaced by its bytes; moreover if l <= 2, l = 5, p = s + 1 with l >= 5, or p is at the last character and l mod 4 = 1. Bytes are encoded to Base64 as a copy would be if 3p + n <= 3s + 3, s + n <= p or n <= 3. All four conditions are exact: at every other position for which there is room some buffer content gives another outcome.", "quantifier": "all blocks of memory, storages within them, writer positions and limits, source offsets and lengths, both Base64 alphabets", "why_tests_cant": "Whether a byte is read after it was overwritten depends on position, distance and length together; a test tries a few overlaps.", "anchors": ["src/base16.cpp: Base16Encoder::encode, Base16Decoder::encode", "src/base64.cpp: base64encode, base64decode", "src/byteWriter.cpp: ByteWriter::write"]}
{"id": "C161", "title": "The requests for memory that a new path needs", "statement": "makePath of one text succeeds if and only if its first two requests for memory are granted. makePath of several parts succeeds if and only if its first 1 + k requests are granted, where k counts the texts and the components of the paths given by reference; a path handed over needs no request for its components. Path parsing succeeds if and only if its first 1 + k requests are granted, where k is the number of components of the result, or 0 for the empty text. On success the result is the path made without refusals, otherwise it is an error for lack of memory, and refusals that come later change nothing.", "quantifier": "all texts, delimiters that are not empty, parts, and sequences of granted and refused requests; parsing of fewer than 2^16 pieces", "why_tests_cant": "A test refuses one chosen request; whether every other refusal matters, and no later one, depends on the text, the parts and the schedule together.", "anchors": ["src/path.cpp: makePath, Path::parse", "include/solace/path.hpp: makePath, joinComponents"]}
{"id": "C162", "title": "A UUID is a 128-bit number, whatever a program does with UUIDs", "statement": "Any sequence of operations on any number of UUID objects - construction from bytes, from a view or from text, copy, move, assignment, move assignment, swap, writing a byte, filling or overwriting the bytes through the mutable view, comparisons, reading bytes and printing - runs to its end without undefined behaviour. Every answer is the one given by treating each object as a number below 2^128, first byte most significant: comparisons compare the numbers, text is 32 hexadecimal digits with four dashes, a byte is a section of the number, move assignment and swap exchange the two numbers. This holds also when both operands are the same object or when bytes of an object are written over itself.", "quantifier": "all finite sequences of operations, all objects as operands including the same one twice, all byte values and indices; text whose dashes are well placed", "why_tests_cant": "A test runs a few operations on two distinct objects; aliased operands, overlapping writes and the state left by every earlier operation cannot all be tried.", "anchors": ["src/uuid.cpp: UUID::UUID, swap, operator==, operator<, parse, toString", "include/solace/uuid.hpp: class UUID, operator[], view, begin, end"]}
{"id": "C163", "title": "Iterators of paths keep their place while the paths are moved, swapped and assigned", "statement": "An iterator of a Path stands for a position in the sequence of components it was made from, not for the Path object. Whatever a program does with its paths and iterators - moving, swapping, move-assigning and destroying paths, taking the components out, copying, assigning and advancing iterators - every answer is the one given by sequences and positions, as long as no iterator is used to look at a component of a sequence whose owner was destroyed, and wherever the allocator puts new components. In particular a program that destroys no path can use all its iterators, and looking at components through paths is always right. Comparing iterators compares positions only, even of different paths. Looking past the end throws, also after the path is gone; looking at a component after the path is gone is undefined or shows another path.", "quantifier": "all finite programs with any number of paths and iterators, all components, all allocators that give out no place that is in use", "why_tests_cant": "Tests walk over one path that stays where it is; which object owns the components after a history of moves and swaps, and what memory was used again, cannot be enumerated.", "anchors": ["include/solace/path.hpp: Path::Iterator, Path(Path&&), swap, operator=, begin, end, forEach", "src/path.cpp: Path::Iterator::operator++, operator->, getComponent", "include/solace/array.hpp: Array(Array&&), swap, dispose"]}
{"id": "C164", "title": "Own elements of a vector as arguments of its operations", "statement": "A vector's own elements can be passed as arguments to its operations as if they were values from elsewhere: push_back(v[j]), view().set(i, ... v[j]), view().fill(v[j]), indexOf(v[j]) and view().emplace(i, v[j]) have the effect and the answer they have for a copy of the element made before the call; v[j] for a place that does not exist throws an index-out-of-range exception and changes nothing. The one exception is view().emplace(i, v[i]) of an element that exists: the element is destroyed before it is copied, which is undefined. No other program of these operations is undefined.", "quantifier": "every element type, size of element and buffer size, every sequence of these operations with any arguments", "why_tests_cant": "whether a reference is still good when it is read depends on the order of checks, destruction and copies inside each operation, for every pair of places and every content; reading a destroyed element often yields the old value, so tests pass", "anchors": ["include/solace/vector.hpp: Vector::push_back, emplace_back, pop_back, operator[], indexOf", "include/solace/arrayView.hpp: ArrayView::emplace, set, fill, indexOf"]}
{"id": "C165", "title": "References to elements stay good while vectors change", "statement": "A reference to an element of a vector or array (taken with view()[k]) goes on showing that element, with whatever was last stored in it through the reference or the container, while elements are pushed, and while the vector is moved, swapped, move-assigned or turned into an array: the content keeps its place in memory and the reference follows it to the new owner, which alone decides how long it is good. It stops being good when the element is popped, when the vector is assigned nullptr, and at the end of the object that holds the content then (not of the one it was taken from). If a new element is pushed to the place of a popped one, the reference shows the new one. Taking a reference past the end throws and a program of these operations is undefined exactly when it uses a reference that is not good.", "quantifier": "every element type, size of element and buffer sizes, every sequence of making, pushing, popping, clearing by nullptr, moving, swapping, toArray, destroying, reading, taking references and reading and writing through any of them", "why_tests_cant": "references, objects and contents can be combined in unboundedly many ways, and a stale reference often still shows the old value, so a test does not notice", "anchors": ["include/solace/vector.hpp: Vector(Vector&&), operator=, swap, emplace_back, pop_back, toArray, view, dispose", "include/solace/array.hpp: Array(Array&&), swap, view, dispose", "include/solace/memoryResource.hpp: MemoryResource(MemoryResource&&), swap, ~MemoryResource"]}
{"id": "C166", "title": "Results that refer to elements are names of them", "statement": "A Result<T&, E>, as Vector::emplace_back returns it, is a name of an element or an error. Reading and writing through it reads and writes that element and no other. Nothing else changes an element: moving, assigning and swapping results, converting to a Result<T, E> (which copies the element, also from an rvalue), mapError and orElse do not touch it, and then hands it to the function and nothing more. A result that was moved from still names the same element; assigning exchanges what the two results name; mapError and orElse of an Ok result give another name of the same element. Errors move: the source keeps what moving leaves. Such a program is undefined exactly when it uses a result or element that is not there or assigns a result to itself.", "quantifier": "every element and error type, what moving leaves of an error, every list of elements and every sequence of binding, failing, moving, assigning or swapping, reading, writing, getError, converting to values, then, mapError and orElse with any functions", "why_tests_cant": "aliases accumulate through any sequence of moves and assignments, and which element a write reaches depends on all of it", "anchors": ["include/solace/result.hpp: StoredValue_type, Result(Result&&), Result(Result<DV, E>&&), operator=, swap, unwrap, then, orElse, mapError", "include/solace/vector.hpp: emplace_back"]}
