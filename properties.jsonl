{"id": "C01", "title": "Pattern matching terminates and never reads outside its two strings", "statement": "osc_match called with any two NUL-terminated strings returns after finitely many steps, and every character it inspects lies at or before the terminating NUL of the string it belongs to; its result is always one of 0,1,2,3 or a documented error code.", "quantifier": "all patterns and all addresses of any length, well-formed or not", "why_tests_cant": "backtracking and bracket scanning depend on the whole text of both strings; tests sample finitely many, and an out-of-bounds read usually goes unnoticed", "anchors": ["osc_match.c: osc_match, osc_match_range"]}
{"id": "C02", "title": "Pattern matching decides the OSC pattern language", "statement": "For every well-formed pattern without empty alternatives and every address, unless the backtrack limit is reported: osc_match returns 3 exactly when both have the same number of components and each address component is in the language of the corresponding pattern component; returns 1 (address complete) exactly when the address is matched by a proper prefix of the pattern's components; returns 2 (pattern complete) exactly when the pattern matches a proper prefix of the address's components; returns 0 otherwise.", "quantifier": "all well-formed patterns and all addresses", "why_tests_cant": "an infinite language of patterns times an infinite set of addresses, with backtracking order deciding the result", "anchors": ["osc_match.c: osc_match", "osc_match.h: return codes"]}
{"id": "C03", "title": "Match offsets delimit the matched prefixes", "statement": "When osc_match reports 3 both offsets are the string lengths; for 1 the address offset is the address length and the pattern offset is the position of the '/' that starts the unmatched rest of the pattern; for 2 symmetrically; for 0 both are 0.", "quantifier": "all well-formed patterns and all addresses", "why_tests_cant": "offset correctness must hold whichever backtracking path succeeded", "anchors": ["osc_match.c: osc_match", "osc_match.h: pattern_offset, address_offset"]}
{"id": "C04", "title": "Literal addresses match exactly themselves", "statement": "If neither string contains pattern metacharacters (and the address has no component consisting of a single star), osc_match returns the full-match code if and only if the two strings are equal.", "quantifier": "all metacharacter-free pairs of strings", "why_tests_cant": "equality over unbounded strings", "anchors": ["osc_match.c: osc_match"]}
{"id": "C05", "title": "String and blob padding", "statement": "The padded length of a string of n bytes is the least multiple of four that is at least n+1; the padded blob length is the least multiple of four that is at least n+4; both hold for every n up to the 32-bit limit of the wire format.", "quantifier": "all lengths below 2^32-8", "why_tests_cant": "arithmetic over all lengths including the wrap-around region", "anchors": ["osc_util.c: osc_util_getPaddedStringLen, osc_util_getPaddingForNBytes, osc_util_getBlobLength"]}
{"id": "C06", "title": "Byte order conversion is a lossless involution", "statement": "hton/ntoh for 16, 32, 64 and 128 bit values are mutually inverse on every value and place the most significant byte first in memory on a little-endian host; encode followed by decode of an argument of every fixed-size numeric type restores the bytes.", "quantifier": "all values of each width", "why_tests_cant": "2^64 and 2^128 values", "anchors": ["osc_byteorder.h: hton16, hton32, hton64, hton128", "osc_mem.c: osc_mem_encodeByteorder, osc_mem_decodeByteorder"]}
{"id": "C07", "title": "Time tag arithmetic", "statement": "osc_timetag_add is addition of 64-bit fixed-point times modulo 2^64; osc_timetag_subtract(a,b) returns a-b whenever a is not earlier than b; for a earlier than b it returns the absolute difference exactly when the fraction of a does not exceed the fraction of b.", "quantifier": "all pairs of time tags", "why_tests_cant": "2^128 pairs, carry and borrow corner cases", "anchors": ["osc_timetag.c: osc_timetag_add, osc_timetag_subtract"]}
{"id": "C08", "title": "Time tag comparison is a total order consistent with time", "statement": "osc_timetag_compare returns -1, 0 or 1 according to the order of the 64-bit fixed-point values; it is antisymmetric and transitive and 0 only for identical tags.", "quantifier": "all pairs and triples of time tags", "why_tests_cant": "2^128 pairs", "anchors": ["osc_timetag.c: osc_timetag_compare"]}
{"id": "C09", "title": "Time tag header codec", "statement": "Writing a time tag into a bundle header and reading it back yields the same time tag, touches only the eight header bytes reserved for it and stores it big-endian.", "quantifier": "all time tags and all header contents", "why_tests_cant": "2^64 time tags times all buffers", "anchors": ["osc_timetag.c: osc_timetag_encodeForHeader, osc_timetag_decodeFromHeader", "osc_bundle_s.c: osc_bundle_s_setTimetag, osc_bundle_s_getTimetag"]}
{"id": "C10", "title": "ISO 8601 rendering of time tags", "statement": "For every time tag whose instant lies on or after 2001-01-01 and not on the last day of a leap year, the year, month, day, hour, minute and second printed by osc_timetag_toISO8601 are those of the proleptic Gregorian calendar; reading the text back with osc_timetag_fromISO8601 yields the same seconds. For instants in 1901-2000 and on 31 December of leap years the printed date is wrong.", "quantifier": "all 2^32 seconds values", "why_tests_cant": "calendar code has rare corner days; tests use a few dates", "anchors": ["osc_timetag.c: osc_timetag_toISO8601, osc_timetag_fromISO8601, osc_timetag_isleap, osc_timetag_getmonth"]}
{"id": "C11", "title": "Serialized size is what is written", "statement": "The length reported by the size-only serialization pass of an atom, message or bundle equals the number of bytes the writing pass produces into a sufficiently large buffer, and is a multiple of four.", "quantifier": "all atoms, messages and (arbitrarily nested) bundles", "why_tests_cant": "nesting depth and lengths are unbounded", "anchors": ["osc_atom_u.c: osc_atom_u_nserialize", "osc_message_u.c: osc_message_u_nserialize", "osc_bundle_u.c: osc_bundle_u_nserialize"]}
{"id": "C12", "title": "Serialization produces OSC 1.0 encoding", "statement": "Serializing a message or bundle into a sufficiently large buffer produces exactly the OSC encoding: big-endian numbers, NUL-terminated strings padded to four bytes, size-prefixed blobs and messages, and nested bundles as size-prefixed blobs of the same encoding.", "quantifier": "all messages and arbitrarily nested bundles", "why_tests_cant": "unbounded inputs; byte-exact layout", "anchors": ["osc_atom_u.c: osc_atom_u_nserialize", "osc_message_u.c: osc_message_u_nserialize", "osc_bundle_u.c: osc_bundle_u_nserialize"]}
{"id": "C13", "title": "Serialize then deserialize is the identity", "statement": "Deserializing the serialized form of any bundle reconstructs the same messages in the same order, with the same addresses, type tags and argument values, at every nesting depth.", "quantifier": "all arbitrarily nested bundles over the supported types", "why_tests_cant": "recursive structure of unbounded depth and width", "anchors": ["osc_bundle_u.c: osc_bundle_u_serialize", "osc_bundle_s.c: osc_bundle_s_deserialize", "osc_message_s.c: osc_message_s_deserialize", "osc_atom_s.c: osc_atom_s_deserializeInto"]}
{"id": "C14", "title": "Serialization never writes past the given buffer size", "statement": "osc_atom_u_nserialize, osc_message_u_nserialize and osc_bundle_u_nserialize given a buffer of n bytes never write at an index of n or more, whatever the object; what they report is at most n.", "quantifier": "all objects and all buffer sizes, including too small ones", "why_tests_cant": "truncation behaviour depends on every combination of sizes", "anchors": ["osc_atom_u.c: osc_atom_u_nserialize", "osc_message_u.c: osc_message_u_nserialize", "osc_bundle_u.c: osc_bundle_u_nserialize"]}
{"id": "C15", "title": "Serialized bundles pass the library's own validation", "statement": "osc_error_bundleSanityCheck accepts the serialized form of every bundle whose addresses begin with a slash, and osc_bundle_s_getMsgCount of it is the number of messages.", "quantifier": "all bundles", "why_tests_cant": "unbounded bundles", "anchors": ["osc_error.c: osc_error_bundleSanityCheck, osc_error_msgSanityCheck", "osc_bundle_s.c: osc_bundle_s_getMsgCount"]}
{"id": "C16", "title": "Validation accepts only bundles that can be walked safely", "statement": "osc_error_bundleSanityCheck accepts a buffer exactly when it is a bundle header followed by messages of at least four bytes that begin with a slash and cover the buffer exactly; whenever it accepts and the strings inside each message are terminated inside that message, iterating over its messages with the bundle iterator visits exactly those consecutive, non-overlapping messages. One to three trailing bytes make the check itself read out of bounds, sizes near 2^31 make it overflow, and it does not look at string terminators.", "quantifier": "all byte buffers", "why_tests_cant": "all byte strings of every length", "anchors": ["osc_error.c: osc_error_bundleSanityCheck", "osc_bundle_iterator_s.c: osc_bundle_iterator_s_next, osc_bundle_iterator_s_hasNext"]}
{"id": "C17", "title": "Bundle iteration enumerates exactly the messages", "statement": "Iterating a well-formed serialized bundle with hasNext/next yields each message once, in order, and then reports the end; the number of steps equals osc_bundle_s_getMsgCount.", "quantifier": "all well-formed bundles", "why_tests_cant": "unbounded number of messages", "anchors": ["osc_bundle_iterator_s.c", "osc_bundle_s.c: osc_bundle_s_getMsgCount, osc_bundle_s_getFirstMsg"]}
{"id": "C18", "title": "Argument access in serialized messages", "statement": "For a well-formed serialized message osc_message_s_getArgCount is the number of arguments, getTypetag(n) and getArg(n) give the type and data of the n-th argument for every n, the cached and uncached lookups agree, and the message iterator yields the same sequence.", "quantifier": "all well-formed messages and all indexes", "why_tests_cant": "offsets depend on the sizes of all previous arguments", "anchors": ["osc_message_s.c: osc_message_s_getArg, osc_message_s_getArgCount, osc_message_s_getTypetag, osc_message_s_cacheDataOffsets", "osc_message_iterator_s.c"]}
{"id": "C19", "title": "Renaming a serialized message changes only its address", "statement": "osc_message_s_renameCopy of a well-formed message with type tags yields a well-formed message with the new address and unchanged type tags and data; an invalid new address is refused.", "quantifier": "all well-formed messages and all new addresses", "why_tests_cant": "re-padding shifts all following bytes for every combination of lengths", "anchors": ["osc_message_s.c: osc_message_s_renameCopy", "osc_error.c: osc_error_validateAddress"]}
{"id": "C20", "title": "Address lookup returns exactly the matching messages", "statement": "osc_bundle_s_lookupAddress returns, in order, exactly the messages whose address matches the pattern (full matches only when requested); osc_bundle_s_addressExists is true exactly when that result is non-empty; getFirstFullMatch returns the first of them.", "quantifier": "all well-formed bundles and all patterns", "why_tests_cant": "filter over unbounded message sequences", "anchors": ["osc_bundle_s.c: osc_bundle_s_lookupAddress, osc_bundle_s_addressExists, osc_bundle_s_getFirstFullMatch"]}
{"id": "C21", "title": "Removing messages from a serialized bundle", "statement": "osc_bundle_s_removeMessage deletes exactly the messages whose address equals the given one, keeps the others byte for byte in order, and keeps the header.", "quantifier": "all well-formed bundles and addresses", "why_tests_cant": "in-place compaction over arbitrary sequences", "anchors": ["osc_bundle_s.c: osc_bundle_s_removeMessage"]}
{"id": "C22", "title": "Appending and replacing messages in a serialized bundle", "statement": "osc_bundle_s_appendMessage adds the message at the end leaving all else unchanged; osc_bundle_s_replaceMessage substitutes exactly the given message for a message of any other size, leaving all other messages unchanged and in order.", "quantifier": "all well-formed bundles, positions and messages", "why_tests_cant": "splicing with different sizes at every position", "anchors": ["osc_bundle_s.c: osc_bundle_s_appendMessage, osc_bundle_s_replaceMessage"]}
{"id": "C23", "title": "Set operations on serialized bundles", "statement": "For bundles with literal, pairwise distinct addresses: union contains all messages of the first followed by those of the second whose address is not in the first; intersection contains the messages of the first whose address occurs in the second; difference contains those messages whose address occurs in only one of the two. Results are well-formed bundles.", "quantifier": "all pairs of well-formed bundles with literal addresses", "why_tests_cant": "unbounded pairs of bundles", "anchors": ["osc_bundle_s.c: osc_bundle_s_union, osc_bundle_s_intersection, osc_bundle_s_difference"]}
{"id": "C24", "title": "Concatenation of serialized bundles", "statement": "osc_bundle_s_concat yields a well-formed bundle with the first bundle's header and the messages of the first followed by those of the second.", "quantifier": "all pairs of well-formed bundles", "why_tests_cant": "unbounded bundles", "anchors": ["osc_bundle_s.c: osc_bundle_s_concat"]}
{"id": "C25", "title": "Message argument list operations keep a consistent list", "statement": "After any sequence of append, prepend, insert (non-negative position) and remove on an unserialized message, the argument count equals the number of linked arguments, forward and backward traversal agree, no freed argument is reachable, and the order is that of the corresponding list operations.", "quantifier": "all finite histories of operations", "why_tests_cant": "pointer invariants over arbitrary histories", "anchors": ["osc_message_u.c: osc_message_u_appendAtom, osc_message_u_prependAtom, osc_message_u_insertAtom, osc_message_u_removeAtom, osc_message_u_getArg"]}
{"id": "C26", "title": "Bundle message list operations", "statement": "After any sequence of add, add-without-duplicates and replace on an unserialized bundle, message count and order are those of the corresponding list operations; after add-without-duplicates no two messages share the added address.", "quantifier": "all finite histories of operations", "why_tests_cant": "pointer invariants over arbitrary histories", "anchors": ["osc_bundle_u.c: osc_bundle_u_addMsg, osc_bundle_u_addMsgWithoutDups, osc_bundle_u_replaceMessage, osc_bundle_u_removeMsg"]}
{"id": "C27", "title": "Integer arguments survive typed access", "statement": "Storing an integer of any supported width in an atom and reading it with the same type's accessor returns it unchanged, both unserialized and after serialization; widening accessors on unserialized atoms preserve the value.", "quantifier": "all integer values of every width", "why_tests_cant": "all 2^64 values times accessor pairs", "anchors": ["osc_atom_u.c: osc_atom_u_setInt*/getInt*", "osc_atom_s.c: osc_atom_s_getInt*"]}
{"id": "C28", "title": "Widening reads of serialized integers", "statement": "osc_atom_s_getInt64 and getUInt64 of a serialized 32-bit integer return the stored value exactly when it is non-negative; for negative values they return the value plus 2^32.", "quantifier": "all 32-bit values", "why_tests_cant": "sign handling over the whole range", "anchors": ["osc_atom_s.c: osc_atom_s_getInt64, osc_atom_s_getUInt64"]}
{"id": "C29", "title": "Hash table behaves as a finite map", "statement": "After any sequence of store, storeSafe, remove and clear, lookup of a key returns the value most recently stored (first stored for storeSafe) and not removed, and the entry count is the number of distinct keys present; foreach visits each entry exactly once.", "quantifier": "all finite histories, all keys, any number of slots", "why_tests_cant": "collisions and histories are unbounded", "anchors": ["osc_hashtab.c: osc_hashtab_store, osc_hashtab_storeSafe, osc_hashtab_lookup, osc_hashtab_remove, osc_hashtab_clear, osc_hashtab_foreach"]}
{"id": "C30", "title": "Linked list behaves as a sequence", "statement": "After any sequence of append, prepend, pop-head, pop-tail, pop-nth and unlink, the list's contents, count and end pointers are those of the corresponding sequence operations; peekNth(n) is the n-th element for 0<=n<count, the last one for -1 and NULL otherwise.", "quantifier": "all finite histories and all integer indexes", "why_tests_cant": "pointer invariants over arbitrary histories", "anchors": ["osc_linkedlist.c"]}
{"id": "C31", "title": "Growable arrays preserve contents", "statement": "osc_array_resize keeps the common prefix of the contents and zero-fills the extension; osc_array_get returns the n-th member for indexes in range and NULL beyond the end; osc_array_copy yields equal contents. osc_array_copyInto writes outside a destination that is shorter than the source plus offset.", "quantifier": "all arrays, lengths and member sizes", "why_tests_cant": "all sizes", "anchors": ["osc_array.c"]}
{"id": "C32", "title": "Quoting metacharacters", "statement": "The size-only pass of osc_strfmt_stringWithQuotedMeta equals the number of characters the writing pass produces, removing the inserted backslashes gives back the original string, and with room for the terminator nothing is written outside the buffer; with less room it writes outside the buffer.", "quantifier": "all strings and all buffer sizes", "why_tests_cant": "all strings and sizes", "anchors": ["osc_strfmt.c: osc_strfmt_stringWithQuotedMeta, osc_strfmt_countMeta, osc_strfmt_isMeta, osc_strfmt_addQuotesAndQuoteMeta"]}
{"id": "C33", "title": "Query selection partitions a bundle", "statement": "For every well-formed bundle and list of selectors, each message is placed in the complete matches of exactly those selectors it fully matches, in the partial matches of exactly those it extends, and in the unmatched bundle exactly when it is in none; order is preserved.", "quantifier": "all well-formed bundles and selector lists", "why_tests_cant": "all combinations of messages and selectors", "anchors": ["osc_query.c: osc_query_select", "osc_rset.c"]}
{"id": "C34", "title": "Dispatch delivers each message to the right entries", "statement": "osc_dispatch calls each entry of the table exactly once with exactly the messages of the bundle that match its selector, in order, and delegates exactly the messages matching no entry.", "quantifier": "all bundles and tables", "why_tests_cant": "all combinations of messages and selectors", "anchors": ["osc_dispatch.c: osc_dispatch", "osc_vtable.c"]}
{"id": "C35", "title": "Streaming validator agrees with the wire format", "statement": "Feeding the bytes of a serialized bundle one at a time to osc_serial_processByte never raises an error for bundles within the validator's supported range; an error state once entered is never left.", "quantifier": "all byte sequences", "why_tests_cant": "state machine over unbounded input", "anchors": ["osc_serial.c: osc_serial_processByte, osc_serial_errorp"]}
{"id": "C36", "title": "Type tag ordering and promotion", "statement": "The type chosen when combining two numeric types is one of the two and is the one later in the documented promotion order, independently of the argument order.", "quantifier": "all pairs of type tags", "why_tests_cant": "complete table including unsupported tags", "anchors": ["osc_typetag.c: osc_typetag_compare, osc_typetag_getLargestType"]}
{"id": "C37", "title": "Integer arithmetic in expressions", "statement": "Adding or multiplying two integer atoms yields the exact result modulo the width of the larger of the two types; subtraction yields the exact result only modulo 2^32 even for 64-bit operands; division by zero yields the string Inf instead of trapping.", "quantifier": "all pairs of integer atoms", "why_tests_cant": "all value and type combinations", "anchors": ["osc_expr.c: osc_expr_add, osc_expr_subtract, osc_expr_multiply, osc_expr_divide"]}
{"id": "C38", "title": "List functions of the expression language", "statement": "reverse, first, last, rest, butlast, list, interleave, nth, length and nfill return exactly the corresponding list of arguments, for every list length, and never read outside their argument arrays.", "quantifier": "all argument lists", "why_tests_cant": "unbounded lists", "anchors": ["osc_expr.c: osc_expr_reverse, osc_expr_first, osc_expr_last, osc_expr_rest, osc_expr_butlast, osc_expr_list, osc_expr_interleave, osc_expr_nth, osc_expr_length, osc_expr_nfill"]}
{"id": "C39", "title": "Element-wise operators", "statement": "A binary operator applied to two lists works element-wise on the shorter length, and broadcasts a single element over a longer list.", "quantifier": "all pairs of lists and all operators", "why_tests_cant": "unbounded lists", "anchors": ["osc_expr.c: osc_expr_2arg"]}
{"id": "C40", "title": "Flatten and explode", "statement": "Exploding a bundle by the slash, with any nesting limit, gives a nested bundle that stands for exactly the same messages (the addresses of enclosing messages put in front), with distinct addresses in every bundle and, without a limit, one address component per level; flattening a nested bundle without a separator and with removal of emptied messages gives the messages it stands for; one after the other they give back the same messages.", "quantifier": "all bundles of any number of messages with at least one argument and literal addresses of any depth, none of which continues another one; any limit and contents (within the 2^31 bytes of the format); flattening under the assumption that a freed argument still reads as before", "why_tests_cant": "nesting depth unbounded", "anchors": ["osc_bundle_u.c: osc_bundle_u_flatten, osc_bundle_u_explode", "osc_message_u.c: osc_message_u_explode"]}
{"id": "C41", "title": "addressIsBound tells whether an address carries arguments", "statement": "osc_bundle_s_addressIsBound with a literal address and full matches answers true exactly if the bundle has a message with that address and at least one argument.", "quantifier": "all well-formed bundles and literal addresses", "why_tests_cant": "the answer depends on the padding of the address of every message of an unbounded bundle", "anchors": ["osc_bundle_s.c: osc_bundle_s_addressIsBound"]}
{"id": "C42", "title": "First message with a given address", "statement": "osc_bundle_s_getFirstEqualAddr returns the first message whose address is equal to the given string, and NULL if there is none.", "quantifier": "all well-formed bundles and strings", "why_tests_cant": "search over unbounded message sequences", "anchors": ["osc_bundle_s.c: osc_bundle_s_getFirstEqualAddr"]}
{"id": "C43", "title": "Wrapping one message into a bundle", "statement": "osc_bundle_s_wrapMessage turns the body of any message into a well-formed bundle of just that message, in the caller's buffer or a new one, and reports which.", "quantifier": "all well-formed messages and buffers large enough", "why_tests_cant": "sizes and padding of every message", "anchors": ["osc_bundle_s.c: osc_bundle_s_wrapMessage"]}
{"id": "C44", "title": "Numbers read as floating point keep their value", "statement": "osc_atom_u_getFloat/getDouble and osc_atom_s_getFloat/getDouble return the float or double whose real value is exactly that of the integer or floating point number held, whenever that number fits the mantissa (|v| <= 2^24 for float, <= 2^53 for double; float read as double always; same type always bit for bit). Any other number is rounded to the nearest one of the format, to the even one when two are equally near, and to infinity from half a unit beyond the greatest; infinities stay, and NaN stays NaN.", "quantifier": "all values of all integer and floating point types", "why_tests_cant": "2^64 values per type, every exponent", "anchors": ["osc_atom_u.c: osc_atom_u_getFloat, osc_atom_u_getDouble", "osc_atom_s.c: osc_atom_s_getFloat, osc_atom_s_getDouble"]}
{"id": "C45", "title": "Floating point numbers read as integers are truncated", "statement": "Reading a float or double as an integer of any type gives the value rounded toward zero whenever that is representable in the type.", "quantifier": "all finite floats and doubles, all integer types", "why_tests_cant": "every bit pattern", "anchors": ["osc_atom_u.c: osc_atom_u_getInt*", "osc_atom_s.c: osc_atom_s_getInt*"]}
{"id": "C46", "title": "Numerals read as integers", "statement": "A string atom that holds a decimal numeral reads as that number, in every integer type in which it is representable (osc_atom_u 8 bit reads excepted: they return the first character).", "quantifier": "all decimal numerals, followed by any text", "why_tests_cant": "unbounded strings", "anchors": ["osc_atom_u.c: osc_atom_u_getInt*", "osc_atom_s.c: osc_atom_s_getInt*"]}
{"id": "C47", "title": "Negation", "statement": "osc_atom_u_negate and osc_atom_s_negate replace an integer by its negative in the signed type of the same width (modulo 2^width; the least 32 and 64 bit integers overflow), and a floating point number by its negative, leaving all other bytes alone.", "quantifier": "all values of all numeric types", "why_tests_cant": "every value and boundary", "anchors": ["osc_atom_u.c: osc_atom_u_negate", "osc_atom_s.c: osc_atom_s_negate"]}
{"id": "C48", "title": "Truth of an atom", "statement": "osc_atom_u_getBool and osc_atom_s_getBool are true exactly for true, nonzero integers and floating point numbers other than +0 and -0; they are false for false, nil, strings, blobs, time tags and bundles.", "quantifier": "all atoms", "why_tests_cant": "every value of every type", "anchors": ["osc_atom_u.c: osc_atom_u_getBool", "osc_atom_s.c: osc_atom_s_getBool"]}
{"id": "C49", "title": "Atoms as text", "statement": "Converted to a string, an integer atom wider than 8 bits is its decimal numeral, an 8 bit one a character between apostrophes, a string is itself, true, false and nil are these words, and a blob lists its bytes; the length announced is the length of the text; in a given buffer the text is cut off and terminated within it and nothing after it changes; and the numeral put into a string atom reads back as the same number.", "quantifier": "all values of all integer types, all strings, all non-empty blobs, all buffer sizes", "why_tests_cant": "every value, every buffer size", "anchors": ["osc_atom_u.c: osc_atom_u_getString, osc_atom_u_getStringLen", "osc_atom_s.c: osc_atom_s_getString, osc_atom_s_getStringLen", "osc_strfmt.c: osc_strfmt_int*, osc_strfmt_blob"]}
{"id": "C50", "title": "Comparison in the expression language", "statement": "The operators <, <=, >, >=, == and != compare booleans, integers of at most 53 bits, floats and doubles by the numbers they stand for whatever their types (a NaN is unequal and unordered to everything), strings by their characters as unsigned numbers, time tags by the instant, nil is equal to nil only, bundles are equal if they have the same messages in order; of wider integers the smaller is never said to be greater.", "quantifier": "all pairs of values of all types", "why_tests_cant": "every pair of values of every pair of types", "anchors": ["osc_expr.c: osc_expr_eq, osc_expr_neq, osc_expr_lt, osc_expr_le, osc_expr_gt, osc_expr_gte"]}
{"id": "C51", "title": "Floating point arithmetic in the expression language", "statement": "If one operand of +, -, * or / is a float or double and the other any number, the result is a double: the exact result rounded to the nearest double, ties to even, infinities and NaNs as in IEEE 754; a divisor that is zero gives the string Inf.", "quantifier": "all numbers of all types, including infinities, NaNs and subnormal numbers", "why_tests_cant": "every pair of bit patterns, every type", "anchors": ["osc_expr.c: osc_expr_add, osc_expr_subtract, osc_expr_multiply, osc_expr_divide", "osc_atom_u.c: osc_atom_u_getDouble"]}
{"id": "C52", "title": "Adding strings", "statement": "Adding two strings appends them; adding a string and an integer of more than 8 bits or a boolean appends the text of it, on either side; adding a string and nil, a blob or a bundle is an error that leaves the result alone.", "quantifier": "all strings and values", "why_tests_cant": "every string, every value", "anchors": ["osc_expr.c: osc_expr_add", "osc_atom_u.c: osc_atom_u_getString"]}
{"id": "C53", "title": "Truth values and assignment to places", "statement": "A number is true unless it is zero, nil, strings, blobs, time tags and bundles are false; && and || combine, ! of a list negates the members that are booleans, nil, 32 bit integers, floats or doubles, nonzero gives the places of the true members; assigning data to indexes of a list changes exactly the members at these indexes, one after the other, and skips indexes out of range.", "quantifier": "all lists and values, all indexes", "why_tests_cant": "every list, any number of indexes in any order", "anchors": ["osc_expr.c: osc_expr_and, osc_expr_or, osc_expr_not, osc_expr_nonzero, osc_expr_assign_to_index"]}
{"id": "C54", "title": "Set operations on bundle objects", "statement": "The union of two bundle objects has the messages of both in order, only the first for each address; the intersection has the messages of the first whose address occurs in the second, only the first for each address.", "quantifier": "all bundles whose messages have literal addresses and any arguments, including nested bundles", "why_tests_cant": "any number of messages and repeated addresses", "anchors": ["osc_bundle_u.c: osc_bundle_u_union, osc_bundle_u_intersection, osc_bundle_u_addressExists"]}
{"id": "C55", "title": "Formatting objects as text", "statement": "Formatting a bundle, message or atom object gives the text of its data: messages separated by a comma and a newline, an address, a colon and the arguments in brackets if there are several, strings quoted with escapes, nested bundles in braces and indented by two spaces per level. The size reported beforehand is the length of this text, formatting into a larger buffer writes the text and a terminator and changes nothing outside of the buffer.", "quantifier": "all objects of supported values, of any size and nesting, all buffers", "why_tests_cant": "unbounded nesting, every string and number, every buffer size", "anchors": ["osc_bundle_u.c: osc_bundle_u_format, osc_bundle_u_nformat, osc_bundle_u_nformatNestedBndl, osc_bundle_u_getFormattedSize", "osc_message_u.c: osc_message_u_format, osc_message_u_nformat", "osc_atom_u.c: osc_atom_u_format, osc_atom_u_nformat"]}
{"id": "C56", "title": "Formatting serialized data", "statement": "Formatting serialized data gives the same text as formatting the objects that were serialized and the objects it deserializes to, with the same guarantees for sizes and buffers.", "quantifier": "all bundles of supported messages whose addresses begin with a slash, of any size and nesting, anywhere in memory", "why_tests_cant": "two independent implementations of the formatter have to agree on every input", "anchors": ["osc_bundle_s.c: osc_bundle_s_format, osc_bundle_s_nformat, osc_bundle_s_nformatNestedBndl", "osc_message_s.c: osc_message_s_format, osc_message_s_nformat", "osc_atom_s.c: osc_atom_s_format, osc_atom_s_nformat"]}
{"id": "C57", "title": "Evaluating an expression", "statement": "Evaluating an expression gives the code, the values and the new contents of the bundle that the meaning of the expression prescribes: arguments from left to right, variables bound by functions, addresses read from the bundle, effects in order. The evaluation ends, does not read or write outside of its data, and the answer is determined by the expression, the variables and the bundle.", "quantifier": "all expressions of any size and nesting built from literals, lists, addresses, patterns, function literals, named functions and the special functions, all bundles, all variables in scope", "why_tests_cant": "infinitely many expressions; results depend on the interaction of scopes, failures and a buffer that is edited in place while it is read", "anchors": ["osc_expr.c: osc_expr_eval, osc_expr_evalInLexEnv, osc_expr_evalArgInLexEnv, osc_expr_specFunc_apply, osc_expr_copyLexenv, osc_expr_arg_copy"]}
{"id": "C58", "title": "Expressions without effects", "statement": "An expression without assignment, delete and settimetag that applies only function literals leaves the bundle untouched, byte for byte, whatever else it does and whether it succeeds or not.", "quantifier": "all such expressions, all states of the bundle, all recursion depths", "why_tests_cant": "the absence of an effect has to hold for every expression", "anchors": ["osc_expr.c: osc_expr_evalInLexEnv, osc_expr_specFunc_map, osc_expr_specFunc_reduce, osc_expr_specFunc_if"]}
{"id": "C59", "title": "Assignment", "statement": "After an assignment the address reads as the values of the right hand side, every other address reads as before, the messages keep their order and a new address comes last; the time tag is unchanged. Assignment to indexes changes these places only.", "quantifier": "all addresses without pattern characters, all right hand sides, all bundles", "why_tests_cant": "the frame property ranges over all other addresses and all sizes of old and new message", "anchors": ["osc_expr.c: osc_expr_specFunc_assign, osc_expr_specFunc_assigntoindex", "osc_bundle_s.c: osc_bundle_s_replaceMessage, osc_bundle_s_appendMessage"]}
{"id": "C60", "title": "Lazy functions", "statement": "if evaluates the branch that is taken and not the other one; andalso and orelse evaluate the second argument only if the first does not decide.", "quantifier": "all arguments, including ones whose evaluation fails or has effects", "why_tests_cant": "non-evaluation has to hold for every argument that could stand there", "anchors": ["osc_expr.c: osc_expr_specFunc_if, osc_expr_specFunc_andalso, osc_expr_specFunc_orelse"]}
{"id": "C61", "title": "Map and reduce", "statement": "map applies a function to the first members of the lists, the second members and so on up to the shortest list and gives all results in order; lreduce is the fold from the left and rreduce the fold from the right, with or without an initial value.", "quantifier": "all functions, all numbers of lists of any length", "why_tests_cant": "holds for every function and every length", "anchors": ["osc_expr.c: osc_expr_specFunc_map, osc_expr_specFunc_reduce"]}
{"id": "C62", "title": "Functions by name", "statement": "In expressions the names +, -, *, the comparisons, first, last, rest, butlast, reverse, list and length and their synonyms stand for the functions with these meanings on lists of 32-bit integers and lists of any values.", "quantifier": "all names of these functions, all argument lists, all sums and products in range", "why_tests_cant": "all lists and all values", "anchors": ["osc_expr_func.h: osc_expr_funcsym", "osc_expr.c: osc_expr_lookupFunction, osc_expr_2arg, osc_expr_first, osc_expr_list"]}
{"id": "C63", "title": "Sums, products and means", "statement": "sum and product combine all members of all arguments: exactly for integers as long as no intermediate result needs more than 53 bits, stored in the smallest of the types int32, uint32 and int64 that has the result; for numbers in general by correctly rounded double arithmetic from left to right. mean divides the sum of the first argument by its number of members, dot adds the products of corresponding members up to the shorter length.", "quantifier": "all numbers of arguments and members, all integers, floats and doubles including infinities and NaN", "why_tests_cant": "every list of numbers and the rounding of every intermediate result", "anchors": ["osc_expr.c: osc_expr_sum, osc_expr_product, osc_expr_mean, osc_expr_dot"]}
{"id": "C64", "title": "Extremes", "statement": "min, max and extrema return a member of the list than which no other is smaller or greater, the last of equals, with its type; NaN members are passed over. range is the difference of the two, exact for integers when it fits an int32.", "quantifier": "all lists of numbers", "why_tests_cant": "all lists, all ties and all NaN positions", "anchors": ["osc_expr.c: osc_expr_min, osc_expr_max, osc_expr_extrema, osc_expr_range"]}
{"id": "C65", "title": "Clipping and signs", "statement": "clip moves every number of its first argument into the interval given by the other two and leaves everything that is not a number alone; sign gives -1, 0 or 1.", "quantifier": "all lists, all bounds in order, all numbers and other values", "why_tests_cant": "all values and all intervals", "anchors": ["osc_expr.c: osc_expr_clip, osc_expr_sign"]}
{"id": "C66", "title": "Sorting", "statement": "sort returns the members of all its arguments in increasing order, numbers before strings, without loss or duplication; sortidx returns the indexes that put the members in order; median returns the middle member or the mean of the two in the middle, whatever implementation of qsort the C library has.", "quantifier": "all lists of numbers and strings, all correct implementations of qsort", "why_tests_cant": "all lists and all implementations of qsort", "anchors": ["osc_expr.c: osc_expr_sort, osc_expr_qsortcb, osc_expr_sortidx, osc_expr_qsortIndexcb, osc_expr_median, comp"]}
{"id": "C67", "title": "Lengths, comparison and characters of strings", "statement": "strlen gives the length of the text of every member; strcmp says which of two texts comes first, looking at no more characters than its third argument says; strchar picks the characters at the given positions out of every string and rejects positions outside; typetags gives the type of every member. Numbers count as their decimal numerals, floats as the text printed for them.", "quantifier": "all members of any type with a text, all strings, positions and counts, all implementations of strcmp", "why_tests_cant": "all strings, positions and orders of members", "anchors": ["osc_expr.c: osc_expr_strlen, osc_expr_strcmp, osc_expr_strchar, osc_expr_typetags"]}
{"id": "C68", "title": "Finding strings", "statement": "strfind returns the positions at which a string occurs in another, from left to right and without overlap, and every occurrence starts inside one of those reported; there is only one such list.", "quantifier": "all strings and non-empty substrings", "why_tests_cant": "all strings, including self-overlapping patterns", "anchors": ["osc_expr.c: osc_expr_strfind"]}
{"id": "C69", "title": "Splitting strings", "statement": "split cuts a string into the longest pieces without any of the separating characters, never empty, in order and without a limit on their number; with an empty separator it gives the characters.", "quantifier": "all strings and separators", "why_tests_cant": "all strings and any number of pieces (the array grows in steps)", "anchors": ["osc_expr.c: osc_expr_split"]}
{"id": "C70", "title": "Joining strings", "statement": "join concatenates the texts of all members of its other arguments with the first argument between neighbours, without writing outside its buffer; splitting the result at a separator of one character that occurs in none of the strings gives the strings back.", "quantifier": "all separators, all numbers of arguments and members", "why_tests_cant": "buffer size for all combinations of members; round trip for all strings", "anchors": ["osc_expr.c: osc_expr_join"]}
{"id": "C71", "title": "Functions of the C library over lists", "statement": "The functions of one argument hand every member, as a double, to their library function and return its results in order as doubles; those of two arguments do so for the pairs of members, a single member going with every member of the other list and a missing one counting as 0. A double reaches the library bit by bit.", "quantifier": "all library functions, all lists of numbers of all types", "why_tests_cant": "all lists and all doubles, for whatever function the library provides", "anchors": ["osc_expr.c: osc_expr_1arg_dbl", "osc_expr.c: osc_expr_2arg_dbl", "osc_expr.c: osc_expr_ilogb", "osc_expr.c: osc_expr_jn"]}
{"id": "C72", "title": "Arithmetic sequences and running sums", "statement": "aseq lists the numbers from the first end in steps of the third argument that do not pass the second end, in the right direction and none left out, and refuses a step in the wrong direction; cumsum gives the sums of the first, the first two, ... of all members, in the largest type among them.", "quantifier": "all ends and steps of all integer types, finite floats and doubles; all lists", "why_tests_cant": "all ends, steps and lengths; every prefix of every list", "anchors": ["osc_expr.c: osc_expr_aseq", "osc_expr.c: osc_expr_cumsum"]}
{"id": "C73", "title": "Bits and byte order", "statement": "bitand and bitor combine the integers bit by bit in the largest type; hton32, ntoh32, hton64 and ntoh64 reverse the bytes of every member, and applied one after the other give 32-bit integers back.", "quantifier": "all integers of all types, all lists", "why_tests_cant": "all bit patterns", "anchors": ["osc_expr.c: osc_expr_bitand", "osc_expr.c: osc_expr_bitor", "osc_expr.c: osc_expr_hton32", "osc_expr.c: osc_expr_ntoh32", "osc_expr.c: osc_expr_hton64", "osc_expr.c: osc_expr_ntoh64"]}
{"id": "C74", "title": "Remainder", "statement": "The % operator gives the remainder that lies between 0 and the absolute value of the second operand, whatever the signs; a second operand that is zero or missing leaves the first as it is.", "quantifier": "all integers of all types (first below 2^50, second below 2^33 in size), finite floats and doubles, all lists", "why_tests_cant": "all pairs of operands; the computation goes through rounded doubles", "anchors": ["osc_expr.c: osc_expr_mod", "osc_expr.c: _osc_expr_fmod"]}
{"id": "C75", "title": "One more, one less, cross product and scaling", "statement": "plus1 and minus1 add one to or subtract it from every member; cross gives the cross product of two lists of three; scale puts every number on the line through the two pairs of ends, keeps truth values, and makes all numbers the same if the ends of the output are equal.", "quantifier": "all lists of numbers; all ends", "why_tests_cant": "all values of all types, overflow included", "anchors": ["osc_expr.c: osc_expr_plus1", "osc_expr.c: osc_expr_minus1", "osc_expr.c: osc_expr_cross", "osc_expr.c: osc_expr_scale"]}
{"id": "C76", "title": "Casts to numbers and truth values", "statement": "A cast function gives, for every member of its first argument in order, the value in the named type: integers are taken modulo the size of the type, finite floats and doubles lose their fraction, texts are read as numerals, one-character conventions of char are kept, and conversions to float and double round to nearest. Without argument nothing is cast.", "quantifier": "all lists of all value types, all target types", "why_tests_cant": "all values of all pairs of types", "anchors": ["osc_expr.c: osc_expr_explicitCast", "osc_expr.c: osc_expr_explicitCast_int8", "osc_expr.c: osc_expr_explicitCast_float64", "osc_expr.c: osc_expr_explicitCast_bool"]}
{"id": "C77", "title": "Casts to texts and blobs", "statement": "The cast to a string writes a number as its decimal numeral, a small signed character as that character, a text as itself and a blob as its text; the cast of a list of numbers to a blob gives the blob of their bytes, and of a bundle the blob of its serialized form.", "quantifier": "all lists of all value types; all bundles", "why_tests_cant": "all values and all lengths", "anchors": ["osc_expr.c: osc_expr_explicitCast_string", "osc_expr.c: osc_expr_explicitCast_blob", "osc_atom_u.c: osc_atom_u_getBlobCopy", "osc_atom_u.c: osc_atom_u_getBlobLen"]}
{"id": "C78", "title": "Cast by type tags", "statement": "The cast whose types are given as a list casts member i to the type of character i; a single type serves for all members, missing types leave members without a value, and unknown type characters do too.", "quantifier": "all lists of types and members", "why_tests_cant": "all combinations of types and values", "anchors": ["osc_expr.c: osc_expr_explicitCast_dynamic"]}
{"id": "C79", "title": "match", "statement": "match gives for every pattern a bundle with the pattern and the lists of the addresses it matches in full, matches as far as the address goes, and does not match; every address is in exactly one list and the order is kept.", "quantifier": "all lists of patterns and addresses within the backtracking limit; for the division into lists, all texts", "why_tests_cant": "all patterns and all addresses", "anchors": ["osc_expr.c: osc_expr_match"]}
{"id": "C80", "title": "bundle and readstring", "statement": "bundle makes one message for each address with copies of the members of the argument behind it, a message without values of a single address, and the bundle itself of the bytes of its serialized form; an address that is no text or a single value of another kind is refused. readstring copies a single text and refuses everything else.", "quantifier": "all argument lists; all bundles of standard messages", "why_tests_cant": "all numbers of arguments, all values and all bundles", "anchors": ["osc_expr.c: osc_expr_bundle", "osc_expr.c: osc_expr_readstring", "osc_atom_u.c: osc_atom_u_setBndl_s"]}
{"id": "C81", "title": "Reading text is total", "statement": "Reading any text as a bundle ends without undefined behaviour; either it succeeds with a bundle of at least one message, each with an address, or it reports a parse error.", "quantifier": "all NUL-terminated texts", "why_tests_cant": "all texts: every sequence of characters, quotes and escapes, unterminated strings included", "anchors": ["osc_parser.y: osc_parser_parseString, osc_parser_parseString_r", "osc_scanner.l: rules"]}
{"id": "C82", "title": "Text that spells a bundle is read as this bundle", "statement": "Numbers, texts in quotes, characters, times, truth values, nil, lists and nested bundles, with any white space between them, are read as the values they spell; a text says one bundle only.", "quantifier": "all texts that spell a bundle", "why_tests_cant": "all spellings: every number, every text with its escapes, every nesting", "anchors": ["osc_parser.y: bundle, messages, message, data, datum, list, subbundle", "osc_scanner.l: rules", "osc_parser.y: osc_parser_parseString"]}
{"id": "C83", "title": "Text that spells no bundle is an error", "statement": "When the tokens of a text do not form a bundle the parser reports an error; it delivers a bundle nevertheless exactly from complete messages in front of the error.", "quantifier": "all texts of values, addresses and punctuation", "why_tests_cant": "all sequences of tokens", "anchors": ["osc_parser.y: osc_parser_parseString, bundle", "osc_scanner.l: rules"]}
{"id": "C84", "title": "Writing and reading text keeps the content", "statement": "The text written for a bundle is read back as a bundle of the same addresses in the same order with the same values; int32, characters, texts, truth values, nil and nested bundles come back as they are.", "quantifier": "all bundles without blobs whose addresses have no white space", "why_tests_cant": "all bundles: every nesting, every text, every number", "anchors": ["osc_parser.y: osc_parser_parseString", "osc_scanner.l: rules", "osc_bundle_u.c: osc_bundle_u_format", "osc_strfmt.c: osc_strfmt_quotedString"]}
{"id": "C85", "title": "Expressions are read as they are written", "statement": "A text of expressions separated by commas is read as the expressions it writes: calls by name, operators with the usual precedence and associativity, assignments, increments, conditionals, lists, lookups, bundles, quotations and functions. What the operators mean follows from one list of ranks, the same text is never read in two ways, and the empty text is read as no expression.", "quantifier": "all well-formed expressions of any depth, any numbers, texts and addresses, any blanks and comments between the tokens", "why_tests_cant": "the texts and the nesting of expressions are unbounded, and precedence must hold for all combinations of operators", "anchors": ["osc_expr_parser.y: osc_expr_parser_parseExpr, expns, expr, arg", "osc_expr_scanner.l: rules"]}
{"id": "C86", "title": "Only expressions are accepted, and reading always ends", "statement": "Reading an expression ends for every text. A text that is accepted is a list of well-formed expressions separated by commas and the result is what they mean. A text without the power operator and dots, and without lambda or square brackets, never makes the parser touch memory it does not own; the code returned is 0 or 1.", "quantifier": "all texts", "why_tests_cant": "all texts, valid or not", "anchors": ["osc_expr_parser.y: osc_expr_parser_parseExpr, expns, expr, arg", "osc_expr_scanner.l: rules"]}
{"id": "C87", "title": "The tokens of an expression's text", "statement": "A text of an expression is divided into the tokens it spells: signs, numbers (decimal, hexadecimal, floating point, characters), truth values, names, addresses, quoted strings with escaped quotes and quotations with balanced parentheses, with blanks and comments between them. Every text has tokens.", "quantifier": "all spellings of tokens and what comes after them", "why_tests_cant": "all texts: longest match depends on everything that follows", "anchors": ["osc_expr_scanner.l: rules, quote, quote_function, name"]}
{"id": "C88", "title": "Functions are read from text", "statement": "The text of a function (lambda with its parameters and its body) is read as a function with these parameters in this order and the body it writes; nothing else is read as a function.", "quantifier": "all lambda expressions: any parameters, any body", "why_tests_cant": "unbounded parameter lists and bodies", "anchors": ["osc_expr_parser.y: osc_expr_parser_parseFunction, function, parameters"]}
{"id": "C89", "title": "Evaluating the text of expressions does what is written", "statement": "When a text of expressions is evaluated against a bundle (eval), the expressions it writes are evaluated one after the other against that bundle up to the first that fails, and the result is the code of the last one evaluated. In particular a text that assigns a written sum, difference or product of int32 numbers and int32 messages to an address leaves the bundle with exactly the mathematical value at that address and everything else as it was.", "quantifier": "all texts of expressions of any length and depth, all bundles, all tables of functions that follow a semantics; for arithmetic all expressions of +, - and * whose results fit in an int32", "why_tests_cant": "unbounded texts and bundles; the connection of reader and evaluator", "anchors": ["osc_expr.c: osc_expr_specFunc_eval, osc_expr_eval", "osc_expr_parser.y: osc_expr_parser_parseExpr"]}
{"id": "C90", "title": "A message built argument by argument holds what was put in", "statement": "Starting from an empty message, any sequence of the typed append, prepend and insert functions (integers of every width, float, double, string, bool, true, false, nil, bundle, timetag, blob) never touches invalid memory; afterwards the iterator gives the arguments in exactly the order the calls ask for, each with the value passed in, the argument count is their number, and serializing the message yields the OSC encoding of its address and these values. Setting an array of arguments appends them to those that are there; allocating a message with an argument makes a message with just that one.", "quantifier": "all sequences of typed calls of any length, at any positions, with any values and any distinct addresses returned by malloc", "why_tests_cant": "unbounded histories of calls, positions and values; the linked list must stay consistent throughout", "anchors": ["osc_message_u.c: osc_message_u_append*, prepend*, insert*, getArgArrayCopy, setArgArrayCopy, allocWith*", "osc_message_iterator_u.c"]}
{"id": "C91", "title": "Members of nested bundles can be read and set", "statement": "In the expression language /a./b reads the message /b of the bundle that is the first argument of /a, and /a./b = x sets it: after the assignment /a./b reads as the value of x, every other member of that bundle, the other arguments of /a and every other message of the outer bundle read as before. If /a is not bound the assignment appends a message /a whose argument is a bundle with the one message /b. The bundle may also be named by an expression, and the member by a string computed in the outer bundle. Whatever fails gives a failure code: an unbound /a on reading, a first argument that is not a bundle, a member name that is not an address.", "quantifier": "all bundles, all nestings, all expressions for the bundle, the member and the value, all variables in scope", "why_tests_cant": "unbounded bundles and expressions; the nested bundle is serialized, changed and put back in three different ways", "anchors": ["osc_expr.c: osc_expr_specFunc_getBundleMember, osc_expr_specFunc_assignToBundleMember", "osc_atom_s.c: osc_atom_s_getBndlCopy"]}
{"id": "C92", "title": "Exploding and flattening received bundles keeps the messages", "statement": "Exploding the bytes of a bundle of data messages gives the bytes of a well-formed nested bundle that stands for exactly the same messages; flattening the bytes of a nested bundle gives the bytes of the bundle of the messages it stands for; exploding and then flattening gives back the same messages, up to their order. No input bundle of this kind makes the functions fail.", "quantifier": "all bundles of literal, independent addresses of any number, length and data; all nesting limits", "why_tests_cant": "unbounded bundles and address trees; composition of deserializer, tree operation and serializer", "anchors": ["osc_bundle_s.c: osc_bundle_s_flatten, osc_bundle_s_explode", "osc_bundle_u.c: osc_bundle_u_flatten, osc_bundle_u_explode", "osc_message_u.c: osc_message_u_explode"]}
{"id": "C93", "title": "Listing a program prints every expression in place", "statement": "Formatting a parsed program whose listing fits the block writes exactly one line per expression, in prefix form: the name, then every literal, address, nested call and function with its parameters and body, in order and separated by single blanks, terminated by a NUL; the length reported is the length of that text. A listing of less than 768 characters always fits. A program whose listing does not fit the block is written past the end of it: this happens for every first expression of 768 characters or more, and for every program whose listing is longer than 512 bytes and 256 for each expression.", "quantifier": "all programs: expressions of any number, nesting and size, all literals, all contents of fresh memory", "why_tests_cant": "unbounded nesting and lengths; the overflow depends on the lengths and positions of all lines", "anchors": ["osc_expr.c: osc_expr_format, osc_expr_format_r"]}
{"id": "C94", "title": "A bundle object and its bytes answer questions alike", "statement": "Asking a bundle object whether an address or pattern exists, for the first full match, or for all matches gives exactly the messages the matcher selects, in order; looking up gives one copy of each, with the same address and values, however many there are. The serialization of the object gives the same answers: the same addresses exist, the first full match is the same message, and lookups find the same messages. The object is bound at an address iff its first match has arguments; this is not what the bytes answer. Adding copies appends exactly those copies; adding without duplicates replaces the messages with that address and no others. Messages without an address are passed over, except by lookups, which read a NULL address.", "quantifier": "all bundle objects of any number of messages, all patterns, full and partial matching", "why_tests_cant": "unbounded bundles and patterns; growth of the result array; agreement of two implementations", "anchors": ["osc_bundle_u.c: osc_bundle_u_addressExists, osc_bundle_u_addressIsBound, osc_bundle_u_getFirstFullMatch, osc_bundle_u_lookupAddress, osc_bundle_u_addMsgCopy, osc_bundle_u_addMsgWithoutDupsCopy, osc_bundle_u_addMsgArrayCopy", "osc_bundle_s.c: osc_bundle_s_addressExists, osc_bundle_s_getFirstFullMatch, osc_bundle_s_lookupAddress"]}
{"id": "C95", "title": "Copies of expressions are independent, and freeing them frees them", "statement": "Copying an expression, or a list of linked expressions, gives the same expressions in blocks of memory that were not there before: everything that was allocated belongs to the copy, no block of it is used twice, and no other block changes. Freeing expressions frees each of their blocks once and no other block. So copying and freeing the copy leaves memory as it was, and after copying the original can be freed without harm to the copy. This holds for expressions with arguments nested to any depth and functions whose bodies are lists of expressions. The code refutes it for arguments that are lists of atoms: the copy of such an argument has no list.", "quantifier": "all lists of expressions with arguments of any kind the parser makes, nested to any depth; all memories they can lie in, with whatever else lies there", "why_tests_cant": "A test copies and frees a few trees; that no block is shared, lost or freed twice is a statement about every tree and every memory.", "anchors": ["osc_expr.c: osc_expr_copy, osc_expr_copyAllLinked, osc_expr_appendExpr, osc_expr_free, osc_expr_arg_copy, osc_expr_arg_clear, osc_expr_arg_free, osc_expr_arg_freeList", "osc_expr_rec.c: osc_expr_rec_copy, osc_expr_rec_free"]}
{"id": "C96", "title": "An expression counts and keeps the arguments it is given", "statement": "The number of arguments an expression reports is the length of the list of arguments it gives out. Setting arguments makes the list that was given the list of arguments; appending and prepending to an expression that has arguments puts the given list after or before them, and the number grows by the length of that list, whatever it is. No other block of memory changes. Appending or prepending to an expression without arguments is right for a single argument only: the code reports one argument whatever the length of the list that was given, including none.", "quantifier": "all expressions with any arguments, all lists of arguments given, all memories they lie in", "why_tests_cant": "The functions work on linked lists of any length; tests append one argument, which is the case in which the count is right.", "anchors": ["osc_expr.c: osc_expr_setArg, osc_expr_prependArg, osc_expr_appendArg, osc_expr_getArgs, osc_expr_getArgCount"]}
{"id": "C97", "title": "Freeing, clearing, copying and replacing messages of bundle objects account for every block of memory", "statement": "Freeing a bundle object frees each of its blocks once, the bundles within it included, and no other block; so does freeing a message. Clearing a bundle frees all but the bundle, which is then empty; clearing the arguments of a message keeps its address. The deep copy of a message whose arguments are not bundles is the same message in blocks that were not there before, all of which belong to it; copying and freeing the copy leaves memory as it was, and the original can be freed without harm to the copy. Adding a message to a bundle in the mode that replaces a message with the same address puts the new arguments in its place, leaves the other messages alone and frees the message given; when no message has the address, nothing is done. The code refutes that all the blocks given up are freed: the text of the replaced message's address is lost, each time and only that block.", "quantifier": "all bundle objects, nested to any depth, with messages with and without addresses; all memories they can lie in, with whatever else lies there", "why_tests_cant": "A test frees a few bundles; that no block is lost, shared or freed twice is a statement about every bundle and every memory.", "anchors": ["osc_atom_u.c: osc_atom_u_free, osc_atom_u_copy", "osc_message_u.c: osc_message_u_free, osc_message_u_clearArgs, osc_message_u_deepCopy, osc_message_u_appendAtom", "osc_bundle_u.c: osc_bundle_u_free, osc_bundle_u_clear, osc_bundle_u_addMsg_impl"]}
{"id": "C98", "title": "Renaming an entry of a method table", "statement": "In a method table filled by adding entries, every selector finds its entry and no other name finds one; adding a new selector keeps this. Renaming an entry that is not there reports an error and changes nothing. Renaming an entry should make the new selector find it, the old one find nothing, and leave the other selectors alone, with the table as large as before and owning its names. The code does the first three when the name need not grow or does not move in memory; it refutes the rest: when a longer name makes realloc move the name of the entry, the freed name is read, always; otherwise the element of the old selector stays in the table, so that one element too many is counted unless both names share a slot; and the table keeps the caller's pointer, so that looking for the new selector after the caller has freed its name reads freed memory.", "quantifier": "all tables filled by adding any number of entries, all old and new selectors (the new one not in use), all ways names can fall into slots, realloc moving or not", "why_tests_cant": "A test renames a few entries, with a realloc that happens not to move and names that outlive the table.", "anchors": ["osc_vtable.c: osc_vtable_renameEntry, osc_vtable_addEntry, osc_vtable_getEntryBySelector", "osc_hashtab.c: osc_hashtab_store, osc_hashtab_remove, osc_hashtab_lookup"]}
{"id": "C99", "title": "Setting an atom again and again: what is freed, what is lost", "statement": "Whatever sequence of calls sets an atom object (to numbers, booleans, strings, NULL strings, strings and blobs of the caller, bundles as objects or as bytes, blobs, records), freeing it at the end should leave memory as it was: everything it held freed once, nothing of the caller's freed. Exactly: memory is as it was except for one lost block for each call that loses one, and for the block of the caller that the atom holds at the end, which is freed with it. The calls that lose a block are: any call on an atom that holds a blob of its own; setting a string, a NULL string, a bundle object or a record on one that holds a bundle; setting a NULL string, a bundle object or a record on one that holds a string. Histories without such calls, at whose end the atom holds nothing of the caller's, leave memory as it was. An atom that was told to free its blob frees it as if it were a bundle when it is set.", "quantifier": "all sequences of calls of any length, all memories, realloc moving or not", "why_tests_cant": "A test sets an atom a few times; leaks do not show, and the combinations of what is held and what is set next are histories without bound.", "anchors": ["osc_atom_u.c: osc_atom_u_clear, osc_atom_u_free, osc_atom_u_setString, osc_atom_u_setStringPtr, osc_atom_u_setBndl_u, osc_atom_u_setBndl_s, osc_atom_u_setBlob, osc_atom_u_setBlobPtr, osc_atom_u_setRec, osc_atom_u_setShouldFreePtr, osc_atom_u_setBool, osc_atom_u_setInt32"]}
{"id": "C100", "title": "A list of atoms as one text", "statement": "osc_atom_array_u_getStringArray writes the texts of the members one after the other, the separator after each of them (the last too), then a terminator, and sets the length to that of the text with the terminator, as long as every text fits into the block together with the separator and a terminator; this is so whenever the whole text fits into the block there is to begin with (the caller's, or 256 bytes). The block is made larger only when a text alone does not fit into what is left, and the separators and the terminator are not counted, so with a separator the function writes past the end of the block in all other cases: with a space and no block given, for one text of 255 or 256 characters, and for every list of 128 or more texts of one character. Without a separator a number that just fills the block loses its last character.", "quantifier": "every list of atoms (strings, numbers, characters, truth values, floats and time tags) of any length, every separator or none, every block given or none, whose sizes are ints", "why_tests_cant": "Whether the block is large enough depends on the lengths of all texts before; only some lengths fail, and the write past the end is silent.", "anchors": ["osc_atom_array_u.c: osc_atom_array_u_getStringArray", "osc_atom_u.c: osc_atom_u_getString", "osc_expr.c: osc_expr_specFunc_eval, osc_expr_specFunc_tokenize, osc_expr_specFunc_compile (callers)"]}
{"id": "C101", "title": "tokenize gives the tokens of an expression", "statement": "tokenize gives one member for every token of the text: a number, truth value or nil as it is, names, texts and addresses as strings, and every other token as the string it is spelled with, except that == is given as =. For texts without a backslash and with at most 64 tokens nothing is missing. Beyond this, exactly the following are missing, with an atom without type in their place: a text that contains an escaped character, and every number, name, text or address that is token number 65, 129 and so on. A list that is not one string is tokenized as its texts separated by spaces.", "quantifier": "every text, of any length and with any number of tokens; every list of atoms for which the text of the list fits (C100)", "why_tests_cant": "The lost tokens are at positions that depend on the number of all tokens before; short examples show none of it.", "anchors": ["osc_expr.c: osc_expr_lex, osc_expr_specFunc_tokenize", "osc_expr_scanner.l: alloc_atom, <quote>", "osc_array.c: osc_array_get, osc_array_resize"]}
{"id": "C102", "title": "A result set gives each selector once, in order, and frees everything once", "statement": "After any calls that add complete, partial and unmatched messages to a result set, going through it with initIterator, hasNext and next gives exactly one result per selector, in the order in which the selectors were first used, each with its complete and its partial matches in the order of the calls; following the previous results back from the last gives the reverse. A selector is found exactly if something was added for it. Calls made while an iteration is under way do not lose or repeat anything: the loop goes on where it was and ends with the new selectors. Freeing the set frees every block it made, each exactly once.", "quantifier": "every sequence of calls, of any length, with any selectors and messages; every position of the iterator at which more calls are made; every order in which the hash table is gone through when the set is freed", "why_tests_cant": "Links, table and ownership must agree after every history; a leaked or twice freed block gives no wrong output.", "anchors": ["osc_rset.c: osc_rset_alloc, osc_rset_free, osc_rset_initIterator, osc_rset_hasNext, osc_rset_next, osc_rset_appendResult, osc_rset_select, osc_rset_addCompleteMatch, osc_rset_addPartialMatch, osc_rset_addUnmatched, osc_rset_result_getPrev", "osc_hashtab.c: osc_hashtab_store, osc_hashtab_clear", "osc_bundle_s.c: osc_bundle_s_appendMessage_b, osc_bundle_s_deepFree"]}
{"id": "C103", "title": "Time tags taken from the clock are near the clock and in its order", "statement": "The time tag that now gives is at most eight microseconds away from the clock, two of them compare as their times do, and none is the one that means immediately. The first two hold except in the last seven microseconds of every second, when the fraction wraps around and the time tag is almost a second too early; from 2036 on time tags begin again at 0. Unix time converted to a time tag and back is the same time, exactly if the local time is between 1900 and 2036.", "quantifier": "every reading of the clock from 1970 to 2036, every pair of readings, every unix time, time zones of up to 10000 minutes with or without daylight saving", "why_tests_cant": "Seven microseconds in a second are hit by one call in 140000; the order is a statement about all pairs.", "anchors": ["osc_timetag.c: osc_timetag_now, osc_timetag_compare, osc_timetag_isImmediate, osc_timetag_ut_to_ntp, osc_timetag_ntp_to_ut"]}
{"id": "C104", "title": "A clone of a linked list has the copies in order and shares nothing with the list", "statement": "Cloning a linked list gives a list with the copies of the data in the same order, without those that the copying function left NULL; the list itself is unchanged. Afterwards both can be used in any way, in turn: operations on the one never change the other, and each stays a well formed list. Cloning NULL, which the other functions accept as an empty list, reads through it.", "quantifier": "every list made by any history of operations, every copying function, every interleaving of later operations on the list and the clone", "why_tests_cant": "Independence is about all later histories of both lists.", "anchors": ["osc_linkedlist.c: osc_linkedlist_clone, osc_linkedlist_cloneCallback, osc_linkedlist_iterate, osc_linkedlist_append"]}
{"id": "C105", "title": "A record of a function gives back what was set last, and freeing it frees each block once", "statement": "After any sequence of calls that set the name, the signature, the required and the optional arguments of a record of a function, the getters give what was set last, the copies being the record's own. Freeing the record never frees a block twice; nothing is left exactly if no call overwrote what an earlier call had set, otherwise the overwritten copies are lost. A call that sets argument types without names does nothing.", "quantifier": "every sequence of setting calls with every text, every list of names (NULL members included) and types or none", "why_tests_cant": "Leaks and double frees depend on the whole history of calls.", "anchors": ["osc_expr_rec.c: osc_expr_rec_alloc, osc_expr_rec_free, osc_expr_rec_setName, osc_expr_rec_setSignature, osc_expr_rec_setArgs, osc_expr_rec_setRequiredArgs, osc_expr_rec_setOptionalArgs, osc_expr_rec_getName, osc_expr_rec_getRequiredArgsNames"]}
{"id": "C106", "title": "A copy of a record of a function shares nothing with the source", "statement": "Copying a record of a function into a new one gives a record with the name, signature, argument names and numbers of the source, but without the argument types; the source is unchanged. Whichever of the two is freed, the other still has what it had, and no block is freed twice when both are freed in either order. This holds exactly if every optional argument has a name: if one has none, freeing the copy goes through a pointer that was never written.", "quantifier": "every record made by any sequence of setting calls, both orders of freeing", "why_tests_cant": "Sharing and double frees show only for particular histories; an unwritten pointer may happen to be NULL in a test.", "anchors": ["osc_expr_rec.c: osc_expr_rec_copy, osc_expr_rec_free"]}
{"id": "C107", "title": "The numbers of an array of atoms as an array of numbers", "statement": "Each of the functions that put an array of atoms into an array of doubles, floats, 32 or 64 bit integers, with or without sign, or truth values puts, in order, the number the getter of that type gives for each atom: into a new array of exactly as many members if none is given, otherwise into the first members of the given one, whose other members stay. A given array that is too short is written past its end. With more than INT_MAX atoms the calls are undefined.", "quantifier": "every array of atoms whose getters are defined, every given array or none", "why_tests_cant": "All lengths, types of atoms and sizes of the given array.", "anchors": ["osc_atom_array_u.c: osc_atom_array_u_getDoubleArray, osc_atom_array_u_getFloatArray, osc_atom_array_u_getInt32Array, osc_atom_array_u_getInt64Array, osc_atom_array_u_getUInt32Array, osc_atom_array_u_getUInt64Array, osc_atom_array_u_getBoolArray"]}
