# Design of the formal model of CNMAT/libo

## What is built

`/verif/rocq/theories` contains, for each area of the library, up to four kinds of files:

* `*Model.v`  - Gallina transcriptions of the C functions, one definition per
  function, each with a comment citing file and lines in `/repo`. No proofs.
* `*Spec.v`   - small specifications written without looking at the model's
  helpers (pattern language, OSC 1.0 encoding, calendar, finite maps, lists).
* `*Proofs.v` - lemmas.
* `*Props.v`  - the property theorems, each followed by
  `Print Assumptions` and an `Example` showing a concrete case that meets the
  hypotheses.

## Conventions of the model

* A C `char`, byte or integer is a `Z`. Bytes of buffers are in `[0,256)`;
  wrap-around is written explicitly (`u32`, `s32`, `u64`, ...).
* A C string is the list of its characters before the NUL. Reading index `i`
  yields the character, or 0 at the terminator, or the outcome `Ub OOB` beyond.
* A buffer is a list of bytes with an explicit length; a read or write outside
  is the distinct outcome `Ub OOB`. Nothing is silently total.
* Loops are structural recursion where the C loop has an obvious variant, and
  otherwise the `while` combinator of `Base.v` with binary fuel and the distinct
  outcome `Fuel`; theorems then exclude `Fuel`.
* Linked structures (`osc_linkedlist`, argument list of `t_osc_msg_u`, message
  list of `t_osc_bndl_u`, hash table chains) are modelled in an explicit heap
  with allocation, freeing and use-after-free as an outcome.
* The host is little-endian with 32-bit `int`, 64-bit `long`/pointers, signed
  `char` (x86-64 Linux/macOS), which is what the library is built for.

## Plan per property

| id | what is modelled | how it is proved |
|----|------------------|------------------|
| C01 | `osc_match`, `osc_match_range` as a stack machine over two strings with bounds-checked reads | invariant (offsets within strings), termination measure: weight of the backtrack stack |
| C02-C04 | same model; separate language of patterns (tokens, membership relation) | simulation of the stack machine against the membership relation, induction on the weight |
| C05 | `osc_util_get*` with the 32-bit mask | arithmetic |
| C06 | `OSC_BYTE_SWAP*`, memory layout on a little-endian host, `osc_mem_encode/decodeByteorder` | arithmetic on base-256 digits |
| C07-C09 | `osc_timetag_*` on pairs of 32-bit words | arithmetic modulo 2^64 |
| C10 | `osc_timetag_toISO8601/fromISO8601` up to printing of the numeric fields | computation over all 49711 days of the 32-bit range (exhaustive, lifted by a lemma to all seconds) against a separate Gregorian calendar |
| C11-C14 | `osc_*_u_nserialize` on tree-shaped values; separate OSC 1.0 encoder | mutual induction over nested bundles |
| C13 | `osc_*_s_deserialize` on byte buffers | same induction |
| C15-C17 | sanity check, iterators, message count on byte buffers | induction over the walk |
| C18-C24 | `osc_message_s_*`, `osc_bundle_s_*` on byte buffers, related to the OSC 1.0 encoder | induction over message lists |
| C25, C26, C30 | heap model of the doubly linked lists | representation invariant preserved by each operation, lifted to histories |
| C27, C28 | atom getters/setters as functions of type tag and word | arithmetic |
| C29 | hash table with chains | refinement to finite maps over histories |
| C31 | `osc_array_*` over byte buffers | list lemmas |
| C32 | `osc_strfmt_*Meta*` | list induction |
| C33, C34 | query and dispatch over message lists | induction over messages and selectors |
| C35 | `osc_serial_processByte` | invariants of the state machine |
| C36 | type tag tables | exhaustive over the finite table |
| C37, C39 | the infix operators of the expression language on atoms, and their element-wise application to lists | case analysis over the types, arithmetic; induction over the lists |
| C38 | list functions of the expression language over arrays of atoms | loop lemmas (a loop that fills an array with copies), induction |
| C40 | explode / flatten on bundle objects, lists of messages with nested bundles in their arguments | the plain messages a nested bundle stands for (`meaning`) are invariant; induction over address components and nesting |
| C41-C43 | `osc_bundle_s_addressIsBound`, `osc_bundle_s_getFirstFullMatch`, `osc_bundle_s_wrapMessage` | induction over message lists |
| C44, C45 | C conversions between integers and floating point as functions on bit patterns | rational value of a bit pattern; rounding theorem against a separate definition of round to nearest even |
| C46 | `strtol`-like reading of decimal, octal and hexadecimal numerals | induction over the digits |
| C47, C48 | negation and truth value of atoms | arithmetic |
| C49 | printing of integers, strings, blobs into buffers | list induction, reading the digits back |
| C50 | comparison operators of the expression language | numbers of every type as rationals, infinities and NaN; order of doubles proved equal to the order of their values |
| C51 | double addition, subtraction, multiplication, division on bit patterns | exact rational results, a sticky bit lemma, the rounding theorem |
| C52 | `+` on strings | list lemmas, the text of C49 |
| C53 | `&&`, `||`, `!`, `nonzero`, assignment to indexes | truth value as a relation to numbers; loop lemmas |
| C54 | union and intersection of bundle objects | induction over the messages |
| C55, C56 | `format`, `nformat`, `getFormattedSize` of objects and of serialized data | a printer prints a text into any room that is large enough, composed along the structure of the data |
| C57, C58 | the evaluator with its special functions and the function table | a big-step semantics over values and messages; every rule is simulated by the evaluator on represented data; quiet expressions by induction on the recursion |
| C59-C61 | assignment, `if`, `andalso`, `orelse`, `map`, `lreduce`, `rreduce` | consequences of C57 and list lemmas |
| C62 | the function table with the arithmetic and list functions | C37-C39 and C50 on represented values |
| C63 | sum, product, mean, dot on the double arithmetic of C51 | induction over the members with an accumulator; exactness of integers of 53 bits |
| C64 | min, max, extrema, range | invariant of the scan: the best so far is the last best member |
| C65 | clip, sign | member by member from the order of C50 |
| C66 | sort, sortidx, median over an arbitrary qsort that satisfies the C standard | consistency of the comparison functions; permutations lifted to values |
| C67 | strlen, strcmp, strchar, typetags on the texts of C49 | member by member |
| C68 | strfind with strstr | invariant of the search; greedy covering is unique |
| C69 | split with strtok_r and the growing array | induction over the string; decomposition is unique |
| C70 | join with its buffer | invariant of the printing loop; composition with C69 |
| C71 | the functions for one and two doubles with the library function as parameter | member by member; pairs as in C39 |
| C72 | aseq, cumsum | the rounded quotient has the floor of the exact one; induction over the terms and prefixes |
| C73 | bitand, bitor, byte order | bit by bit and byte by byte |
| C74 | % through fmod in doubles | exactness of each step below 2^53 |
| C75 | plus1, minus1, cross, scale | case per type; each rounding as in C51 |
| C76 | casts to integers, floats, doubles and booleans | member by member; C44-C46 for the conversions |
| C77 | casts to strings and blobs with their buffers | case per type; induction over the bytes |
| C78 | dynamic cast | the same casts behind the choice of the type |
| C79 | match | composition with C01/C02; invariant of the three lists |
| C80 | bundle, readstring | induction over the arguments; composition with C13 |
| C81 | scanner with its buffer, parser | invariant of the buffer per rule; every match consumes a character |
| C82 | the same | regular expressions by derivatives, matched against their meaning; longest match and rule order per kind of token; grammar by mutual induction |
| C83 | the same | soundness of the parser: what it accepts is in the grammar |
| C84 | the same after the formatter | induction over values and messages; composition with C55 |
| C85 | expression scanner and parser, the reductions with their arity check and the table of functions | precedence climbing against a grammar of syntax trees with ranks: induction over the size of a tree; the table's numbers of arguments against names grouped by them (AritySpec.v) |
| C86 | the same | soundness (what the parser reads is the tokens of a well-formed tree) and enough fuel, by induction over the fuel; for safety which trees can have no value |
| C87 | the rules of the expression scanner over derivatives of regular expressions | one lemma per kind of token about longest match and rule order |
| C88 | parseFunction, the three productions of lambda | as C85 and C86 |
| C89 | osc_expr_specFunc_eval of one string: the reader of C85 and the evaluator of C57 joined (RunModel.v) | the tokens of the text carry well-formed literals (says_good), their meaning does (meaning_lits), so C85 and C57 compose; arithmetic by induction on the expression |
| C90 | the typed functions append/prepend/insert of a message, the iterator, the arrays of arguments (BuildModel.v), on the doubly linked list of the heap model (HeapModel.v) and the atom setters (SerialModel.v) | each typed value makes an atom that holds it (C12, C13); the list invariant of HeapProps is kept by each call, and the atoms follow the values; then C12's encoding |
| C91 | /a./b and /a./b = x (MemberModel.v) beside the evaluator (EvalModel.v) | a relation between the arguments, the bundle, the result and the new bundle (MemberSpec.v), built on the semantics of expressions (EvalSpec.v); the code follows it, by the simulation of C57 for what is evaluated and lemmas on opening and putting back the nested bundle; read after write from the lemma on stored messages of C59 |
| C92 | osc_bundle_s_flatten and osc_bundle_s_explode (TreeModel.v): deserializer (WireModel.v), tree operation (FlattenModel.v), serializer (SerialModel.v) | composition of C13, C40 and C12; the conditions of C40 are carried over from the bytes to the objects |
| C93 | osc_expr_format_r, osc_expr_format (ExprShowModel.v): the buffer, the position, and when the block is resized | structural induction over expressions with the lemma that printing appends; then over the lines; the text is that of ExprShowSpec.v |
| C94 | the questions of osc_bundle_u.c:134-248 and the functions adding copies, 336-374 (AskModel.v), with the growing result array | induction over the messages with an invariant on the array; composed with C12 and C20 for the agreement with the bytes |
| C95 | memory as a map from addresses to blocks (expressions, arguments, atoms, texts, records of functions), the copying and freeing functions on it, and a predicate saying that an expression lies at an address in a list of blocks | by induction on expressions; loop lemmas for the list of arguments and for linked expressions say which next pointer is still to be set |
| C96 | the memory of C95 and the functions that link lists of arguments | walking a list of arguments by induction; the last argument found is the only one whose next pointer changes |
| C97 | memory as a map from addresses to blocks (bundles, messages, atoms, texts, blobs), the freeing, clearing, copying and replacing functions on it, and a predicate saying that a bundle lies at an address in a list of blocks | by induction on bundles, messages and arguments together; a frame lemma and lemmas for the linked lists |
| C98 | the names in memory with sizes, entries with pointers to their names, chains of keys that are pointers to names; whether realloc moves and which slot a name falls into are parameters | a table filled by adding satisfies an invariant; what the keys say after the name was overwritten decides each search |
| C99 | an atom as typetag, word and the flag alloc; memory as a map from addresses to strings, blobs and bundles; histories of the calls that set an atom | an invariant says what the atom holds and which blocks are there; by induction on histories |
| C100 | The buffer as bytes with its claimed size, growing; invariant of the loop over the members: what is written so far and the size of the block | induction over the members with the lengths of the texts (C49) as the only thing the growth depends on |
| C101 | The array of the tokens as it grows by 64, with the pointer the scanner writes through taken before the array grows; the scanner of C87 instrumented with whether it made an atom of its own | invariant of the loop: the members done, the cleared members left, the size a multiple of 64; the regular expression of escapes needs a backslash |
| C102 | Memory with the texts, bundles and linked results of a set; the table as the sequence of its elements with the addresses of their keys | invariant: the results form a doubly linked chain, own disjoint blocks, the table has exactly them, and memory has nothing else; preserved by every call, whatever the iterator is; freeing by induction over any permutation of the table |
| C103 | The arithmetic of the conversions with every wrap-around, the reading of the clock as an argument | linear arithmetic after showing by how many multiples of 2^32 each sum wraps |
| C104 | The loop of iterate with the callback of clone in the heap of C30 | invariant of the loop: the rest of the list is intact, the clone holds the copies so far, new places only; frame property of every list operation, then induction over the interleaving |
| C105 | The record with a memory of texts, arrays of names and arrays of types | invariant with footprint: the blocks in memory are those of the record plus the lost ones, without repetition; freeing frees the first and leaves the second |
| C106 | The copy in the memory of C105 | a copy amounts to a sequence of setting calls on a new record in the memory of the source; the invariant of C105 holds for each of the two with the other among the blocks it does not own |
| C107 | The loop over lists of cells, with the getters of AtomUModel.v | induction over the atoms with the cells already written |

Statements that turn out false of the code are kept, proved on the exact domain
where they hold, and refuted outside it by a witness (`_refuted`); these are the
findings listed at the end of this file.

## Trusted base

* The Coq 8.16.1 kernel, including `vm_compute` (used in examples, in
  refutations by a witness and for the finite tables of C10 and C36).
* The hand transcription from C to Gallina in the `*Model.v` files, and the
  specifications in the `*Spec.v` files and at the head of the `*Props.v` files.
* The platform: x86-64 little-endian, `int` of 32 and `long` of 64 bits, signed
  `char`, two's complement, IEEE 754 with round to nearest even, glibc's
  `realloc(p, 0)` returning NULL.

### Axioms

`Print Assumptions` stands under every theorem named in `MANIFEST.json` and
prints `Closed under the global context` for each of them: no theorem rests on
any axiom. The development defines none, and imports only the standard library
(`ZArith`, `List`, `Bool`, `Lia`, `QArith`, `Permutation`, ...).

`coqchk` and `vcheck` list seven constants `Coq.ssr.ssrunder.Under_rel.*`. They
are the opaque module type fields of a file of the standard library's ssreflect
plugin that is loaded with `Lia`'s dependencies; no theorem here uses them, as
`Print Assumptions` shows.

## What is modelled, and where

| C source | functions | model |
|----------|-----------|-------|
| osc_match.c | `osc_match`, `osc_match_range` and the backtrack stack | MatchModel.v |
| osc_util.c, osc_byteorder.h, osc_mem.c | padding, byte order, sizes of types, `osc_mem_encode/decodeByteorder` | UtilModel.v |
| osc_timetag.c | arithmetic, comparison, codec, ISO 8601 (NTP format) | TimetagModel.v |
| osc_typetag.c | order and promotion of type tags | TypetagModel.v |
| osc_atom_u.c | setters, getters, conversions, negation, truth, text | SerialModel.v, AtomUModel.v, FloatModel.v, StrfmtModel.v |
| osc_atom_s.c | integer getters, text, deserialization | AtomSModel.v, StrfmtModel.v, WireModel.v |
| osc_message_u.c | argument lists (heap), serialization, deep copy, explode | HeapModel.v, SerialModel.v, FlattenModel.v |
| osc_message_s.c, osc_message_iterator_s.c | wrapping, argument access with its caches, renaming, iteration | WireModel.v, BundleSModel.v |
| osc_bundle_u.c | message lists (heap), serialization, flatten, explode, union, intersection, lookup | BundleUModel.v, SerialModel.v, FlattenModel.v |
| osc_bundle_s.c, osc_bundle_iterator_s.c, osc_error.c | validation, count, iteration, lookup, add, remove, replace, set operations, concatenation, deserialization | WireModel.v, BundleSModel.v |
| osc_linkedlist.c | all but printing | HeapModel.v |
| osc_hashtab.c | all but printing | HashModel.v |
| osc_array.c | all | ArrayModel.v |
| osc_strfmt.c | quoting, numbers, strings, blobs | StrfmtModel.v |
| osc_atom_u.c, osc_message_u.c, osc_bundle_u.c, osc_atom_s.c, osc_message_s.c, osc_bundle_s.c | format, nformat, nformatNestedBndl, getFormattedSize | FormatModel.v |
| osc_query.c, osc_rset.c | select and result sets (without the undefined NEST option) | QueryModel.v |
| osc_vtable.c, osc_dispatch.c | add, rebind, dispatch | DispatchModel.v |
| osc_serial.c | `osc_serial_processByte` and its states | StreamModel.v |
| osc_expr.c | infix operators, element-wise application, list functions | ExprModel.v, ExprListModel.v, FArithModel.v |
| osc_expr.c, osc_expr_func.h | evaluation, special functions, function table | EvalModel.v, EvalStdModel.v |
| osc_expr.c | sum, product, mean, median, dot, min, max, extrema, range, clip, sign, sort, sortidx | StatModel.v |
| osc_expr.c | typetags, strcmp, strlen, strchar, strfind, split, join | FnStrModel.v |
| osc_expr.c | functions of one and two doubles, ilogb, jn, %, plus1, minus1, cumsum, aseq, bitand, bitor, hton/ntoh, cross, scale | FnNumModel.v |
| osc_expr.c, osc_atom_u.c | explicit casts, dynamic cast, readstring, match, bundle; getBlobLen, getBlobCopy, setBlobPtr, setBndl_s | FnCastModel.v |
| osc_scanner.l, osc_parser.y | all rules, productions and actions; the code flex and bison generate is what the model says: longest match, first rule on ties, unmatched characters are printed, an LALR(1) parser without conflicts accepts the grammar, default reductions before the error | ScanModel.v |
| osc_expr_scanner.l, osc_expr_parser.y | all rules, productions and actions; precedence declarations by comparing levels as bison does; copies of arguments are the same arguments; which messages go to the error handler, source locations and the bison stack limit are not modelled | ExprParseModel.v |
| osc_expr.c:1519-1611 osc_expr_specFunc_eval | with one string (RunModel.v); several strings or blobs are not; an expression with NULL in it is taken as undefined behaviour at once |
| osc_message_u.c: the typed append/prepend/insert functions, getArgArrayCopy, setArgArrayCopy, allocWithAddress and allocWith*; osc_message_iterator_u.c | BuildModel.v. What malloc returns is given with each call. insertStringPtr copies the string instead of keeping the pointer, and insertString and prependString make a second copy which leaks; what the message holds is the same, so the model does not distinguish them |
| osc_expr.c:1739-1992 osc_expr_specFunc_getBundleMember, assignToBundleMember; osc_atom_s.c:629-645 osc_atom_s_getBndlCopy | MemberModel.v. Not cases of the evaluator: a member inside of another expression is not modelled. A computed member name that is not a string is not modelled. |
| osc_bundle_s.c:541-591 osc_bundle_s_flatten, osc_bundle_s_explode | TreeModel.v. Leaks are not modelled. |
| osc_expr.c:6867-6953 osc_expr_format_r, osc_expr_format | ExprShowModel.v. Arguments that are lists of atoms (6886-6897) are not made by the parser and left out. |
| osc_bundle_u.c:134-248 addressExists, addressIsBound, getFirstFullMatch, lookupAddress; 336-374 addMsgCopy, addMsgWithoutDupsCopy, addMsgArrayCopy; osc_bundle_iterator_u.c | AskModel.v. The bundle is the list of its messages; its links are in BundleUModel.v. |
| osc_expr.c:6451-6537, 6539-6588, 6797-6836; osc_expr_rec.c:8-120 (TreeHeapModel.v) | osc_expr_copy, osc_expr_copyAllLinked, osc_expr_appendExpr, osc_expr_free, osc_expr_arg_copy, _clear, _free, _freeList, osc_expr_rec_copy, osc_expr_rec_free. An atom with its string and a record with its names are one block each; the record of a function of the table is its name; malloc never gives an address twice. The copies of the types and of the categories of a record's arguments are not modelled (osc_expr_rec_copy does not make them) |
| osc_expr.c:6605-6687 (ExprArgsModel.v) | osc_expr_setArg, osc_expr_prependArg, osc_expr_appendArg, osc_expr_getArgs, osc_expr_getArgCount; argc is not bounded |
| osc_atom_u.c:50-116; osc_message_u.c:52-131, 245-259; osc_bundle_u.c:53-82, 274-301 (BundleHeapModel.v) | osc_atom_u_free, osc_atom_u_copy, osc_message_u_free, _clearArgs, _deepCopy, _appendAtom, osc_bundle_u_free, _clear and the replacing branch of osc_bundle_u_addMsg_impl. The prev pointers, and the cached strings of atoms, are not modelled; copying a bundle argument is a parameter; malloc never gives an address twice |
| osc_vtable.c:38-52, 78-115, 132-134, 175-189; osc_hashtab.c:138-162, 184-211, 220-261 (VtRenameModel.v) | osc_vtable_renameEntry with the memory of the names, on top of adding and searching. The array of entries has room (its moving is in DispatchModel.v); the slot of a name is a parameter; the old name given does not alias the name of the entry |
| osc_atom_u.c:38-43, 50-71, 118-141, 1010-1258 (AtomOwnModel.v) | osc_atom_u_alloc, _free, _clear, _setShouldFreePtr and all the functions that set an atom, as far as memory goes. A bundle is one block; a bundle object given to an atom is made for it; the string given is not the one the atom has |
| osc_atom_array_u.c:152-189 getStringArray (ListTextModel.v) | allocation succeeds; a room that is no int counts as undefined |
| osc_expr.c:1611-1642 specFunc_tokenize, 1995-2116 osc_expr_lex (TokenizeModel.v) | evaluation of the argument is that of the other functions (C57); leaked copies left out |
| osc_rset.c:50-292 with links, iterator and free (RsetHeapModel.v) | NULL arguments; the slots of the table and its own memory; a bundle and its buffer are one block; numselectors does not wrap |
| osc_timetag.c:570-621 ut_to_ntp, ntp_to_ut, now (ClockModel.v) | gettimeofday is an argument; time_t and suseconds_t have 64 bits |
| osc_linkedlist.c:82-100 clone (CloneModel.v) | the copying function does not touch the elements; the destructor of the clone |
| osc_expr_rec.c:8-65 alloc and free, 122-199 the setters, 218-280 the getters (FunRecModel.v) | function, extra, documentation and categories |
| osc_expr_rec.c:67-118 copy with *dest NULL (RecCopyModel.v) | copy_extra, the documentation, copying into an existing record |
| osc_atom_array_u.c:61-150 the arrays of numbers (NumArrayModel.v) | getStringArray (152-190) |

## Not modelled

Memory exhaustion (`osc_mem_alloc` is taken to succeed; allocation of a negative
size fails), sums of sizes that wrap a 64-bit `size_t`, memory leaks except where
a heap model shows them, printf of floating point, the flex/bison scanner and
parser of the legacy language, and the built-in functions that only call the C
library (`sin`, `cos`, ...), threads (the library has none of its own), the wall
clock (`osc_timetag_now`), `osc_expr_u.c` and `osc_expr_rec.c`, SWIG bindings.

## Findings

Where the code does not do what its users would expect. Each is a theorem whose
name is given, or was seen while transcribing and is part of the model.

* Matching: an empty alternative in `{}` is not matched completely (C02); the
  matcher gives up after a fixed number of backtracks and reports an error, which
  the query takes for a partial match (C33).
* Byte order: tags `A a e q` have no size and make the encoder undefined (C06).
* Time tags: subtraction gives the absolute difference (C07); the calendar is
  wrong for some dates (C10).
* Serialization: a number stored into an atom that held a wider one keeps stale
  upper bits (C12); a string of 2^32-4 bytes or more and a nested bundle that
  falls through write outside or their own pointer (C14).
* Validation: sizes with 1 to 3 trailing bytes read out of bounds, sizes near
  2^31 overflow `int`, unterminated addresses are accepted (C16); walks that do
  not validate loop on negative sizes.
* Deserialization: unknown tags, addresses without slash and the time tag of the
  header are lost (C13).
* Argument access: re-wrapping keeps a stale cache; `getTypetag(-1)` is the
  comma; a cached index of -1 reads out of bounds (C18).
* Renaming or stripping a message without type tags reads through NULL (C19, C33).
* Lookup: a malformed pattern hits every message when partial matches are
  allowed (C20); `addressIsBound` uses the padded length of the pattern (C41).
* Set operations: an empty result has an uninitialised time tag, messages whose
  addresses are patterns get lost (C23, C54); wrapMessage leaves the time tag
  uninitialised (C43); union with a first bundle of length 0 has no header;
  `setBundleID_b` writes past a short buffer; `allocEmptyBundle` uses an
  uninitialised pointer; appending a message that lies inside the bundle dangles
  after `realloc`.
* Argument and message lists: a negative insert position loses the atom,
  re-inserting a removed atom at the end gives a cyclic list, a negative index
  gives the first argument (C25); `removeMsg` leaves the count too high, replace
  and remove by address crash on a message without address, `addMsgList` drops
  the messages present (C26); `osc_message_u_append` does not set the back link.
* Hash table: 152287 or more slots read past the prime table, a key looked up
  with another length is not found, `storeSafe` leaks (C29).
* Atoms: reading serialized 8 and 16 bit numbers as wider ones loses the sign or
  reads 8 bytes (C28); 8 bit reads of a string give its first character (C46);
  `getBlobCopy` of an int64 copies its low half; numbers below 100 of type uint8
  are cut off as text, strings that do not fit are not terminated (C49);
  `strfmt_blob` overflows with a small buffer.
* Arrays: negative indexes, `copyInto`, `resize` to nothing (C31).
* Quoting: with too small a buffer the terminator is written outside;
  `addQuotesAndQuoteMeta` overflows its allocation by one byte (C32).
* Query and dispatch: stripping uses the wrong offset for patterns, a growing
  table dangles, a rest of one slash leaves an uninitialised array, a header-only
  bundle gives a NULL bundle, a NULL method is called (C33, C34).
* Byte-wise validator: errors are forgotten, braces with commas, blobs and sizes
  of 256 are rejected, after a 128-byte message everything is accepted unread
  (C35).
* Type tags outside the list compare inconsistently (C36).
* Expressions: signed overflow, 64-bit subtraction truncated to 32 bits, uint8
  division done as int8, INT_MIN / -1, True + True leaves a result without type,
  operators on a single element and an empty list get NULL, `nth` truncates
  64-bit indexes, `!` of 64-bit multiples of 2^32 and of small integers is wrong
  (C37-C39).
* Flatten reads a freed argument, explode recurses for ever with separators other
  than the slash and loses data when one address continues another (C40).
* Expressions: integers beyond 53 bits compare equal after rounding, `!=` with
  nil and `==` of a string and a number are errors, division of anything by a
  zero of floating type gives the string Inf (C50, C51).
* Formatting: a buffer that is too short is written behind its end, a bundle
  without messages leaves the returned block uninitialised, a message without
  address prints through NULL, an empty blob reads out of bounds, serialized
  bundles with an address without slash have no text (C55, C56).
* Evaluation: `if` with a test without values writes outside of a variable length
  array, an assignment to indexes whose right hand side makes the bundle grow
  uses the old block after it was freed, an assignment to indexes through a
  pattern renames the message to the pattern, functions passed to `map` and the
  reductions lose their list constants, a string that is the name of a variable
  in scope is replaced by its value, `settimetag` with something else than a time
  tag sets the time tag 0 (C57, C59-C61).
- `product` never switches to double, so a product of floats is truncated to an
  integer (0.5 * 3 is 1); `sum` and `product` of integers below -2^31 convert out
  of range, which is undefined; so do exactly 2^63 and 2^64 (C63).
- `min` of a list of plus infinities (`max` of minus infinities) returns an atom
  without type; `range` of an empty list converts minus infinity to an int (C64).
- The comparison function of `sort` returns 1 for two equal numbers in either
  order, which qsort does not allow; `median` of an empty list reads outside its
  array (C66).
- `strcmp` of an argument without members hands a null pointer to
  the C library (C67).
- `join` with an empty first argument frees a string literal, with nothing to
  join it returns an uninitialised string, and it loses uint8 members below 10,
  whose buffer is too small (C70).
- The functions of one double and `plus1`, `minus1` read their first argument
  before looking whether there is one (C71, C75).
- `bitand` and `bitor` store a uint8 result as int8; a float among members that
  are not looked at leaves the result without type (C73).
- `hton64` turns every integer into a uint64, so that the way there and back does
  not return an int64 (C73).
- `plus1` and `minus1` treat int64 as uint32, uint32 as int64, and give an atom
  without type for smaller integers (C75).
- The string cast writes a character of -100 or less into four bytes and loses
  its last digit (C77).
- The blob made of a list of numbers has no NUL behind it, so that its cast to a
  string reads past its end (C77).
- The dynamic cast of a text to a blob writes four bytes past the block it has
  allocated, and the blob of a 64-bit integer has its lower 32 bits only (C78).
- `match` reports a wrong number of arguments and goes on to read the second one
  (C79); `readstring` reads its first argument before looking whether it is there.
- `bundle` of a blob starts at the size field of the blob, which gives a message
  without address in front (C80).
- The text parser delivers the bundle together with the error when complete
  messages come before it (C83), so that `osc_parser_parseString_r` does not show
  the error at all.
- An address takes everything up to white space: in `[/a]` the bracket, in `/a:1`
  the colon and the number (C82 asks for white space therefore).
- A character of 128 or more outside of quotes ends the text silently.
- The text of a blob cannot be read, 64-bit integers are read with 32 bits (C84).
- The operator `^` and the member operator `.` are not in the table of functions:
  `2 ^ 3` and `/a./b` are accepted with code 0 and give no expression at all;
  `/a ^= 2` gives an assignment of nothing (C85).
- `1 + 1, /a./b` appends NULL to a list and dereferences it (C86).
- `6/2` is the number 6 and the address /2, an error; so is `[1, [2, 3]]`, where `]]`
  is one token. `(1)` and `(/a)` are errors, `(1 + 1)` is not (C86).
- A comma may stand in front of the first expression, not after the last. A
  semicolon has a token and no production.
- `quote(` without its closing parenthesis ends the text without an error, and a
  string without its closing quote is complete (C87). A backslash is only undone in
  front of a quote, and one earlier in the string prevents even that.
- Indexes with a colon (`/a[[1:2]]`) can only be assigned to.
- In the body of a lambda with parameters in brackets an argument that is no
  expression (a number or a name), when others follow, is put into a new expression
  without being taken out of its list, and is freed or used twice later (C86, C88).
- eval drops the code of the parser: of a text with a syntax error the expressions before the
  error are evaluated and the result is 0 (C89_syntax_error_refuted).
- /p./q = x with an unbound /p and a bad /q gives a failure code but has appended /p with an empty bundle (C91_no_effect_of_failure_refuted).
- /p./q = x where x evaluates to a string that is the name of a variable in scope stores the values of the variable: the value is evaluated twice (C91_value_refuted).
- e./q = x where the expression e gives the address of the bundle drops the other arguments of that message (C91_rest_refuted).
- /p./q = x where x has no value does nothing and reports success (assign_no_value in MemberSpec.v, C91_assign).
- osc_bundle_s_flatten of a bundle that is nested reads an argument after freeing it (C92_flatten_refuted).
- osc_expr_format (osc_expr.c:6933) resizes its block only while the text is shorter than 256 characters, whatever the length of the expression to come; a longer listing is written past the end (C93_overflow, C93_overflow_refuted).
- osc_expr_format_r (osc_expr.c:6907) closes the parameter list of a function only after its last parameter: a function without parameters is listed with unbalanced parentheses (C93_unbalanced_refuted).
- osc_bundle_u_lookupAddress (osc_bundle_u.c:230) hands a NULL address to the matcher where osc_bundle_u_addressExists passes over such messages (C94_no_address_refuted).
- osc_bundle_u_addressIsBound asks the first match only, osc_bundle_s_addressIsBound all of them: they disagree (C94_bound_refuted).
- C95: osc_expr_arg_copy (osc_expr.c:6806-6831) has no case OSC_EXPR_ARG_TYPE_LIST, although osc_expr_arg_clear frees such lists: the copy of a list argument has type LIST and a NULL list.
- C96: osc_expr_appendArg and osc_expr_prependArg (osc_expr.c:6621-6671) set argc to 1 when the expression has no arguments yet, whatever the length of the list given: two arguments are counted as one, and with NULL one argument is counted that is not there. osc_expr_setArg drops the arguments the expression had without freeing them.
- C97: when osc_bundle_u_addMsg_impl replaces a message (osc_bundle_u.c:286), osc_message_u_deepCopy overwrites (*dest)->address (osc_message_u.c:117-121) with a new text without freeing the old one, so the text of the address is lost each time a message is replaced.
- C98: osc_vtable_renameEntry (osc_vtable.c:181-187) writes the new name over the entry's selector, which is also the key of its element in the hash table, before it removes the element of the old name. osc_hashtab_remove then compares the old name with the new one and removes nothing; if osc_mem_resize moved the selector, it reads the freed one. The new element's key is the caller's new_selector, not the table's copy, against the comment in osc_vtable_addEntry (osc_vtable.c:109-110).
- C99: osc_atom_u_setBlob (osc_atom_u.c:1224-1240) does not set alloc, so osc_atom_u_clear never frees the copy it made: every blob is lost when the atom is set again.
- C99: osc_atom_u_setString (1110-1133), osc_atom_u_setBndl_u (1208-1212) and osc_atom_u_setRec (1252-1258) do not clear the atom: the bundle, blob or string it held is lost; osc_atom_u_setString with NULL loses the string.
- C99: osc_atom_u_free (50-71) does not look at alloc: strings and blobs given by osc_atom_u_setStringPtr and osc_atom_u_setBlobPtr are freed with the atom although the caller owns them.
- C99: osc_atom_u_clear (135-138) frees a blob with osc_bundle_u_free, which takes its bytes for pointers.
- osc_atom_array_u_getStringArray does not count the separators and the terminator when it decides whether the block is large enough: with a space as the separator and no block given it writes past the end of the 256 bytes for one text of 255 or 256 characters, and for every list of 128 or more texts of one character (C100_overflow_refuted, C100_one, C100_short). The callers in osc_expr.c (eval, tokenize and compile) hand it lists from bundles received. Without a separator, a number whose text just fills the block loses its last character (C100_cut_refuted).
- osc_expr_lex asks for the next member of the array before it makes the array larger, so the scanner gets NULL for the 65th, 129th, ... token, and a number, name, text or address there is silently lost (C101_long_refuted). The scanner makes an atom of its own for a text with an escaped character, whatever alloc_atom says; for tokenize it is lost and leaked (C101_escaped_refuted). == is given as = (C101_tokenize).
- osc_rset_appendResult, which the header declares, given a result that the set has already runs the destructor of the table on it: the set keeps a freed result, and both going through the set and freeing it touch freed memory (C102_append_again_refuted). The functions that add matches never do this.
- osc_timetag_now multiplies the microseconds by 4295, which is more than 2^32 from 999993 microseconds on: in the last seven microseconds of every second the fraction wraps around and the time tag is almost a second early, so that a later time tag compares as earlier (C103_accuracy, C103_order_refuted).
- osc_linkedlist_clone reads the destructor through its argument without a test, so that cloning NULL is undefined, while the other functions take NULL as an empty list (C104_null_refuted).
- The setters of a record of a function overwrite the old copies without freeing them, so that a name set twice is lost (C105_no_leak_refuted).
- osc_expr_rec_setArgs returns at once without names, so that types given without names are ignored (C105_types_without_names).
- osc_expr_rec_copy leaves the member of the array unwritten for an optional argument without a name (for a required one it writes NULL), so that osc_expr_rec_free of the copy uses an indeterminate pointer (C106_unnamed).
- osc_expr_rec_copy does not copy the types of the arguments (C106_copy).
- The arrays of numbers have no length argument: a given array that is too short is written past its end (C107_arrays).
