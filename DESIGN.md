# Formal model of json_struct: design

Subject: `include/json_struct/json_struct.h` (called H below) and
`include/json_struct/json_struct_diff.h` (called D) of the pinned commit in /repo.
The code was read as text only; nothing was compiled or run.

## Method

* The model is a set of small total Gallina functions over `list byte`, `N`/`Z`/`nat`,
  one per C++ function, each with a comment citing the lines it follows and its simplifications.
* Model files (`*Model.v`, `Base.v`) contain no proofs. Specifications live in `*Spec.v` files
  that do not use the model's helpers. Proofs are in the other files. `Prop*.v` files contain
  only the final theorems, their non-vacuity `Example`s and `Print Assumptions`.
* Undefined behaviour (out-of-range access, division by zero, shift past the width, signed
  overflow) is a distinct outcome `UB` wherever the modelled code can reach it.
* Loops are structural recursion or carry fuel; running out of fuel is the distinct outcome
  `OutOfFuel`, which the theorems exclude.
* When the code violates a property, the property is kept as stated, a theorem
  `..._refuted` gives a witness checked by computation, and the strongest true part is proved
  as `..._partial`.
* Theorems are tested against wrong programs: `seeded/LOG.jsonl` lists edits of the model, the
  theorems each of them breaks, and the theorems added because an edit broke none.

## Plan per property

| id | what is modelled | how it is proved |
|----|------------------|------------------|
| C01 | tokenizer state machine (H 1584-2800), all options, list of buffers, every instruction-set variant | loops as structural/fuelled recursion; measure = bytes left; cursor invariant |
| C02 | same | invariant: container stack = open brackets of the emitted prefix |
| C03 | same, plus an inductive grammar of JSON texts with arbitrary whitespace | induction over the grammar derivation, one lemma per tokenizer state |
| C04 | same, tokens carry slice offsets | invariant over calls |
| C05 | same, several buffers | positive theorem for harmless cut points, refutation for the others |
| C06 | vector scanners as lane-wise chunk scans | equality with the scalar scan by induction on chunks; refutation for entry in escaped state |
| C07 | tokenizer | which errors are sticky; refutation for the others |
| C08 | tokenizer + grammar | refutation witnesses; the accepted texts are exactly those of an extended grammar (LenientSpec), which without deviations is RFC 8259 |
| C09 | scope counter (H 1333-1354, 1800-1822) | induction over the tree, width 16 bits explicit; refutation beyond |
| C10 | copy buffers (H 1770-1800, 2474-2503), raw handlers (H 9218-9479) | invariant relating captured text to the input |
| C11 | tokenizer + grammar | corollary of the C03 development quantified over options |
| C12 | tokenizer + grammar extended with comments | as C03; refutation for comments glued to a word |
| C13 | SerializerBuffer / Serializer (H 3095-3450) | refinement to "append to an unbounded output" |
| C14, C15 | serializer + tokenizer | printing lemma: output is a text of the grammar with the same tokens, then C03 |
| C16 | serializer depth (8 bits) | refutation at 256, positive below |
| C17-C20 | escape functions (H 5837-6089) | induction over strings with one-step decoding lemmas; sweep over bytes |
| C21, C22 | integer conversion (H 7902-8260) | digit-list induction, explicit mod 2^64 |
| C23 | big_uint_cmp (H 8278-8362) | multi-word arithmetic invariants |
| C24 | decimal to binary conversion (H 6144-6561, 8019-8116, 8398-8570, 8602-8618) | exact rational specification of IEEE rounding; error bound of the 128-bit loops; for 16 digits a table of neighbouring fractions, checked in Coq, excludes values close to a halfway point but for 33 entries, whose few values are run through the model; floats: the double is within one step of the value, the distance test is exact on powers of two, then C23 decides |
| C25, C54 | printing of doubles and floats (H 6720-7880, 8572-8643) | the digits chosen lie in the rounding interval: table entries checked against exact powers of 5 and 2 for every exponent (continued-fraction style margin), then induction over the digit-removal loops; layout of the text by symbolic execution; reading by C24 |
| C56 | populateEnumNames (H 5560-5600) | the scanner's state at each separator of the list, induction over the list |
| C57 | vectors of tokens (H 9160-9214) | nesting level of the tokens of a value by induction over the value; replay: parsed tokens are a source for C47 |
| C58 | makeErrorString (H 1843-1903, 3907-3955) | which errors a handler can return with which lists, by induction over types; simulation against the handlers without error context |
| C59 | the handlers (C26-C36) of structs that refer to themselves | the finite unrollings of the type; two handlers agree as long as the tokenizer's measure is below the number of unrollings, by induction over types |
| C60 | printing into buffers of any size (C25, C54) | the text is fixed by decode; what is written is a prefix of it, by cases over the place where the buffer ends |
| C55 | umul128 (H 7499-7519) | split into half words |
| C26 | type universe with `to`/`from` for each handler | induction over types |
| C27-C30, C32, C36 | struct, array and optional handlers | induction over members / tokens |
| C31 | TypeHandlerMap::to | fuel-indexed model; refutation: no fuel suffices; for valid documents the brackets of the tokens still to come bound the loop |
| C33 | enum handler | finite map reasoning; refutation for numbers |
| C34 | time_point handler | arithmetic on magnitude ranges |
| C35 | map handlers | composition with C17; refutation for keys that need escapes |
| C37-C39 | metaForTokens, JS::Map | induction over trees / over operation sequences |
| C40 | callFunctions machinery | inductive specification of one member of the call document; simulation of the parsing handlers |
| C41-C44 | json_struct_diff.h | induction over token trees |
| C45 | updateErrorContext | arithmetic invariants of the line scan |
| C46 | resetData | refutation and positive part |
| C47 | handlers | part of the induction of C26 |
| C48 | TypeHandlerSet | induction over arrays |
| C49-C51 | vector, tuple, map and scalar handlers | the denotation of documents as values used for C26-C30 |
| C61 | 128 bit integers (H 8256, 10290-10315) | the integer conversions take the width of the significand as a parameter; C21, C22 and C52 for all five widths |
| C62 | JS::Map from text to text (C37-C39, C57) | kept tokens from any index are a source for C47; setValue composed from writing (C35), reading (C57) and C39 |
| C52 | integers from literals with fraction or exponent | parseNumber characterised for every literal; truncation of a rational |
| C53 | exact layout of pretty and compact output | independent printer, induction over documents |
| C63 | vector scanners instruction by instruction (H 430-1272) | registers as lists of lanes; every mask is all ones exactly in the lanes looked for; movemask and ctz, u32 words and cmpistri find the first lane; refinement of the lane-wise scanners of C06 |
| C64 | reformat on any bytes (H 2905-2944) | composition of C01 (drain terminates), C13 (generous buffers) and C04 (slices do not overlap, so their lengths sum to at most the input's) |
| C65 | a longer buffer keeps the tokens | every finder and scanner that returns a place or a final error returns the same on `l ++ u`; lifted to populateNextTokenFromDataRef, nextToken and a whole drain by induction on the fuel |
| C66 | the macros that list members, super classes and functions (H 4034-4169, 4962-5040) | preprocessor with painting and end-of-replacement marks; a text scanned to the end whatever follows is composed from calls (front_app, front_call); one scan moves one name, EVALn doubles the number of scans by induction |
| C67 | JS::Tuple and its handler (H 2945-3093, 9480-9560) | GenSequence by induction over the halving; exactly one element has an index; TupleTypeHandler<INDEX> against the list handler by induction over INDEX |
| C68 | the recursion over members and super classes (H 4174-4566, 5704-5788) | objects as trees; every template is shown to act on a slice [page, page + count) of the flat lists of members, values and assigned flags; induction over the class tree, inside it over the indices of members and super classes |
| C69 | enums by value and JS::Error (H 4686-4726, 5657-5699) | simulation: the run with these types against the run with integers and strings in their place, by induction over the type, with the loops of vectors, maps and structs; the round trip then follows from C26 |
| C70 | where the tokens of a JS::Map point (H 9784-9788, 9926-10058, 4622-4666) | strings with their storage next to the Map of C39; invariant: the tokens and the elements of json_data split into one slice for each member, a slice with a string of its own or with the text that was read; kept by erasing and by appending; induction over the calls |
| C71 | strings stay UTF-8 (H 5834-6089) | UTF-8 as concatenations of encoded scalar values, with lemmas to cut at ASCII characters; pieces of a text (raw, escape, surrogate pair, surrogate on its own, ...) exist and are unique; reading by strong induction over the text; documents by induction over the grammar; values by induction over the type |
| C72 | addData and resetData with parsed tokens (H 1637-1642, 1659-1670, 1695-1709) | induction over the part of the vector that is left; the handlers through the lemma of C31 for any source of tokens |
| C73 | which texts are numbers (H 7902-8022, 8253-8269, 8562-8654) | the accepted texts as white space, sign and a literal of C52; induction over the digit loop for what it leaves and for what passes it; the exponent part by cases |
| C74 | SerializerContext (H 4621-4660, 3401-3421) | invariant of the string and the buffer in it (sizes n, n, 2n, 4n, ...), open and after a flush, by induction over the writes and calls; the Serializer of SerModel is shown to be a sequence of such writes, part by part |
| C75 | error texts of called functions (H 4799-4809, 5378-5393, 5458-5485, 1319-1326) | the start of each text as a function of how the calls end and of the message left over; induction over the setError calls and over the members |
| C76 | diff of any texts (json_struct_diff.h, H 3767-3811) | metaForTokens over the stack machine of C02: positions, sizes, closed containers; measures for all loops; an invariant "balanced up to the closing bracket" for every position the walk reaches |
| C77 | structs and vectors of kept tokens (H 9191-9213, 5705-5787, 9033-9052) | the tokens handed to the Serializer are those of the document up to the type of empty names, then C14's argument; reading by induction over the members of the object with C57 for each |
| C78 | reads of the unescaping (H 5854-5977) | a second model with positions, sizes and digit arrays; by induction over the rounds it equals the model of C17-C20 unless a separately specified kind of string occurs |
| C79 | numbers of a diff (json_struct_diff.h 438-471) | std::stod after the C and C++ standards on exact values; scanning of a literal by its parts, then C41 and C42 without their assumption about the comparison |
| C80 | writing escapes (H 5982-6089) | the scan with the instructions of C63, the loop with its positions, reads outside of the data undefined; induction over the rounds with the text written so far; refinement of the model of C17-C20 |

## What is modelled and what is not

Modelled (file, lines of H unless marked D):

| part | lines | model |
|---|---|---|
| Tokenizer: all options, buffers, callback, scopes, copy buffers, parsed-token input | 346-377, 1336-1463, 1575-1846, 1910-2806 | TokModel.v |
| scanners: lookup table, scalar, SSE2, SSE4.2, AVX2, NEON variants | 188-213, 379-887, 1923-2155, 2427-2472 | ScanModel.v |
| the vector scanners at the level of intrinsics (the meaning of each intrinsic is written down in the model) | 430-1272 | VecModel.v |
| error context, updateErrorContext, makeErrorString | 1310-1327, 1434-1436, 1594-1596, 1879-1908, 2819-2903 | ErrCtxModel.v |
| messages of ParseContext | 1843-1903, 3907-3955, 4607-4619 | ErrMsgModel.v |
| error texts of callFunctions | 1319-1326, 4799-4809, 5378-5393, 5458-5485 | CallMsgModel.v (how each call ends is given) |
| serializer, options, reformat | 1466-1568, 2905-2944, 3095-3432 | SerModel.v |
| serializeStruct and SerializerContext | 4621-4683 | WriteModel.v; the string and the buffer in it: SerCtxModel.v |
| metaForTokens, JS::Map | 3744-3831, 9784-10073 | MapModel.v |
| JS::Map: reading, castToType, setValue of objects, writing | 9879-10097 | MapUseModel.v |
| ParseContext, parseTo, handlers of structs, scalars (bool, integers, float, double, time points), strings, enums, wrappers, pointers, containers | 3828-3966, 4174-4619, 5705-5832, 6093-6120, 8645-8945, 9008-9160, 9484-9750, 10100-10286 | HandlerModel.v |
| the same handlers for types that refer to themselves (trees, lists) | as above | RecModel.v |
| callFunctions | 4728-5556 | CallModel.v |
| string escapes | 5834-6089 | EscapeModel.v; EscapeMemModel.v (5854-5977 with positions, sizes and digit arrays); EscapeOutModel.v (5982-6089 with positions and vector instructions) |
| integer text, parseNumber, integer conversion | 6128-6142, 6595-6716, 7876-8038, 8140-8276, 10290-10315 | IntModel.v |
| big integers for rounding to float | 8278-8396, 8444-8484 | BigModel.v |
| decimal to double | 6144-6391, 6525-6561, 8019-8116, 8511-8526, 8562-8570 | DoubleModel.v |
| float reading | 8398-8443, 8485-8509, 8528-8549, 8602-8618 | FloatModel.v |
| printing of doubles and floats | 6262-6324, 6393-6465, 6563-6581, 6725-7876, 8126-8132, 8572-8601, 8620-8643 | RyuTable.v, RyuModel.v |
| ryu::to_string | 8134-8141 | BufModel.v |
| names of enumerators | 5560-5621 | EnumModel.v |
| where the tokens of a Map point | 9784-9788, 9850-9852, 9926-10058, 4622-4666 | LifeModel.v |
| JS::Error and enums by value | 4686-4726, 5657-5699 | EnumValModel.v |
| token vectors, JsonTokens; structs of them, writing of vectors of them | 9160-9214 | TokVecModel.v, TokMemberModel.v |
| time points | 8949-9003 | TimeModel.v |
| raw capture | 9216-9479 | CopyModel.v |
| JS::Tuple and its handler | 2945-3093, 9480-9560 | TupleModel.v |
| members and super classes, template by template | 4174-4566, 5704-5788 | ClassModel.v |
| macros and the preprocessor | 4034-4169, 4962-5040 | MacroModel.v |
| diff | D (whole file; std::stod and the tolerance comparison are parameters) | DiffModel.v; std::stod on exact values: StodModel.v |

HandlerModel.v takes a struct as one list of members; that the templates over class trees do the same is C68, that the
macros write these lists is C66.

Not modelled: overload and specialisation choice by the compiler, virtual base classes, memory allocation failure and
exceptions, object lifetime except that of the strings of a Map (C70) and where a dangling reference is a listed finding, locale, the
assert()s of debug builds, and the compile-time configuration other than the instruction-set choice.
Each model file states its own simplifications at its top.

## Findings

Behaviour of the code that contradicts the properties as a user would state them. "(T)" names the theorem
with the witness; findings without a theorem come from reading the code and are not proved.

Tokenizer
* Entering a string scan in the escaped state, the vector scanners overlook the escape: the builds disagree when a
  buffer ends in a backslash (C06_string_scanners_agree_refuted, C06_same_tokens_for_every_build_refuted, C63_string_escaped_refuted).
* A cut between buffers behind an array element replaces the element by an empty string; a cut directly behind a
  member name or its colon loses the name (C05_chunks_refuted, C05_cut_behind_element_refuted,
  C05_cut_behind_name_refuted, C05_cut_behind_colon_refuted). All other cuts are harmless (C05_harmless_cuts_partial).
* allowNewLineAsTokenDelimiter breaks valid documents with line breaks (C11_newline_option_refuted).
* A comment directly after true, false or null becomes part of the word (C12_comment_after_word_refuted).
* After IllegalPropertyName the next call goes on behind the error (C07_errors_are_final_refuted).
* Bare words and much else outside the grammar is accepted (C08_only_json_refuted). The full list, for texts without NUL bytes, is the type `deviation` in LenientSpec.v: junk characters before a value, bare words, a comma before `]`, unnamed arrays and objects in an object, a name without value, bad strings, bad numbers, several roots, an unfinished scalar at the end.
* The scope counter has 16 bits and nested scopes of one type disturb each other (C09_scope_ends_refuted,
  C09_nested_scopes_refuted).
* With comments allowed, `[1/` is reported as ExpectedDelimiter and `[[]/` as InvalidToken although the slash may begin a comment (C65_error_is_final_refuted); findStartOfNextValue does not have this problem.
* resetData in the middle of a document keeps half a state (C46_reset_refuted).
* addData with a vector of tokens in the middle of a text: when the tokens are used up the text is read again from its start
  (C72_text_afterwards_refuted). An empty vector is read out of bounds (C72_empty_refuted).

Error context
* Columns are one too large after a line break, and 0 when all line breaks come after the error (C45_column_refuted).
* T[N] returns ExpectedArrayEnd and maps another error while the message names the error of the tokenizer
  (C58_other_error_refuted); an unknown member of a nested struct becomes UnknownPropertyMember and its name is not
  in the message if the name is long (C58_nested_member_refuted); the message is empty for unknown members when
  track_member_assignement_state is off (C58_untracked_refuted).
* clear() keeps the custom message.  After a function has called setError with a message, a later member that is missing or
  whose argument is refused gets the text `Error NoError <message of the other function>:` (C75_left_over_refuted).
* When the tokenizer fails in an argument the lines around the error are in the text twice (C75_doubled_refuted): add_error
  fills the context a second time.  The text that setError itself stores is made too early, but add_error replaces it.

Raw capture
* Text is appended to what the string already held (C10_replaces_refuted); a failed JsonArray leaves its copy buffer
  registered (C10_failed_array_refuted); a reference over several buffers is undefined behaviour
  (C10_reference_spanning_refuted).

Classes
* A class without members of its own, which only derives from classes with members, does not compile
  (C68_no_own_members_refuted).

Macros
* JS_OBJ, JS_SUPER, JS_FUNC_OBJ and the like take at most 2050 names; with 2051 the expansion ends in a call of
  JS_INTERNAL__IF_JS_INTERNAL_EXPAND, which does not exist (C66_no_limit_refuted). JS_OBJECT has no limit (C66_object).

Serializer
* The depth has 8 bits: 256 nested containers lose the comma logic (C16_deep_nesting_refuted).
* Members with empty names are written without the name (C14_empty_name_refuted, C15_reformat_refuted).
* Pretty followed by setStyle(Compact) keeps the shift size 2 and so the line breaks (C53_compact_with_shift_refuted).
* The second serialize() of a SerializerContext writes behind the end of the string, which flush has cut, unless the text so far
  fills the buffers exactly (C74_second_call_refuted, exact in C74_calls_partial). In practice the characters are in reserved room and the
  following flush overwrites them with NULs. A DefaultCallFunctionContext that executes twice is affected in the same way.

Strings
* Control characters other than \b \f \n \r \t are written raw (C20_no_control_characters_refuted).
* Map keys are written without escapes (C35_keys_refuted).
* A surrogate on its own, as in "\ud800", is read as three bytes that are not UTF-8 (C71_lone_refuted); in every other case a
  UTF-8 text gives UTF-8 strings (C71_read).
* Digits of a bad low surrogate, as in "\ud800\uzzzz", are used without having been stored (C78_only_stored_refuted; exactly the strings of
  C78_undefined). The value is then ignored.

Numbers
* Literals beyond 2^64 wrap around and a minus sign is ignored for unsigned types (C22_int_literals_refuted).
* 0e10 is read as the largest integer, 9e19 wraps around in uint64_t (C52_exponent_literals_refuted).
* 4e38 wraps around in the 128 bit types, as do more than 38 digits from 2^128 on (C61_literals_refuted).
* Doubles: literals with up to 16 digits are right; some with 17 digits (94080055902682397e-242) are not rounded to the nearest double
  (C24_17_digits_refuted); digits after the 19th or 20th are dropped and their weight with them, so
  100000000000000000000 is read as 1e19 (C24_long_literals_refuted); 0e309 is read as infinity, because leading zeros count as
  digits (C24_zero_refuted; by the same rule 0.1e309); 0.0000000000000001e-320 shifts by 64 or more bits and
  0.00000000000000000001 divides by zero (C24_undefined_refuted).
* Floats: a literal is read as a double first; correctly_round_float repairs the rounding except where the double rounds to 0, to
  infinity or to the largest float. 7.006492321624086e-46 is read as 0 instead of the least positive float and
  3.4028235677973366e38 as infinity instead of the largest float (C24_float_low_end_refuted,
  C24_float_high_end_refuted); these two ends are the only places (C24_float_nearest_partial).
* Printing doubles: 2^-140 is printed as 7.174648137343063e-43, which is nearer to the next smaller double and is read back as that
  one (C25_round_trip_refuted, C25_double_nearest_refuted). 2^-140 and -2^-140 are the only failures among all doubles; the table
  check of RyuExp.v finds no other exponent for which a power of two goes wrong. 18014398509481996 is printed as 18014398509481997
  (it still reads back).
* to_buffer writes behind a buffer of one character when the number is negative (C60_outside_refuted). When the buffer
  does not hold the digits in front of the point and one more character, other digits are printed: 12.5 in two
  characters becomes 2, 1200 in three becomes 100, 1.5 in one gives the length 0 (C60_prefix_refuted). The library itself only uses buffers that are large enough (C60_double_to_string, C60_float_to_string).
* "-", "." and "-.e-7" are read as 0, with or without quotes, "1." and "007" are numbers, white space may stand in front (C73_refuted); exactly the texts of `taken_for_number` are accepted (C73_integers, C73_floats).
* The number of digits has 8 bits: 0.00...01 with 255 digits behind the dot is read as the integer 10 (C73_long_fraction_refuted).

Handlers
* Nothing bounds how deeply the handlers of a recursive type call each other: a text of 6 n bytes needs n nested calls
  on the stack (C59_bounded_stack_refuted).
* A map text that is not closed loops for ever (C31_open_map_refuted).
* JS::ArrayVariableContent with exactly N elements keeps the old size (C32_full_array_refuted).
* Enums accept any number (C33_number_refuted).
* null does not clear Nullable and std::optional (C36_null_refuted).
* std::string accepts an array or object bracket as its value and leaves the rest unread
  (C47_string_takes_bracket_refuted, C30_string_array_refuted).
* A name together with its alias, or several errors, make the outcome depend on the order of the members
  (C27_alias_and_name_refuted, C27_error_depends_on_order_refuted).
* An infinite double is written as null, which is not read as a double (C26_infinity_refuted).
* Unassigned optionals inside vectors and tuples vanish (C26_optional_element_refuted, C26_optional_in_tuple_refuted); an empty
  OneOrMany member is written as nothing readable (C26_empty_one_or_many_refuted); unquoted member names when
  ascii is not converted (C26_unquoted_names_refuted).
* The strings "true" and "false" are accepted for booleans (C51_bool_refuted).
* JS_ENUM drops what stands before the first letter of a name: for { _1, b } the only name is b, and stands for _1
  (C56_underscore_refuted).
* JS::Error is written by name and never read (C69_error_round_trip_refuted); an object in its place is not skipped, its members
  are taken for those of the enclosing struct and the parse ends early without an error (C69_error_object_refuted).
* An enum that is read by value and has no fixed underlying type takes any number, which is undefined behaviour outside its
  range (C69_enum_range_refuted).
* A scalar read into a token vector is added to its old content (C57_scalar_appends_refuted). Kept tokens are written
  with the name under which they were read, not with that of the member they are in: kept from a whole document they give
  texts like {[1]}, in a vector like ["a":1] (C77_name_refuted).

Time points
* The unit is guessed from the magnitude (C34_round_trip_refuted, C26_instant_refuted); some inputs overflow a signed 64-bit multiplication
  (C34_overflow_refuted).

JS::Map
* Iteration also visits the closing bracket, find on an empty Map is out of bounds, find("") matches the closing bracket
  (C38_only_members_refuted, C38_empty_map_refuted, C39_empty_name_refuted).
* setValue breaks the map when a scalar before a container is replaced (C39_scalar_before_container_refuted), and in the
  cases of C39_has_data_refuted, C39_duplicate_names_refuted, C39_unassigned_refuted.
* setValue with a name that needs escapes writes text that is not JSON, and the value is lost (C62_names_refuted); reading a Map
  again keeps the strings of earlier setValue calls (C62_old_data_refuted).
* The tokens of setValue point into a string that is moved into json_data. They stay valid, since SerializerContext makes every
  string 4096 characters long first, so that it lies on the heap also when it is short (C70_strings, C70_alive_partial). But when a
  container is replaced after a scalar before it was, its string is freed while its inner tokens stay (C70_dangling_refuted),
  and the tokens of a copied Map point into the strings of the original (C70_copy_refuted).

callFunctions
* Void, failing and unknown calls write no result, so results cannot be matched to calls by position
  (C40_one_result_refuted); a function that reports MissingFunction makes another one be called
  (C40_called_twice_refuted).

Diff
* Duplicate names, NUL bytes, arrays as first new item, repeated invalidation: C41_duplicate_names_refuted,
  C42_nul_refuted, C43_array_first_refuted, C44_missing_items_refuted.
* An unfinished document is reported as NoError and then read out of bounds, as base and as new document; equal bare words in arrays
  reach an assert(false) (C76_unclosed_refuted). With all brackets closed and no bare words nothing is read outside (C76_closed_partial).
* A number that is too large for a double, or a sign alone, makes the diff throw an exception (C79_out_of_range_refuted, C79_sign_refuted).

## Trusted base

* Coq 8.16.1 kernel, including `vm_compute`.
* The reading of the C++ text recorded in the citation comments of the model files.
* The meaning of the SSE2, SSE4.2, AVX2 and NEON intrinsics as written down at the top of VecModel.v (little endian NEON).
* The meaning of macro replacement as written down at the top of MacroModel.v.
* The meaning of std::stod as written down at the top of StodModel.v (only for C79).
* Coq's standard library. No other library is used.

## Assumptions

`Print Assumptions` follows every theorem in the `Prop*.v` files. For each of them it prints
"Closed under the global context": no axiom at all is used. The kernel check `coqchk` lists, for the
loaded standard library as a whole, the seven axioms that instantiate the module type `Coq.ssr.ssrunder.Under_rel`
(`Over_rel`, `Under_rel_from_rel`, `over_rel`, `over_rel_done`, `Under_rel`, `Under_relE`, `under_rel_done`); no theorem here depends on them.
