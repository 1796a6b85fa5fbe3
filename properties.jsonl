{"id": "C01", "title": "Tokenizing always terminates and stays inside the buffers", "statement": "Whatever bytes are handed to a Tokenizer with addData, cut into whatever buffers, and whatever allow* options are set, every call of nextToken returns, the read position never passes the end of the buffer being read, and after finitely many calls (linear in the number of bytes) nextToken returns something other than NoError.", "quantifier": "all byte sequences, all ways of cutting them into buffers, all option settings, all numbers of nextToken calls", "why_tests_cant": "Tests sample documents; non-termination or an out-of-range cursor shows up on one malformed byte sequence or one buffer boundary out of infinitely many.", "anchors": ["include/json_struct/json_struct.h: Tokenizer::nextToken", "include/json_struct/json_struct.h: Tokenizer::populateNextTokenFromDataRef", "include/json_struct/json_struct.h: Tokenizer::populateFromDataRef"]}
{"id": "C02", "title": "Emitted brackets are balanced", "statement": "For every input and buffering, the sequence of tokens returned by nextToken up to the first error is a prefix of a properly nested bracket sequence: each ObjectEnd closes an ObjectStart and each ArrayEnd an ArrayStart, innermost first, and a wrong closer is reported as UnexpectedObjectEnd / UnexpectedArrayEnd rather than returned.", "quantifier": "all byte sequences, bufferings, options and call counts", "why_tests_cant": "Nesting is unbounded, and a consumer's recursion relies on balance for inputs no test author wrote.", "anchors": ["include/json_struct/json_struct.h: Tokenizer::nextToken"]}
{"id": "C03", "title": "Every valid JSON document is tokenized to exactly its tokens", "statement": "For every JSON document whose root is an object or array, written with any amount of JSON whitespace between tokens and supplied in one buffer, nextToken returns exactly the document's tokens in order (start/end brackets, member names and raw scalar texts with their types) and then NeedMoreData.", "quantifier": "all JSON documents of any depth, width, string/number contents and any whitespace layout", "why_tests_cant": "The set of documents and layouts is infinite and recursive; only induction over the document covers it.", "anchors": ["include/json_struct/json_struct.h: Tokenizer::nextToken", "include/json_struct/json_struct.h: Tokenizer::findStartOfNextValue", "include/json_struct/json_struct.h: Tokenizer::findDelimiter", "include/json_struct/json_struct.h: Tokenizer::findTokenEnd"]}
{"id": "C04", "title": "Token texts are slices of the input", "statement": "With one buffer, each returned token's name and value refer to bytes inside that buffer, and successive tokens refer to non-overlapping slices in increasing order.", "quantifier": "all byte sequences, options and call counts", "why_tests_cant": "An off-by-one slice may occur only for particular neighbouring bytes.", "anchors": ["include/json_struct/json_struct.h: Tokenizer::populateFromDataRef", "include/json_struct/json_struct.h: DataRef"]}
{"id": "C05", "title": "Splitting the input into buffers does not change the tokens", "statement": "If a document is supplied as several consecutive buffers (through addData or the need-more-data callback) instead of one, nextToken returns tokens with the same names, values and types, and the same final error.", "quantifier": "all documents and all ways of cutting them into consecutive buffers", "why_tests_cant": "The number of cut points and combinations of cuts is exponential in the document; the bundled tests use a handful of cuts.", "anchors": ["include/json_struct/json_struct.h: Tokenizer::nextToken", "include/json_struct/json_struct.h: Tokenizer::releaseFirstDataRef", "include/json_struct/json_struct.h: Internal::IntermediateToken", "include/json_struct/json_struct.h: Tokenizer::populateNextTokenFromDataRef"]}
{"id": "C06", "title": "Vectorised scanners agree with the scalar ones", "statement": "Building with SSE2, NEON or AVX2 support does not change any token: each vectorised scan for the end of a string, number, word, comment or run of whitespace stops at the byte the scalar loop stops at.", "quantifier": "all byte sequences, all start offsets, all lengths, both initial escape states", "why_tests_cant": "The result depends on the position of special bytes relative to 16/32 byte lanes and on the length of the remainder; a test run exercises one instruction set.", "anchors": ["include/json_struct/json_struct.h: Internal::findStringEndSIMD", "include/json_struct/json_struct.h: Internal::findNumberEndSIMD", "include/json_struct/json_struct.h: Internal::findAsciiEndSIMD", "include/json_struct/json_struct.h: Internal::skipWhitespaceSIMD", "include/json_struct/json_struct.h: Internal::skipCommentSIMD"]}
{"id": "C07", "title": "A structural error is final", "statement": "Once nextToken has returned an error other than NeedMoreData, further calls on the same tokenizer never return a token of the rejected document.", "quantifier": "all inputs, options and histories of calls", "why_tests_cant": "Depends on the internal state left behind by each error path.", "anchors": ["include/json_struct/json_struct.h: Tokenizer::nextToken"]}
{"id": "C08", "title": "Only JSON is accepted by default", "statement": "With default options, if nextToken delivers a complete balanced root value without error from one buffer, then that buffer's text was a JSON document (up to NUL bytes and trailing data).", "quantifier": "all byte sequences", "why_tests_cant": "Acceptance of malformed text can only be excluded by quantifying over all texts.", "anchors": ["include/json_struct/json_struct.h: Tokenizer::findStartOfNextValue", "include/json_struct/json_struct.h: Tokenizer::findDelimiter", "include/json_struct/json_struct.h: Tokenizer::findTokenEnd"]}
{"id": "C09", "title": "Scopes end at the matching bracket", "statement": "After pushScope on a just-read ObjectStart/ArrayStart, nextToken delivers the tokens up to and including the matching end bracket and then ScopeHasEnded; goToEndOfScope leaves the tokenizer just after the matching end whatever lies between.", "quantifier": "all documents, all nesting depths", "why_tests_cant": "Nesting depth is unbounded and the counter has a fixed width.", "anchors": ["include/json_struct/json_struct.h: Tokenizer::pushScope", "include/json_struct/json_struct.h: Tokenizer::goToEndOfScope", "include/json_struct/json_struct.h: Internal::ScopeCounter"]}
{"id": "C10", "title": "Raw capture returns the exact source text of a value", "statement": "Reading a value into JsonObjectRef/JsonArrayRef/JsonObject/JsonArray/JsonObjectOrArray stores exactly the bytes of the document from the value's opening bracket to its matching closing bracket, also when the value spans several buffers for the owning variants.", "quantifier": "all documents, all positions of the captured value, all bufferings", "why_tests_cant": "Depends on buffer boundaries falling inside the captured value.", "anchors": ["include/json_struct/json_struct.h: Tokenizer::copyFromValue", "include/json_struct/json_struct.h: Tokenizer::copyIncludingValue", "include/json_struct/json_struct.h: TypeHandler<JsonObject>", "include/json_struct/json_struct.h: TypeHandler<JsonArrayRef>"]}
{"id": "C11", "title": "Lenient options do not change valid documents", "statement": "Enabling allowAsciiType, allowSuperfluousComma, allowComments or allowNewLineAsTokenDelimiter does not change the tokens of a document that is valid JSON.", "quantifier": "all JSON documents and layouts, all option combinations", "why_tests_cant": "Interaction between option flags and every layout of whitespace is unbounded.", "anchors": ["include/json_struct/json_struct.h: Tokenizer::allowComments", "include/json_struct/json_struct.h: Tokenizer::allowNewLineAsTokenDelimiter", "include/json_struct/json_struct.h: Tokenizer::findTokenEnd", "include/json_struct/json_struct.h: Tokenizer::findDelimiter"]}
{"id": "C12", "title": "Comments count as whitespace", "statement": "With allowComments, inserting a //-comment ending in a newline wherever whitespace is allowed leaves the token sequence unchanged.", "quantifier": "all documents, all comment texts and insertion points", "why_tests_cant": "Insertion points and comment texts are unbounded.", "anchors": ["include/json_struct/json_struct.h: Tokenizer::skipComment", "include/json_struct/json_struct.h: Tokenizer::findAsciiEnd"]}
{"id": "C13", "title": "Serializer output does not depend on buffer sizes", "statement": "For every sequence of write calls, the concatenation of the bytes stored in the buffers supplied through setBuffer / the request-buffer callback is the same for every choice of (non-empty) buffer sizes, and a write for which no space is ever supplied returns false instead of writing out of bounds.", "quantifier": "all token sequences and all sequences of buffer sizes", "why_tests_cant": "Each write may straddle any number of buffer boundaries.", "anchors": ["include/json_struct/json_struct.h: Serializer::write", "include/json_struct/json_struct.h: SerializerBuffer::append", "include/json_struct/json_struct.h: Serializer::askForMoreBuffers"]}
{"id": "C14", "title": "Serialized tokens read back as the same tokens", "statement": "Writing the tokens of any well-formed document through a Serializer (Compact or Pretty, any shift size) yields text whose tokenization is the same token sequence.", "quantifier": "all well-formed token sequences, all styles", "why_tests_cant": "Infinite recursive set of documents, separators and indentation depend on neighbouring tokens.", "anchors": ["include/json_struct/json_struct.h: Serializer::write(const Token &)", "include/json_struct/json_struct.h: SerializerOptions"]}
{"id": "C15", "title": "reformat preserves the document", "statement": "reformat returns NoError on every valid document, and tokenizing its output gives the same tokens as tokenizing its input, for both styles; reformatting compactly after prettifying equals reformatting compactly directly.", "quantifier": "all valid documents and layouts, both styles", "why_tests_cant": "As above; also depends on output buffer growth.", "anchors": ["include/json_struct/json_struct.h: reformat"]}
{"id": "C16", "title": "Nesting depth is not limited by the serializer", "statement": "A well-formed token sequence is serialized completely whatever its nesting depth: every opened bracket is closed in the output.", "quantifier": "all nesting depths", "why_tests_cant": "Tests use shallow documents; a fixed-width depth counter fails only beyond its range.", "anchors": ["include/json_struct/json_struct.h: SerializerOptions::setDepth", "include/json_struct/json_struct.h: Serializer::write(const Token &)"]}
{"id": "C17", "title": "String escaping round-trips", "statement": "For every byte string s, un-escaping the escaped form of s gives back s, so any std::string written as JSON reads back unchanged.", "quantifier": "all byte strings", "why_tests_cant": "All byte strings of all lengths, including those that themselves look like escapes.", "anchors": ["include/json_struct/json_struct.h: Internal::handle_json_escapes_out", "include/json_struct/json_struct.h: Internal::handle_json_escapes_in"]}
{"id": "C18", "title": "An escaped string is one string token", "statement": "For every byte string s, the quoted escaped form of s is recognised by the tokenizer as exactly one String token ending at the final quote, whatever follows.", "quantifier": "all byte strings s and all following text", "why_tests_cant": "A missing escape or dangling backslash occurs only for particular contents.", "anchors": ["include/json_struct/json_struct.h: Internal::handle_json_escapes_out", "include/json_struct/json_struct.h: Tokenizer::findStringEnd"]}
{"id": "C19", "title": "Unicode escapes decode to UTF-8", "statement": "Reading a string with \\uXXXX escapes yields the UTF-8 encoding of the denoted scalar value, combining surrogate pairs, for every code point and every hex-digit spelling.", "quantifier": "all 16-bit code units and all surrogate pairs, in all contexts", "why_tests_cant": "1.1 million code points in arbitrary surroundings.", "anchors": ["include/json_struct/json_struct.h: Internal::handle_json_escapes_in"]}
{"id": "C20", "title": "Serialized strings contain no raw control characters", "statement": "The serialized form of any std::string contains no unescaped control character, as RFC 8259 requires.", "quantifier": "all byte strings", "why_tests_cant": "Must hold for every byte value in every position.", "anchors": ["include/json_struct/json_struct.h: Internal::handle_json_escapes_out"]}
{"id": "C21", "title": "Integers round-trip", "statement": "For every value of every signed or unsigned integer type up to 64 bits, the decimal text written by the library parses back to the same value.", "quantifier": "all values of all integer widths", "why_tests_cant": "2^64 values per type.", "anchors": ["include/json_struct/json_struct.h: Internal::ft::integer::to_buffer", "include/json_struct/json_struct.h: Internal::ft::to_integer", "include/json_struct/json_struct.h: TypeHandler<int64_t>"]}
{"id": "C22", "title": "Integer literals are read exactly or refused", "statement": "A number token holding an integer literal (optional minus, digits) read into an integer type yields exactly that integer if the type can represent it; otherwise the result is clamped or an error is reported, never an unrelated value.", "quantifier": "all digit strings of any length, all integer types", "why_tests_cant": "Digit strings are unbounded; wrap-around appears only beyond 64 bits.", "anchors": ["include/json_struct/json_struct.h: Internal::ft::parseNumber", "include/json_struct/json_struct.h: Internal::ft::integer::convert_to_integer"]}
{"id": "C23", "title": "Decimal comparison used for rounding is exact", "statement": "Comparing a decimal literal of any length with a binary fraction M*2^k is exact: the verdict less/equal/greater equals the comparison of the two rational numbers.", "quantifier": "all digit strings, decimal exponents, M and k", "why_tests_cant": "Multi-word arithmetic with carries over unbounded lengths.", "anchors": ["include/json_struct/json_struct.h: Internal::ft::compare_value_scaled", "include/json_struct/json_struct.h: Internal::ft::big_uint_cmp"]}
{"id": "C24", "title": "Decimal literals are rounded to the nearest double", "statement": "Reading any decimal number literal into a double yields the double nearest to the literal's value (ties to even).", "quantifier": "all decimal literals of any length and exponent", "why_tests_cant": "Unbounded inputs; errors occur at isolated near-midpoint values and long digit strings.", "anchors": ["include/json_struct/json_struct.h: Internal::ft::to_ieee_t", "include/json_struct/json_struct.h: Internal::ft::correctly_round_float", "include/json_struct/json_struct.h: Internal::ft::convertToNumber"]}
{"id": "C25", "title": "A printed float parses back to the same float", "statement": "For every finite double or float x, parsing the text the library prints for x gives x.", "quantifier": "all 2^64 doubles / 2^32 floats", "why_tests_cant": "Exhaustive testing of doubles is impossible.", "anchors": ["include/json_struct/json_struct.h: Internal::ft::ryu::decode", "include/json_struct/json_struct.h: Internal::ft::ryu::convert_parsed_to_buffer", "include/json_struct/json_struct.h: Internal::ft::ryu::to_buffer"]}
{"id": "C26", "title": "Typed values round-trip", "statement": "For every value of every type built from booleans, integers, strings, vectors, fixed arrays, optionals, nullables, tuples, maps and JS_OBJECT structs, parsing the serialized text (any style) into a fresh object of that type gives NoError and an equal value.", "quantifier": "all types of any nesting and all their values", "why_tests_cant": "Types and values both form infinite recursive families.", "anchors": ["include/json_struct/json_struct.h: ParseContext::parseTo", "include/json_struct/json_struct.h: serializeStruct", "include/json_struct/json_struct.h: TypeHandler"]}
{"id": "C27", "title": "Member order does not matter", "statement": "Parsing a JSON object into a struct gives the same result for every permutation of its members when names are distinct.", "quantifier": "all structs, all objects, all permutations", "why_tests_cant": "Factorially many orders.", "anchors": ["include/json_struct/json_struct.h: TypeHandler<T>::to", "include/json_struct/json_struct.h: Internal::MemberChecker::unpackMembers"]}
{"id": "C28", "title": "Unknown members are skipped without effect", "statement": "With allow_missing_members, members of the JSON object that name no struct member change no member of the target, whatever their value, and their names are exactly those reported in missing_members.", "quantifier": "all structs, all objects, all nested values of the unknown members", "why_tests_cant": "Skipping must find the end of arbitrarily nested values.", "anchors": ["include/json_struct/json_struct.h: TypeHandler<T>::to", "include/json_struct/json_struct.h: Internal::skipArrayOrObject", "include/json_struct/json_struct.h: ParseContext::missing_members"]}
{"id": "C29", "title": "Absent required members are reported exactly", "statement": "After parsing an object into a struct, the names reported as unassigned required members are exactly the non-optional members whose names and aliases do not occur in the object; they are an error unless allowed.", "quantifier": "all structs and all objects", "why_tests_cant": "All subsets of members.", "anchors": ["include/json_struct/json_struct.h: Internal::MemberChecker::verifyMembers", "include/json_struct/json_struct.h: ParseContext::unassigned_required_members"]}
{"id": "C30", "title": "Fixed-size arrays are filled exactly or rejected", "statement": "Reading a JSON array into T[N] or std::array<T,N> succeeds only if the array has exactly N elements, stores them in order, and never writes outside the N slots.", "quantifier": "all arrays, all N", "why_tests_cant": "Lengths are unbounded on both sides of N.", "anchors": ["include/json_struct/json_struct.h: TypeHandler<T[N]>", "include/json_struct/json_struct.h: TypeHandler<std::array<T, N>>"]}
{"id": "C31", "title": "Parsing into a map always terminates", "statement": "Reading any text into a std::map/std::unordered_map returns (with an error if the text is not a complete object).", "quantifier": "all byte sequences", "why_tests_cant": "A hang appears only on particular malformed or truncated inputs.", "anchors": ["include/json_struct/json_struct.h: TypeHandlerMap::to"]}
{"id": "C32", "title": "Variable-length array content reports its length", "statement": "After reading a JSON array of k <= N elements into ArrayVariableContent of capacity N, the size is k and the first k slots hold the elements; more than N elements are rejected.", "quantifier": "all arrays, all capacities, all previous sizes", "why_tests_cant": "Boundary k = N and earlier contents matter.", "anchors": ["include/json_struct/json_struct.h: TypeHandler<ArrayVariableContent<T, COUNT>>"]}
{"id": "C33", "title": "Enums round-trip and out-of-range values are rejected", "statement": "For every JS_ENUM enum value, writing it gives its name and reading that name gives the value; reading a string that is no enumerator, or a number that is no enumerator index, is an error.", "quantifier": "all enumerations, all strings, all numbers", "why_tests_cant": "All strings and numbers that are not enumerators.", "anchors": ["include/json_struct/json_struct.h: EnumHandler"]}
{"id": "C34", "title": "Time points round-trip", "statement": "Writing a std::chrono time_point and reading it back gives the same instant, for every instant representable.", "quantifier": "all instants", "why_tests_cant": "The reader guesses the unit from the magnitude; errors appear in magnitude ranges not tested.", "anchors": ["include/json_struct/json_struct.h: TypeHandler<std::chrono::time_point>"]}
{"id": "C35", "title": "Map keys round-trip", "statement": "Writing a std::map<std::string, V> and reading it back gives an equal map for all keys.", "quantifier": "all keys (any bytes) and values", "why_tests_cant": "Keys with characters needing escapes are a measure-zero sample in tests.", "anchors": ["include/json_struct/json_struct.h: TypeHandlerMap::from", "include/json_struct/json_struct.h: TypeHandlerMap::to"]}
{"id": "C36", "title": "Optional and nullable members", "statement": "An absent optional member leaves the target as it was and is no error; a null read into a nullable/optional/smart pointer clears it; an unassigned Checked optional writes nothing and reads back as unassigned.", "quantifier": "all structs and objects, all subsets of absent members", "why_tests_cant": "All combinations of presence and null.", "anchors": ["include/json_struct/json_struct.h: TypeHandler<Optional<T>>", "include/json_struct/json_struct.h: TypeHandler<NullableChecked<T>>", "include/json_struct/json_struct.h: TypeHandler<std::unique_ptr<T>>"]}
{"id": "C37", "title": "Token metadata describes the tree", "statement": "For every well-formed token sequence, metaForTokens returns one entry per container in document order whose position, size (number of tokens up to and including the end), skip (number of containers inside, itself included), child count, complex-child count and has_data flag are those of the tree.", "quantifier": "all well-formed token sequences", "why_tests_cant": "Infinite recursive set of trees.", "anchors": ["include/json_struct/json_struct.h: metaForTokens", "include/json_struct/json_struct.h: JsonMeta"]}
{"id": "C38", "title": "Iterating a JS::Map visits exactly the members", "statement": "Iterating a Map made from an object visits each direct member once, in order, skipping nested contents; find(name) returns the first member with that name or end if none.", "quantifier": "all objects", "why_tests_cant": "Skipping depends on the shape of all preceding members.", "anchors": ["include/json_struct/json_struct.h: JS::Map", "include/json_struct/json_struct.h: Map::It", "include/json_struct/json_struct.h: Map::find"]}
{"id": "C39", "title": "JS::Map behaves as a map under setValue", "statement": "After any sequence of setValue calls, castToType(name) returns the value last set for that name (or the original one), other names are unaffected, and the metadata stays that of the token sequence.", "quantifier": "all initial objects and all sequences of setValue calls", "why_tests_cant": "Histories are unbounded; each update shifts the bookkeeping of all later members.", "anchors": ["include/json_struct/json_struct.h: Map::setValue", "include/json_struct/json_struct.h: Map::castToType"]}
{"id": "C40", "title": "Function calls: one result per call, in order", "statement": "callFunctions on an object whose members name functions calls each named function in document order with its parsed argument and emits one result object per member, and the emitted result is well-formed JSON; unknown functions are reported, not called.", "quantifier": "all call documents, all containers of functions", "why_tests_cant": "All mixes of known, unknown, failing and nested calls.", "anchors": ["include/json_struct/json_struct.h: CallFunctionContext::callFunctions", "include/json_struct/json_struct.h: Internal::FunctionObjectTraverser"]}
{"id": "C41", "title": "Diff of a document with itself is empty", "statement": "Diffing a document against itself reports no difference (diff_count 0, every token NoDiff, no missing members).", "quantifier": "all documents", "why_tests_cant": "All shapes of nested objects and arrays.", "anchors": ["include/json_struct/json_struct_diff.h: DiffContext::diff", "include/json_struct/json_struct_diff.h: Internal::Diff::diffObjects", "include/json_struct/json_struct_diff.h: Internal::Diff::diffArrays"]}
{"id": "C42", "title": "Diff reports no difference only for equal documents", "statement": "If a diff reports no difference at all, the two documents are equal as JSON values, up to member order and the configured numeric tolerance.", "quantifier": "all pairs of documents", "why_tests_cant": "All pairs of documents.", "anchors": ["include/json_struct/json_struct_diff.h: Internal::Diff::diff", "include/json_struct/json_struct_diff.h: Internal::Diff::diffObjects", "include/json_struct/json_struct_diff.h: Internal::Diff::diffArrays"]}
{"id": "C43", "title": "Every new array item is marked", "statement": "When the new document's array is longer than the base's, every token of every additional item is marked NewArrayItem.", "quantifier": "all pairs of arrays", "why_tests_cant": "Depends on nested arrays among the added items.", "anchors": ["include/json_struct/json_struct_diff.h: Internal::Diff::diffArrays"]}
{"id": "C44", "title": "Re-evaluating a diff is idempotent", "statement": "Calling invalidate() on a DiffContext without changing base or options leaves all reported differences as they were.", "quantifier": "all contexts and numbers of calls", "why_tests_cant": "Histories of calls.", "anchors": ["include/json_struct/json_struct_diff.h: DiffContext::invalidate", "include/json_struct/json_struct_diff.h: DiffTokens::invalidate"]}
{"id": "C45", "title": "Error positions are inside the input and point at the cursor", "statement": "After an error the reported context lines are slices of the input, the reported line index is within them and the reported column is within (or just past) that line.", "quantifier": "all inputs, error positions and context settings", "why_tests_cant": "All positions of newlines around the error.", "anchors": ["include/json_struct/json_struct.h: Tokenizer::updateErrorContext", "include/json_struct/json_struct.h: Tokenizer::makeErrorString"]}
{"id": "C46", "title": "A reset tokenizer behaves like a new one", "statement": "After resetData the tokenizer returns the same tokens a new tokenizer with the same options would return for that data, whatever was parsed before.", "quantifier": "all histories before the reset and all new data", "why_tests_cant": "Histories include every truncated or failed parse.", "anchors": ["include/json_struct/json_struct.h: Tokenizer::resetData"]}
{"id": "C47", "title": "Parsing never depends on what precedes or follows the value", "statement": "Parsing a value into a typed target consumes exactly the tokens of that value: the outcome does not depend on later tokens and the next token read is the first one after the value.", "quantifier": "all types, values and continuations", "why_tests_cant": "All continuations; a handler that reads one token too many only shows in some contexts.", "anchors": ["include/json_struct/json_struct.h: TypeHandler", "include/json_struct/json_struct.h: Internal::skipArrayOrObject"]}
{"id": "C48", "title": "Sets refuse duplicates and round-trip", "statement": "Reading a JSON array into a set container yields exactly its distinct elements, a duplicate being reported, and writing a set and reading it back gives the same set.", "quantifier": "all arrays and sets", "why_tests_cant": "All multiset shapes.", "anchors": ["include/json_struct/json_struct.h: TypeHandlerSet"]}
{"id": "C49", "title": "Vectors and tuples hold exactly what the document's array says", "statement": "Parsing a JSON array into a vector succeeds exactly when every element can be parsed into a new element and then leaves these, in order and nothing else; a tuple needs exactly one element per member; OneOrMany reads arrays like a vector and appends a single object.", "quantifier": "all element types at any nesting, all previous contents, all valid texts whose strings are scalars wherever a std::string is read", "why_tests_cant": "All lengths, nestings and previous contents.", "anchors": ["include/json_struct/json_struct.h: TypeHandler<std::vector<T, A>>", "include/json_struct/json_struct.h: TypeHandler<std::tuple<Ts...>>", "include/json_struct/json_struct.h: TypeHandler<OneOrMany<T, A>>"]}
{"id": "C50", "title": "The last member with a name wins in a map", "statement": "After parsing a JSON object into a map each key has the value of the last member whose decoded name is that key, keys the object does not name keep their previous value, and keys stay distinct.", "quantifier": "all value types, previous maps and valid objects (duplicates included) whose strings are scalars wherever a std::string is read", "why_tests_cant": "All patterns of duplicate and escaped names over all previous contents.", "anchors": ["include/json_struct/json_struct.h: TypeHandlerMap"]}
{"id": "C51", "title": "Scalars are read as what they denote", "statement": "Only the literals true and false are read as booleans; integer literals give their value limited to the range of the type; strings give the characters they denote.", "quantifier": "all JSON values and target objects", "why_tests_cant": "All literals and escape sequences.", "anchors": ["include/json_struct/json_struct.h: TypeHandler<bool>", "include/json_struct/json_struct.h: TypeHandlerIntType", "include/json_struct/json_struct.h: TypeHandler<std::string>"]}
{"id": "C52", "title": "Fractions and exponents read into integers", "statement": "A number literal with a fraction or an exponent that is parsed into an integer yields the integer part of the number it denotes, limited to the range of the type.", "quantifier": "all integer types, signs, digits, fractions and exponents", "why_tests_cant": "All digit strings combined with all exponents; saturation and wrap-around only show at the ends of the ranges.", "anchors": ["include/json_struct/json_struct.h: ft::parseNumber", "include/json_struct/json_struct.h: ft::convert_to_integer", "include/json_struct/json_struct.h: TypeHandlerIntType"]}
{"id": "C53", "title": "Exact layout of serialized documents", "statement": "Pretty output puts every item and every closing bracket on its own line, indented by the shift size times the nesting level, with one blank after each colon; compact output contains no white space outside strings. This holds at every depth and does not depend on how the output buffers are cut.", "quantifier": "all documents, shift sizes and buffer sizes", "why_tests_cant": "The code has prepared literals for some depths and a general path for the others; all documents and depths must agree.", "anchors": ["include/json_struct/json_struct.h: Serializer::write", "include/json_struct/json_struct.h: SerializerOptions"]}
{"id": "C54", "title": "Printed floating point numbers are JSON", "statement": "The text printed for a finite double or float is a number of the JSON grammar (RFC 8259), whatever the buffer contained before; infinities and NaNs are printed as null.", "quantifier": "all doubles and floats, all prior buffer contents", "why_tests_cant": "There are 2^64 doubles; the layout depends on the digit count and exponent of each.", "anchors": ["include/json_struct/json_struct.h: Internal::ft::ryu::convert_parsed_to_buffer", "include/json_struct/json_struct.h: TypeHandler<double>::from", "include/json_struct/json_struct.h: TypeHandler<float>::from"]}
{"id": "C55", "title": "Products without a 128-bit type", "statement": "The 64 by 64 bit multiplication for compilers without a 128-bit integer gives the same low and high word as the exact product.", "quantifier": "all pairs of 64-bit words", "why_tests_cant": "2^128 pairs; carries between the partial products are rare.", "anchors": ["include/json_struct/json_struct.h: Internal::ft::ryu::umul128"]}
{"id": "C56", "title": "The names of enumerators", "statement": "The names that JS_ENUM extracts from the text of its arguments are exactly the enumerators, in order, so that the index of a name is the value of its enumerator, and every value of the enum is written as its name and read back.", "quantifier": "all lists of enumerators, with any white space and with or without a comma at the end", "why_tests_cant": "There is no bound on the number, length and form of the names; tests use a few fixed enums.", "anchors": ["include/json_struct/json_struct.h: Internal::populateEnumNames", "include/json_struct/json_struct.h: JS_ENUM"]}
{"id": "C57", "title": "Token vectors keep a value", "statement": "Reading a value into a vector of tokens stores exactly the tokens of the value; reading these tokens later into an object gives the same result as reading the text directly; writing them gives a text of the same value.", "quantifier": "all values, all target types, all tokenizer states outside of scopes", "why_tests_cant": "Values nest without bound, and the deferred reading must agree for every type.", "anchors": ["include/json_struct/json_struct.h: TypeHandler<std::vector<Token>>", "include/json_struct/json_struct.h: TypeHandler<JsonTokens>", "include/json_struct/json_struct.h: Tokenizer::resetData"]}
{"id": "C58", "title": "Error messages name the error", "statement": "After a failed parseTo, makeErrorString gives a message that names the error returned, or, for unknown members and absent required members, names exactly these members; keeping the error context for the message changes no result and reads nothing out of bounds.", "quantifier": "all texts, types, objects, options and error context settings", "why_tests_cant": "The error can come from the tokenizer or from any of the nested handlers, in any combination; tests look at a few messages.", "anchors": ["include/json_struct/json_struct.h: ParseContext::makeErrorString", "include/json_struct/json_struct.h: Tokenizer::makeErrorString", "include/json_struct/json_struct.h: ParseContext::parseTo"]}
{"id": "C59", "title": "Types that refer to themselves", "statement": "For structs with members that hold objects of the struct itself (trees, linked lists, maps of themselves), parseTo does what it does for the finite type obtained by unrolling the struct often enough, returns on every text, never nests its calls deeper than the text is long, and restores every object of any depth that serializeStruct has written.", "quantifier": "all mutually recursive struct types, all texts, objects of any depth, options and settings", "why_tests_cant": "Tests build trees of a few levels; the claim is about every depth and every pattern of mutual recursion.", "anchors": ["include/json_struct/json_struct.h: TypeHandler", "include/json_struct/json_struct.h: ParseContext::parseTo", "include/json_struct/json_struct.h: serializeStruct"]}
{"id": "C60", "title": "Numbers printed into a buffer stay inside it", "statement": "ryu::to_buffer and integer::to_buffer write only inside the buffer they are given, return at most its size, and leave in it the first characters of the text of the number, the whole text if it fits; 24 characters hold every double and 15 every float, so ryu::to_string and the handlers never cut a number off.", "quantifier": "all bit patterns of double and float (finite, infinite, NaN), all integers of all types, all buffer sizes and prior contents", "why_tests_cant": "There are 2^64 doubles and the interesting combinations of digit count, exponent, sign and buffer size are too many to sample; an overrun by one byte usually goes unnoticed.", "anchors": ["include/json_struct/json_struct.h: ryu::convert_parsed_to_buffer", "include/json_struct/json_struct.h: ryu::to_buffer", "include/json_struct/json_struct.h: ryu::to_string", "include/json_struct/json_struct.h: integer::to_buffer"]}
{"id": "C61", "title": "128 bit integers", "statement": "Every value of the 128 bit integer types is written as a JSON number of at most 40 characters and read back exactly; text written from any integer type is read exactly by every integer type that contains the value; other literals are read exactly or clamped.", "quantifier": "all 2^128 values of __int128_t and __uint128_t, all integer types, all number literals", "why_tests_cant": "The interesting values lie at the edges of the significand and of the number of digits, and there are 2^128 of them.", "anchors": ["include/json_struct/json_struct.h: TypeHandler<__int128_t>", "include/json_struct/json_struct.h: TypeHandler<__uint128_t>", "include/json_struct/json_struct.h: to_integer", "include/json_struct/json_struct.h: integer::to_buffer"]}
{"id": "C62", "title": "JS::Map from text to text", "statement": "A Map read from the text of an object holds exactly that object; castToType by name or of the whole Map does what reading the value from a text does; a value put in with setValue comes back from castToType and the other members stay; after any sequence of setValue calls the text of the Map is a text of the resulting object.", "quantifier": "all objects, names, types, values, contexts and sequences of calls", "why_tests_cant": "Tests put a few members into a Map; the claim is about every sequence of replacements of scalars and containers and every type.", "anchors": ["include/json_struct/json_struct.h: Map::castToType", "include/json_struct/json_struct.h: Map::setValue", "include/json_struct/json_struct.h: TypeHandler<Map>"]}
{"id": "C63", "title": "The vector instructions of the scanners", "statement": "The SSE2, SSE4.2, AVX2 and NEON scanners, taken instruction by instruction, load only bytes of the data they are given, never count the trailing zeros of 0, and return exactly what reading byte by byte defines: the end of the run of number, word or space characters, the place after the first newline, and the place after the closing quote of a string entered outside of an escape sequence.", "quantifier": "all data of all lengths, both signednesses of char, all instruction sets", "why_tests_cant": "A lane compared, masked or indexed wrongly shows only for particular bytes at particular positions of a register, and a test run covers only the instruction set of the machine it runs on.", "anchors": ["include/json_struct/json_struct.h: Internal::findStringEndSIMD, findStringEndNEON, findStringEndAVX2", "include/json_struct/json_struct.h: Internal::findNumberEndSIMD, findNumberEndNEON", "include/json_struct/json_struct.h: Internal::skipWhitespaceSIMD, skipWhitespaceNEON, skipWhitespaceAVX2", "include/json_struct/json_struct.h: Internal::findAsciiEndSIMD, findAsciiEndNEON, findAsciiEndAVX2", "include/json_struct/json_struct.h: Internal::skipCommentSIMD, skipCommentNEON, skipCommentAVX2"]}
{"id": "C64", "title": "reformat on arbitrary bytes", "statement": "reformat returns for every sequence of bytes, whether it is JSON or not, without reading or writing outside its buffers and without an endless loop. Its output is what a serializer writes for the tokens before the first error, its result is that error, running out of input being none. Neither depends on the size of the string passed in or on the build, and the output is at most linear in the input.", "quantifier": "all byte sequences, all options, all initial sizes of the output string, all builds", "why_tests_cant": "The fuzz target of the project runs reformat on random bytes; it can only show the absence of crashes for the inputs tried, and says nothing about the output or its size.", "anchors": ["include/json_struct/json_struct.h: reformat", "include/json_struct/json_struct.h: Serializer::write", ".clusterfuzzlite/reformat_fuzzer.cpp"]}
{"id": "C65", "title": "More input only adds tokens", "statement": "The tokens read from a text are the first tokens read from every longer text that begins with it. An error other than running out of data stays the same whatever follows. So no beginning of a document is an error, and reformat turns it into the beginning of the document's layout.", "quantifier": "all texts, all continuations, all options and builds", "why_tests_cant": "Whether a scanner decides too early can only be seen with the right continuation; there are infinitely many.", "anchors": ["include/json_struct/json_struct.h: Tokenizer::nextToken", "include/json_struct/json_struct.h: Tokenizer::populateNextTokenFromDataRef", "include/json_struct/json_struct.h: Tokenizer::findDelimiter", "include/json_struct/json_struct.h: Tokenizer::findTokenEnd", "include/json_struct/json_struct.h: reformat"]}
{"id": "C66", "title": "The macros that describe a class", "statement": "JS_OBJ, JS_OBJ_SUPER with JS_SUPER, JS_OBJ_EXT and JS_FUNC_OBJ, given any list of names, expand to the struct that lists exactly the infos of these names, each once, in the order written, with the name as string and the pointer to the member of that name; JS_OBJECT does the same for members described one by one with names and aliases. Nothing of the internal macros is left in the text.", "quantifier": "all lists of identifiers that are not macro names, of any length the recursion of the macros reaches; all lists of member descriptions", "why_tests_cant": "The macros repeat by scanning the text 2049 times; whether a list of a given length comes out whole depends on which macros are being replaced at each scan, and a test tries a few short lists.", "anchors": ["include/json_struct/json_struct.h: JS_INTERNAL_EVAL, JS_INTERNAL_MAP_MEMBER, JS_INTERNAL_MAKE_MEMBERS", "include/json_struct/json_struct.h: JS_OBJ, JS_OBJ_SUPER, JS_OBJ_EXT, JS_SUPER, JS_OBJECT", "include/json_struct/json_struct.h: JS_FUNC_OBJ, JS_INTERNAL_MAKE_FUNCTIONS"]}
{"id": "C67", "title": "JS::Tuple", "statement": "The indices of a JS::Tuple are 0 to n-1 in order and come from a recursion of logarithmic depth. get<i> yields the i-th element and its type, an assignment through it changes no other element, an index outside the tuple or a wrong number of arguments is rejected. The templates that read and write a JS::Tuple visit every element once, in order, and equal the handler the other properties are about.", "quantifier": "all tuples of up to 2^64 - 1 elements of all types, all values, all token sequences", "why_tests_cant": "Each size and index is a new template instance; tests instantiate a handful.", "anchors": ["include/json_struct/json_struct.h: Internal::Merge, GenSequence, Element, TupleImpl, Tuple, TypeAt, makeTuple", "include/json_struct/json_struct.h: TupleTypeHandler, TypeHandler<JS::Tuple>"]}
{"id": "C68", "title": "Super classes", "statement": "A class with super classes is read and written exactly like one struct with its own and all inherited members: the templates that walk through the classes reach each member once, mark it in its own slot of the array of assigned members and never outside that array; absent members are reported with the name of their super class, unknown names are those that no class has, and what is written is read back into the same object.", "quantifier": "all trees of classes of any depth and width, all objects, all texts valid or not, all tokenizer options and ParseContext settings", "why_tests_cant": "The slots are computed from template arguments that are summed differently in different functions; whether they agree depends on the shape of the tree, of which tests have a few.", "anchors": ["include/json_struct/json_struct.h: Internal::MemberChecker, SuperClassHandler, StartSuperRecursion, memberCount", "include/json_struct/json_struct.h: unpackMember, verifyMember, serializeMember, NameChecker", "include/json_struct/json_struct.h: TypeHandler<T>::to, TypeHandler<T>::from"]}
{"id": "C69", "title": "Enums by value and JS::Error", "statement": "An enum declared with JS_ENUM_DECLARE_VALUE_PARSER is read and written like its underlying integer wherever it stands, and a failed read leaves it as it was; a JS::Error is written with its name and survives writing and reading. A document with such members gives the same errors and reports as one with integers and strings in their place.", "quantifier": "all types built from such enums, Errors, all other types, vectors, maps, std::optional and structs; all values; all texts valid or not; all tokenizer options and ParseContext settings", "why_tests_cant": "That one type can stand for another in every context is a claim about all programs; tests fix one struct. Undefined casts do not show in a test run.", "anchors": ["include/json_struct/json_struct.h: JS_ENUM_DECLARE_VALUE_PARSER, JS_ENUM_NAMESPACE_DECLARE_VALUE_PARSER", "include/json_struct/json_struct.h: TypeHandler<Error>, error_strings"]}
{"id": "C70", "title": "Memory the tokens of a JS::Map point to", "statement": "After any calls of setValue every token of a JS::Map points to memory that still exists and holds the text of the token: to what the Map was read from, or into a string the Map owns. The Map owns no more strings than it has members (and one for a whole struct), however often members are replaced. A copied Map does not depend on the original.", "quantifier": "all Maps read from text, new, or set from a struct; all sequences of setValue calls; all names, types and values; all capacities of std::string below 4096 without heap and all growth policies; any number of buffer requests", "why_tests_cant": "A dangling pointer usually still shows the old bytes, so tests pass; the memory kept after many calls is not looked at by tests.", "anchors": ["include/json_struct/json_struct.h: Map::setValue, Map::json_data", "include/json_struct/json_struct.h: SerializerContext"]}
{"id": "C71", "title": "Strings stay UTF-8", "statement": "Reading the text of a string gives valid UTF-8 for every text that is valid UTF-8 (and never for another text); writing a string gives valid UTF-8 exactly if the string is. A document is UTF-8 exactly if all its strings are, so no token cuts a character. Reading a UTF-8 document into any type leaves only UTF-8 strings in it, and a value with only UTF-8 strings is written as UTF-8.", "quantifier": "all byte sequences between quotes, also those that are not JSON strings; all documents and layouts; all types and values of the handler model; all vector extensions", "why_tests_cant": "Sequences of escapes, raw multi-byte characters and surrogates combine without bound, and tests compare a few decoded strings.", "anchors": ["include/json_struct/json_struct.h: Internal::handle_json_escapes_in", "include/json_struct/json_struct.h: Internal::handle_json_escapes_out"]}
{"id": "C72", "title": "A tokenizer given parsed tokens", "statement": "After addData or resetData with a vector of parsed tokens, nextToken returns exactly these tokens in order, from the given index on, and then goes on with the text where it stood before. Parsing an object from the tokens of a document gives the same error, object and reports as parsing it from the text.", "quantifier": "all states of the tokenizer outside of scopes, all vectors and indices, all texts that are still to be read, all options, types, values and documents", "why_tests_cant": "The tests feed the tokens of one document into a new tokenizer; text that is left over and indices in the middle do not occur.", "anchors": ["include/json_struct/json_struct.h: Tokenizer::addData(const std::vector<Token> *)", "include/json_struct/json_struct.h: Tokenizer::resetData", "include/json_struct/json_struct.h: Tokenizer::nextToken"]}
{"id": "C73", "title": "Which texts are read as numbers", "statement": "The handlers for integers, float and double accept every number of RFC 8259 and nothing else; in documents, arrays, objects, literals and strings are not accepted.", "quantifier": "all byte strings, all integer types, float and double, all JSON values", "why_tests_cant": "All byte strings; the tests only read numbers and a few plainly wrong texts.", "anchors": ["include/json_struct/json_struct.h: ft::parseNumber", "include/json_struct/json_struct.h: ft::to_integer", "include/json_struct/json_struct.h: TypeHandlerIntType", "include/json_struct/json_struct.h: TypeHandler<double>", "include/json_struct/json_struct.h: TypeHandler<float>"]}
{"id": "C74", "title": "A SerializerContext leaves exactly what was written", "statement": "After serialize() on a SerializerContext its string holds exactly the text written, whatever the string held before and however often the buffer had to grow; a further serialize() appends its text.", "quantifier": "all strings, all sequences of writes of any length, all sequences of calls", "why_tests_cant": "The buffer grows at lengths 4096, 8192, ... or those of the given string; errors depend on where the writes fall. The tests call serialize once.", "anchors": ["include/json_struct/json_struct.h: SerializerContext", "include/json_struct/json_struct.h: Serializer::write(const char *, size_t)", "include/json_struct/json_struct.h: serializeStruct", "include/json_struct/json_struct.h: DefaultCallFunctionContext"]}
{"id": "C75", "title": "Error texts of called functions", "statement": "After callFunctions every failed member has an error text that begins with the name of its own error and, if the function gave one, its own message; a member without error has none.", "quantifier": "all lists of members, all ways in which their calls end, all sequences of setError calls, all positions and settings", "why_tests_cant": "The texts depend on what the calls before left in the error context; the tests fail one function at a time.", "anchors": ["include/json_struct/json_struct.h: CallFunctionErrorContext::setError", "include/json_struct/json_struct.h: Internal::add_error", "include/json_struct/json_struct.h: CallFunctionContext::callFunctions", "include/json_struct/json_struct.h: ErrorContext::clear"]}
{"id": "C76", "title": "The diff of arbitrary texts is safe", "statement": "Making DiffTokens from any text and comparing two of them ends and never reads or writes outside the token vectors, unless a text was reported as an error.", "quantifier": "all pairs of byte strings, all tokenizer options, all comparisons of numbers", "why_tests_cant": "The tests compare well-formed documents; the walk over tokens relies on closing brackets and on the sizes in the metadata, for texts of any shape and nesting.", "anchors": ["include/json_struct/json_struct_diff.h: DiffTokens::generateTokens", "include/json_struct/json_struct_diff.h: Internal::Diff::diff", "include/json_struct/json_struct_diff.h: DiffTokens::skip", "include/json_struct/json_struct.h: metaForTokens"]}
{"id": "C77", "title": "Structs and vectors of kept tokens", "statement": "A struct whose members are token vectors (or JsonTokens) reads the values of an object into the members of their names and is written as the object of the kept values under the names of the members; a vector of them is written as the array of the values.", "quantifier": "all structs of token vectors, all kept values, all serializer options made by the library with quoted names, all buffer sizes", "why_tests_cant": "The tests write one struct right after reading it; values of any nesting, kept under any name and stored anywhere, are out of reach.", "anchors": ["include/json_struct/json_struct.h: TypeHandler<std::vector<Token, A>>::from", "include/json_struct/json_struct.h: TypeHandler<JsonTokens>::from", "include/json_struct/json_struct.h: Internal::serializeMember", "include/json_struct/json_struct.h: TypeHandler<std::vector<T, A>>::from"]}
{"id": "C78", "title": "Unescaping reads only its string and the digits it stored", "statement": "handle_json_escapes_in ends for every string, reads no byte outside of it, lets no size go below zero and uses no digit it did not store before.", "quantifier": "all byte strings, also those that are not JSON strings", "why_tests_cant": "A read one byte too far or of an unset digit usually gives the same result in a test; all lengths and positions of escapes are needed.", "anchors": ["include/json_struct/json_struct.h: Internal::handle_json_escapes_in"]}
{"id": "C79", "title": "Numbers in a diff", "statement": "The diff of two JSON documents compares the values of their numbers and never throws: every number is converted to its value, and two texts of the same number are the same.", "quantifier": "all documents, all numbers of RFC 8259, all comparisons of the converted numbers", "why_tests_cant": "The tests compare a few short numbers; which of all texts make std::stod throw is a question about all of them.", "anchors": ["include/json_struct/json_struct_diff.h: diffNumberValues", "include/json_struct/json_struct_diff.h: fuzzyEquals"]}
{"id": "C80", "title": "Escaping reads only its string, whatever the build", "statement": "handle_json_escapes_out ends for every string, reads no byte outside of it with vector or byte loops, and gives the same text in every build: the string itself if no byte stops the scan, else the buffer with the string in which exactly the seven bytes with a short escape are escaped.", "quantifier": "all byte strings, all builds (scalar, SSE2, SSE4.2, AVX2, NEON), all contents of the buffer handed in", "why_tests_cant": "A test runs one build and few lengths; a load over the end or a wrong lane at one length and position goes unnoticed.", "anchors": ["include/json_struct/json_struct.h: Internal::findFirstEscapeOut", "include/json_struct/json_struct.h: Internal::handle_json_escapes_out"]}
