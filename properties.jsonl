{"id": "C01", "title": "Matter text round trip", "statement": "Building a primitive from a derivation code and raw bytes, printing it with qb64() and parsing that text with new_with_qb64 gives back exactly the same code, raw bytes and size.", "quantifier": "every code of the code table (fixed and variable size) and every raw byte string the constructor accepts", "why_tests_cant": "the raw space is 2^256 or more per code and unbounded for variable-size codes; a test checks one raw value per code", "anchors": [{"file": "src/cesr/core/matter/mod.rs", "symbols": ["new_with_code_and_raw", "qb64", "new_with_qb64"]}, {"file": "src/cesr/core/matter/tables.rs", "symbols": ["sizage", "raw_size"]}]}
{"id": "C02", "title": "Matter binary round trip", "statement": "Building a primitive from a code and raw bytes, printing it with qb2() and parsing that with new_with_qb2 gives back exactly the same code, raw bytes and size.", "quantifier": "every code of the table and every accepted raw byte string", "why_tests_cant": "same input space as the text round trip, with different bit-packing arithmetic", "anchors": [{"file": "src/cesr/core/matter/mod.rs", "symbols": ["new_with_code_and_raw", "qb2", "new_with_qb2"]}, {"file": "src/cesr/core/util.rs", "symbols": ["code_b2_to_b64", "nab_sextets"]}]}
{"id": "C03", "title": "Text and binary domains agree", "statement": "For a constructed primitive qb2() is exactly the base64url decoding of qb64(), and qb64() exactly the encoding of qb2(), so a primitive (and any concatenation of primitives) can be converted between domains without being parsed.", "quantifier": "every constructed primitive, and every finite sequence of them", "why_tests_cant": "composability is a statement about all sequences and all alignments; finitely many examples do not cover the bit-offset cases for all contents", "anchors": [{"file": "src/cesr/core/matter/mod.rs", "symbols": ["infil", "binfil"]}]}
{"id": "C04", "title": "Encoded length is full_size and 24-bit aligned", "statement": "qb64() of a constructed primitive has exactly full_size() characters, a multiple of four, and qb2() exactly three quarters of that.", "quantifier": "every constructed primitive, including variable-size ones of any length", "why_tests_cant": "variable-size primitives have unboundedly many lengths", "anchors": [{"file": "src/cesr/core/matter/mod.rs", "symbols": ["qb64", "qb2", "full_size"]}]}
{"id": "C05", "title": "Primitives are self-framing in text", "statement": "Parsing a constructed primitive's qb64 followed by any further text yields the same primitive as parsing it alone.", "quantifier": "every constructed primitive and every well-formed UTF-8 continuation", "why_tests_cant": "the continuation is arbitrary", "anchors": [{"file": "src/cesr/core/matter/mod.rs", "symbols": ["exfil", "new_with_qb64", "new_with_qb64b"]}]}
{"id": "C06", "title": "Primitives are self-framing in binary", "statement": "Parsing a constructed primitive's qb2 followed by any further bytes yields the same primitive as parsing it alone.", "quantifier": "every constructed primitive and every byte string continuation", "why_tests_cant": "the continuation is arbitrary", "anchors": [{"file": "src/cesr/core/matter/mod.rs", "symbols": ["bexfil", "new_with_qb2"]}]}
{"id": "C07", "title": "A stream of primitives parses back", "statement": "Repeatedly parsing the head of a concatenation of printed primitives and advancing by its full size recovers exactly the original sequence, in text and in binary.", "quantifier": "every finite list of constructed primitives", "why_tests_cant": "quantifies over all lists, needs induction", "anchors": [{"file": "src/cesr/core/matter/mod.rs", "symbols": ["exfil", "bexfil", "full_size"]}]}
{"id": "C08", "title": "Text encoding is injective and prefix-free", "statement": "If the printed form of one constructed primitive is a prefix of the printed form of another then both have the same code, size and raw bytes.", "quantifier": "all pairs of constructed primitives", "why_tests_cant": "a property of all pairs", "anchors": [{"file": "src/cesr/core/matter/mod.rs", "symbols": ["infil"]}, {"file": "src/cesr/core/matter/tables.rs", "symbols": ["sizage", "hardage"]}]}
{"id": "C09", "title": "Text parsing is not malleable", "statement": "If some text parses to a primitive and the primitive can be printed, the print is exactly the leading characters of that text: no two different texts denote the same printable primitive.", "quantifier": "every UTF-8 text", "why_tests_cant": "signatures and digests are compared as text; the space of alternative encodings is not enumerable", "anchors": [{"file": "src/cesr/core/matter/mod.rs", "symbols": ["exfil", "infil"]}]}
{"id": "C10", "title": "Binary parsing is not malleable", "statement": "If some bytes parse to a primitive then printing it in binary succeeds and gives exactly the leading bytes of the input.", "quantifier": "every byte string", "why_tests_cant": "all byte strings", "anchors": [{"file": "src/cesr/core/matter/mod.rs", "symbols": ["bexfil", "binfil"]}]}
{"id": "C11", "title": "Everything that parses can be printed", "statement": "Any primitive obtained by parsing text can be printed again with qb64() and qb2() and has the raw size its code prescribes.", "quantifier": "every text that parses", "why_tests_cant": "all texts; the failing inputs are texts ending in base64 padding characters that no existing test feeds in", "anchors": [{"file": "src/cesr/core/matter/mod.rs", "symbols": ["exfil", "infil", "binfil"]}]}
{"id": "C12", "title": "Truncated input is rejected cleanly", "statement": "No proper prefix of a printed primitive parses: both text and binary parsers return an error (not a wrong primitive, not a panic).", "quantifier": "every constructed primitive and every cut position", "why_tests_cant": "all primitives and all cut positions", "anchors": [{"file": "src/cesr/core/matter/mod.rs", "symbols": ["exfil", "bexfil"]}]}
{"id": "C13", "title": "Non-zero pad and lead bits are rejected", "statement": "Text or binary in which a pad bit between code and material, or a lead byte, is not zero never parses.", "quantifier": "every input", "why_tests_cant": "all positions and all values of the pad bits, for every code", "anchors": [{"file": "src/cesr/core/matter/mod.rs", "symbols": ["exfil", "bexfil"]}]}
{"id": "C14", "title": "Parsing text never panics", "statement": "Parsing a qb64 text either returns a primitive or an error value; it never panics.", "quantifier": "every UTF-8 text", "why_tests_cant": "inputs come from the network; the panicking inputs are sparse", "anchors": [{"file": "src/cesr/core/matter/mod.rs", "symbols": ["exfil", "new_with_qb64", "new_with_qb64b"]}]}
{"id": "C15", "title": "Parsing binary never panics", "statement": "Parsing qb2 bytes either returns a primitive or an error value; it never panics.", "quantifier": "every byte string", "why_tests_cant": "inputs come from the network", "anchors": [{"file": "src/cesr/core/matter/mod.rs", "symbols": ["bexfil", "new_with_qb2"]}, {"file": "src/cesr/core/util.rs", "symbols": ["nab_sextets", "code_b2_to_b64"]}]}
{"id": "C16", "title": "Raw size enforcement", "statement": "Building a fixed-size primitive fails when fewer raw bytes than its code prescribes are given and otherwise keeps exactly the leading prescribed bytes; building from an unknown fixed code fails.", "quantifier": "every code string and every raw byte string", "why_tests_cant": "all lengths and contents", "anchors": [{"file": "src/cesr/core/matter/mod.rs", "symbols": ["new_with_code_and_raw"]}, {"file": "src/cesr/core/matter/tables.rs", "symbols": ["raw_size"]}]}
{"id": "C17", "title": "Variable-size code selection", "statement": "Building a variable-size primitive keeps all raw bytes, picks the lead-size code determined by the length modulo three, uses the small code exactly when the quadlet count is below 64^2, promotes to the large code below 64^4 and fails above.", "quantifier": "every variable-size code of the table and every raw byte string", "why_tests_cant": "all lengths up to 50 MB and the boundary values; a test cannot run through them", "anchors": [{"file": "src/cesr/core/matter/mod.rs", "symbols": ["new_with_code_and_raw"]}]}
{"id": "C18", "title": "Transferability classification", "statement": "A key code is reported non-transferable exactly when it is one of the non-transferable public key codes.", "quantifier": "every derivation code", "why_tests_cant": "finite but no test compares the list with the codex; the NIST P-256 non-transferable code is missed", "anchors": [{"file": "src/cesr/core/matter/mod.rs", "symbols": ["transferable"]}, {"file": "src/cesr/core/matter/tables.rs", "symbols": ["Codex"]}]}
{"id": "C19", "title": "Code tables are consistent", "statement": "For each of the three code families, the hard size announced by the first character (text) or first sextet (binary) is the length of every code starting with it, sizes are whole quadlets, and no code is a prefix of another.", "quantifier": "every code of the matter, indexer and counter tables and every first character/sextet", "why_tests_cant": "finite but spans three tables and all 256 byte values; unit tests list a handful of entries", "anchors": [{"file": "src/cesr/core/matter/tables.rs", "symbols": ["sizage", "hardage", "bardage"]}, {"file": "src/cesr/core/indexer/tables.rs", "symbols": ["sizage", "hardage", "bardage"]}, {"file": "src/cesr/core/counter/tables.rs", "symbols": ["sizage", "hardage", "bardage"]}]}
{"id": "C20", "title": "Base64 integer codec round trips", "statement": "Encoding an integer below 64^n on n characters gives exactly n characters that decode to the same integer, for 32 and 64 bit integers.", "quantifier": "every n up to 5 (10 for 64 bit) and every integer below 64^n", "why_tests_cant": "2^30 (2^60) integers", "anchors": [{"file": "src/cesr/core/util.rs", "symbols": ["u32_to_b64", "u64_to_b64", "b64_to_u32", "b64_to_u64"]}]}
{"id": "C21", "title": "Base64 integer codec is faithful out of range", "statement": "Encoding an integer that does not fit in n characters either fails or still decodes to the integer.", "quantifier": "every n and every 32-bit integer", "why_tests_cant": "boundary behaviour depends on a floating-point logarithm", "anchors": [{"file": "src/cesr/core/util.rs", "symbols": ["u32_to_b64"]}]}
{"id": "C22", "title": "Sextet access", "statement": "nab_sextets and code_b2_to_b64 return the leading six-bit groups of the bytes, and code_b64_to_b2 followed by code_b2_to_b64 is the identity.", "quantifier": "every byte string and every count up to eight", "why_tests_cant": "all byte strings", "anchors": [{"file": "src/cesr/core/util.rs", "symbols": ["nab_sextets", "code_b2_to_b64", "code_b64_to_b2"]}]}
{"id": "C23", "title": "Indexed signature text round trip", "statement": "Building an indexed primitive from code, raw, index and other-index and parsing its qb64 gives back the same code, raw bytes, index and other index.", "quantifier": "every indexer code, raw, index and optional other index the constructor accepts", "why_tests_cant": "2^24 index pairs times the raw space; the failing combinations are particular code/ondex pairs", "anchors": [{"file": "src/cesr/core/indexer/mod.rs", "symbols": ["new_with_code_and_raw", "infil", "exfil"]}, {"file": "src/cesr/core/indexer/tables.rs", "symbols": ["sizage"]}]}
{"id": "C24", "title": "Indexed signature binary round trip", "statement": "The same for qb2.", "quantifier": "every indexer code, raw, index and other index the constructor accepts", "why_tests_cant": "as above", "anchors": [{"file": "src/cesr/core/indexer/mod.rs", "symbols": ["binfil", "bexfil"]}]}
{"id": "C25", "title": "Indexed text and binary agree", "statement": "For a constructed signature-coded indexed primitive qb2() is the base64url decoding of qb64(), and its length is full_size, in whole quadlets.", "quantifier": "every signature code and accepted raw/index/ondex", "why_tests_cant": "all indices and contents", "anchors": [{"file": "src/cesr/core/indexer/mod.rs", "symbols": ["infil", "binfil", "full_size"]}]}
{"id": "C26", "title": "Index range enforcement", "statement": "An indexed primitive whose index or other index does not fit its code is never built, and a printed index never differs from the one held.", "quantifier": "every code, index and other index", "why_tests_cant": "all 2^32 index values", "anchors": [{"file": "src/cesr/core/indexer/mod.rs", "symbols": ["new_with_code_and_raw", "infil", "binfil"]}]}
{"id": "C27", "title": "Current-only codes carry no other index", "statement": "A current-only signature code is rejected with an explicit other index, and a both-list code built without one uses the index for both lists.", "quantifier": "every indexer code and index", "why_tests_cant": "all indices", "anchors": [{"file": "src/cesr/core/indexer/mod.rs", "symbols": ["new_with_code_and_raw"]}, {"file": "src/cesr/core/indexer/tables.rs", "symbols": ["CurrentSigCodex", "BothSigCodex"]}]}
{"id": "C28", "title": "Indexed parsing rejects truncation and dirty pad bits", "statement": "No proper prefix of a printed indexed signature parses, and non-zero pad bits never parse, in text and binary.", "quantifier": "every printed indexed signature and cut position; every input", "why_tests_cant": "all cut positions and pad values", "anchors": [{"file": "src/cesr/core/indexer/mod.rs", "symbols": ["exfil", "bexfil"]}]}
{"id": "C29", "title": "Indexed parsing is self-framing and not malleable", "statement": "Trailing data never changes the parse; if the parse can be printed it prints to exactly the consumed prefix.", "quantifier": "every input and continuation", "why_tests_cant": "all inputs", "anchors": [{"file": "src/cesr/core/indexer/mod.rs", "symbols": ["exfil", "bexfil"]}]}
{"id": "C30", "title": "Counter round trips", "statement": "A counter built from code and count prints to 4 or 8 characters (3 or 6 bytes) that parse back to the same code and count, in both domains, and trailing data does not matter.", "quantifier": "every counter code and every count it can hold", "why_tests_cant": "2^30 counts", "anchors": [{"file": "src/cesr/core/counter/mod.rs", "symbols": ["new_with_code_and_count", "infil", "exfil", "binfil", "bexfil"]}, {"file": "src/cesr/core/counter/tables.rs", "symbols": ["sizage"]}]}
{"id": "C31", "title": "Counter count bounds", "statement": "A counter is built exactly when the count fits the code's soft part; otherwise construction fails.", "quantifier": "every counter code and every 32-bit count", "why_tests_cant": "all counts", "anchors": [{"file": "src/cesr/core/counter/mod.rs", "symbols": ["new_with_code_and_count"]}]}
{"id": "C32", "title": "Counter parsing never panics", "statement": "Parsing a counter from text either returns a counter or an error.", "quantifier": "every UTF-8 text", "why_tests_cant": "network input; the failing inputs are one-byte texts and texts whose second byte is inside a character", "anchors": [{"file": "src/cesr/core/counter/mod.rs", "symbols": ["exfil"]}]}
{"id": "C33", "title": "Semantic version packing", "statement": "A semantic version string with three parts below 64 packs to three base64 characters from which exactly these parts can be read; any part of 64 or more or a fourth part is rejected.", "quantifier": "every string", "why_tests_cant": "all strings, including signs and empty parts", "anchors": [{"file": "src/cesr/core/counter/mod.rs", "symbols": ["sem_ver_str_to_b64", "sem_ver_parts_to_b64"]}]}
{"id": "C34", "title": "Number round trip and minimal code", "statement": "A number built from an integer reads back as the same integer, also after printing and parsing, and its code is the smallest of the four sizes that fits.", "quantifier": "every integer below 2^128", "why_tests_cant": "2^128 values", "anchors": [{"file": "src/cesr/core/number.rs", "symbols": ["new", "num", "numh", "new_with_num", "new_with_numh"]}]}
{"id": "C35", "title": "Sequence numbers round trip and sort", "statement": "A sequence number reads back the same after printing and parsing, and the byte order of raw (and of qb2) is the numeric order.", "quantifier": "every pair of integers below 2^128", "why_tests_cant": "all pairs", "anchors": [{"file": "src/cesr/core/seqner.rs", "symbols": ["new", "sn", "snh"]}]}
{"id": "C36", "title": "Hex sequence numbers round trip", "statement": "snh()/numh() print lower-case hexadecimal without leading zeros that reads back to the same integer.", "quantifier": "every integer below 2^128", "why_tests_cant": "2^128 values", "anchors": [{"file": "src/cesr/core/seqner.rs", "symbols": ["snh"]}, {"file": "src/cesr/core/number.rs", "symbols": ["numh"]}]}
{"id": "C37", "title": "Date-time round trip", "statement": "A date-time built from an ISO 8601 string reads back as the same string, also through qb64 and qb2.", "quantifier": "every ISO 8601 string accepted by the constructor", "why_tests_cant": "all timestamps; longer fractions or offsets are silently cut", "anchors": [{"file": "src/cesr/core/dater.rs", "symbols": ["new", "dts", "iso_8601_to_b64", "b64_to_iso_8601"]}]}
{"id": "C38", "title": "Base64 text round trip", "statement": "A Bexter built from a base64url string reads back the same string.", "quantifier": "every string over the base64url alphabet", "why_tests_cant": "all strings; the failing ones have length divisible by four and start with A", "anchors": [{"file": "src/cesr/core/bexter.rs", "symbols": ["bext", "rawify", "new_with_bext"]}]}
{"id": "C39", "title": "Base64 text validation", "statement": "A Bexter is built exactly from strings over the base64url alphabet; any other string is rejected.", "quantifier": "every string", "why_tests_cant": "all strings", "anchors": [{"file": "src/cesr/core/bexter.rs", "symbols": ["new_with_bext"]}]}
{"id": "C40", "title": "Parsed primitives have the right kind", "statement": "Parsing text as a verification key, digest, signature, sequence number, date-time, number, salt, seed or prefix succeeds only when the code belongs to that kind.", "quantifier": "every text and every kind of primitive", "why_tests_cant": "kind confusion needs all codes against all kinds, through the parse path", "anchors": [{"file": "src/cesr/core/verfer.rs", "symbols": ["new"]}, {"file": "src/cesr/core/diger.rs", "symbols": ["new"]}, {"file": "src/cesr/core/number.rs", "symbols": ["new"]}, {"file": "src/cesr/core/salter.rs", "symbols": ["new"]}, {"file": "src/prefexing/prefixer.rs", "symbols": ["new"]}, {"file": "src/cesr/core/cigar.rs", "symbols": ["new"]}, {"file": "src/cesr/core/siger.rs", "symbols": ["new"]}, {"file": "src/signing/signer.rs", "symbols": ["new"]}]}
{"id": "C41", "title": "Numeric threshold exactness", "statement": "A numeric threshold of k is satisfied by a set of signature indices exactly when it contains at least k distinct indices.", "quantifier": "every k and every list of indices", "why_tests_cant": "all lists; lists with repeated indices are the failing ones", "anchors": [{"file": "src/cesr/core/tholder.rs", "symbols": ["satisfy", "satisfy_numeric"]}]}
{"id": "C42", "title": "Weighted threshold exactness", "statement": "A weighted threshold is satisfied by a list of indices exactly when in every clause the exact rational sum of the weights at those positions is at least one.", "quantifier": "every weighted threshold the constructors accept and every list of indices within its size", "why_tests_cant": "rational sums over all weights and subsets; fixed-width arithmetic", "anchors": [{"file": "src/cesr/core/tholder.rs", "symbols": ["satisfy_weighted", "values_to_rationals"]}]}
{"id": "C43", "title": "Threshold monotonicity and order independence", "statement": "Adding more signatures never makes a satisfied threshold unsatisfied, and order or repetition of indices does not matter for weighted thresholds.", "quantifier": "every threshold, every pair of index lists", "why_tests_cant": "all pairs of lists", "anchors": [{"file": "src/cesr/core/tholder.rs", "symbols": ["satisfy"]}]}
{"id": "C44", "title": "No threshold is met by nobody", "statement": "An accepted threshold is not satisfied by the empty list of signatures.", "quantifier": "every threshold accepted by any of the constructors", "why_tests_cant": "all thresholds; one constructor accepts an empty weight list", "anchors": [{"file": "src/cesr/core/tholder.rs", "symbols": ["new", "process_thold", "process_sith", "process_limen", "satisfy"]}]}
{"id": "C45", "title": "Accepted thresholds are attainable", "statement": "Every threshold accepted by the constructors, numeric zero aside, is satisfied when all of its keys have signed.", "quantifier": "every accepted threshold", "why_tests_cant": "all weight lists", "anchors": [{"file": "src/cesr/core/tholder.rs", "symbols": ["values_to_rationals", "satisfy"]}]}
{"id": "C46", "title": "Threshold serialisations round trip", "statement": "Reading a threshold back from its limen (qb64) or its sith (JSON) form gives an equal threshold.", "quantifier": "every accepted non-empty threshold", "why_tests_cant": "all weight lists", "anchors": [{"file": "src/cesr/core/tholder.rs", "symbols": ["limen", "sith", "process_limen", "process_sith"]}]}
{"id": "C47", "title": "Threshold evaluation never panics", "statement": "Constructing a threshold from any value and evaluating it on any indices returns a value or an error.", "quantifier": "every JSON value and every index list", "why_tests_cant": "weights and indices come from the network", "anchors": [{"file": "src/cesr/core/tholder.rs", "symbols": ["new", "satisfy", "values_to_rationals"]}]}
{"id": "C48", "title": "JSON output is injective", "statement": "Two data values with the same JSON text are equal (for values without floats).", "quantifier": "every pair of data values", "why_tests_cant": "SAID security rests on it; all pairs of values", "anchors": [{"file": "src/data.rs", "symbols": ["to_json"]}]}
{"id": "C49", "title": "JSON round trip", "statement": "Parsing the JSON text of a data value gives the value back, with key order preserved (integers, strings, booleans, null, arrays, objects).", "quantifier": "every float-free data value of nesting depth at most 127", "why_tests_cant": "all values, all strings with escapes", "anchors": [{"file": "src/data.rs", "symbols": ["to_json", "From<&JsonValue>"]}, {"file": "src/cesr/core/common.rs", "symbols": ["dumps", "loads"]}]}
{"id": "C50", "title": "Loading JSON never panics", "statement": "Reading any JSON text into a data value returns a value or an error.", "quantifier": "every text", "why_tests_cant": "numbers outside i64 or in exponent form are the failing inputs", "anchors": [{"file": "src/data.rs", "symbols": ["From<&JsonValue>"]}]}
{"id": "C51", "title": "Version string round trip", "statement": "versify followed by deversify returns the same protocol, version, kind and size and the text has 17 characters; deversify accepts nothing but such texts.", "quantifier": "every size below 2^24; every text", "why_tests_cant": "2^24 sizes, all texts", "anchors": [{"file": "src/cesr/core/common.rs", "symbols": ["versify", "deversify"]}]}
{"id": "C52", "title": "Sizing writes the true size", "statement": "After sizing an event, the returned raw is the JSON of the returned data, its length is the returned size, and the version string states that size.", "quantifier": "every data map accepted by sizeify", "why_tests_cant": "all maps; the failing maps carry another version-like text before the version field", "anchors": [{"file": "src/cesr/core/common.rs", "symbols": ["sizeify"]}]}
{"id": "C53", "title": "Sizing is idempotent and ignores the old size", "statement": "The raw of a sized event does not depend on the size written in the incoming version string, and sizing again changes nothing.", "quantifier": "every data map whose first field is the version", "why_tests_cant": "all maps", "anchors": [{"file": "src/cesr/core/common.rs", "symbols": ["sizeify"]}]}
{"id": "C54", "title": "Events survive serialisation", "statement": "An event built from data, serialised, and read from the raw bytes (followed by anything) has the same data, raw, size, kind, version and identifier.", "quantifier": "every float-free event and every UTF-8 continuation", "why_tests_cant": "all events, all continuations", "anchors": [{"file": "src/cesr/core/sadder.rs", "symbols": ["new", "inhale", "exhale"]}, {"file": "src/cesr/core/serder.rs", "symbols": ["new_with_raw", "new_with_ked"]}, {"file": "src/cesr/core/common.rs", "symbols": ["sniff", "loads"]}]}
{"id": "C55", "title": "Reading events never panics", "statement": "Building an event from arbitrary bytes returns an event or an error.", "quantifier": "every byte string", "why_tests_cant": "network input; truncated events and events without a SAID field fail", "anchors": [{"file": "src/cesr/core/sadder.rs", "symbols": ["new"]}, {"file": "src/cesr/core/common.rs", "symbols": ["loads", "sniff"]}]}
{"id": "C56", "title": "Truncated events are rejected", "statement": "Building an event from a proper prefix of its raw bytes returns an error.", "quantifier": "every event and cut position", "why_tests_cant": "all cut positions", "anchors": [{"file": "src/cesr/core/sadder.rs", "symbols": ["inhale"]}, {"file": "src/cesr/core/common.rs", "symbols": ["loads"]}]}
{"id": "C57", "title": "Accepted events carry their own digest", "statement": "An event accepted from raw bytes or data contains the digest of its content in its SAID field.", "quantifier": "every accepted event", "why_tests_cant": "all events", "anchors": [{"file": "src/cesr/core/sadder.rs", "symbols": ["new", "populate_from_raw", "populate_from_ked"]}]}
{"id": "C58", "title": "SAID round trip", "statement": "After saidify, verifying the returned SAID against the returned data succeeds, with prefix and version checking on.", "quantifier": "every data map (with or without version string), label, digest code and ignore list", "why_tests_cant": "all maps; depends on two-pass derivation and size stability", "anchors": [{"file": "src/cesr/core/saider.rs", "symbols": ["saidify", "verify", "derive"]}]}
{"id": "C59", "title": "SAID verification is tamper evident", "statement": "If the same SAID verifies against two data values then either the values agree outside the label field (and the version size), or the digest function collides.", "quantifier": "all pairs of data values", "why_tests_cant": "all pairs; a security statement", "anchors": [{"file": "src/cesr/core/saider.rs", "symbols": ["verify", "derive", "serialize"]}]}
{"id": "C60", "title": "SAID derivation ignores the label content", "statement": "The SAID does not depend on what the label field held before, and saidify applied to its own output changes nothing.", "quantifier": "every data map", "why_tests_cant": "all maps", "anchors": [{"file": "src/cesr/core/saider.rs", "symbols": ["saidify", "derive"]}]}
{"id": "C61", "title": "SAID verification never panics", "statement": "Verifying a SAID against any data value returns a boolean or an error.", "quantifier": "every data value", "why_tests_cant": "all values; non-objects are the failing ones", "anchors": [{"file": "src/cesr/core/saider.rs", "symbols": ["verify", "derive"]}]}
{"id": "C62", "title": "Prefix derivation verifies", "statement": "A prefix derived from an inception event verifies against the same event with the prefix (and SAID) written in.", "quantifier": "every inception event and prefix code", "why_tests_cant": "all events", "anchors": [{"file": "src/prefexing/prefixer.rs", "symbols": ["new", "derive", "verify"]}]}
{"id": "C63", "title": "Prefix verification is tamper evident", "statement": "If a digest prefix verifies against two inception events they agree outside the prefix and SAID fields or the digest collides; if a basic prefix verifies, it is the event's only key.", "quantifier": "all pairs of inception events", "why_tests_cant": "all pairs", "anchors": [{"file": "src/prefexing/prefixer.rs", "symbols": ["verify_digest", "verify_transferable", "verify_nontransferable"]}]}
{"id": "C64", "title": "Non-transferable prefixes commit to no successors", "statement": "A non-transferable prefix neither derives from nor verifies against an event naming next keys, witnesses or anchors.", "quantifier": "every event", "why_tests_cant": "all events", "anchors": [{"file": "src/prefexing/prefixer.rs", "symbols": ["derive_nontransferable", "verify_nontransferable"]}]}
{"id": "C65", "title": "Signatures verify", "statement": "Whatever a signer signs verifies under its own verification key, indexed or not, also after the key and signature pass through qb64.", "quantifier": "every seed, message, index, ondex and mode", "why_tests_cant": "all inputs; relative to correctness of the signature scheme", "anchors": [{"file": "src/signing/signer.rs", "symbols": ["sign_unindexed", "sign_indexed"]}, {"file": "src/cesr/core/verfer.rs", "symbols": ["verify"]}]}
{"id": "C66", "title": "Indexed signing keeps its indices", "statement": "sign_indexed picks the code so that index, other index and current-only mode are recoverable from the printed signature; it fails for indices that do not fit.", "quantifier": "every index, optional other index and mode", "why_tests_cant": "2^64 index pairs", "anchors": [{"file": "src/signing/signer.rs", "symbols": ["sign_indexed"]}]}
{"id": "C67", "title": "Signer transferability matches its key", "statement": "The key code of a signer is transferable exactly when the signer was built transferable, and of the scheme of the seed code.", "quantifier": "every seed code and flag, every seed", "why_tests_cant": "all seeds", "anchors": [{"file": "src/signing/signer.rs", "symbols": ["derive_verfer", "new"]}]}
{"id": "C68", "title": "Digest comparison is sound", "statement": "compare reports equality only if the two digests are textually equal or both are digests of the given data.", "quantifier": "every pair of digests and data", "why_tests_cant": "all pairs", "anchors": [{"file": "src/cesr/core/diger.rs", "symbols": ["compare", "verify"]}]}
{"id": "C69", "title": "Digest of data verifies only that data", "statement": "A digest built from data verifies that data, and if it verifies other data the hash collides.", "quantifier": "every code and pair of data", "why_tests_cant": "all pairs", "anchors": [{"file": "src/cesr/core/diger.rs", "symbols": ["new", "verify"]}]}
{"id": "C70", "title": "Derived signers use distinct paths", "statement": "Within one batch of derived signers, and between rotations of one creator, different key positions are stretched from different paths.", "quantifier": "every batch size, start index, rotation index and key index", "why_tests_cant": "all index pairs; concatenated hexadecimal indices collide", "anchors": [{"file": "src/cesr/core/salter.rs", "symbols": ["signers"]}, {"file": "src/signify/creating.rs", "symbols": ["SaltyCreator", "create"]}]}
{"id": "C71", "title": "Requested security tier is used", "statement": "Keys created by a salty creator are stretched with the security tier the creator was built with.", "quantifier": "every tier, salt and parameters", "why_tests_cant": "a configuration flow property; tests use the default tier", "anchors": [{"file": "src/signify/creating.rs", "symbols": ["SaltyCreator::new", "create"]}]}
{"id": "C72", "title": "Path round trip", "statement": "A pather built from a list of path elements gives the same elements back.", "quantifier": "every list of elements the constructor accepts", "why_tests_cant": "all lists; elements containing a dash are accepted but split", "anchors": [{"file": "src/pathing/pather.rs", "symbols": ["new_with_path", "path", "bextify"]}]}
{"id": "C73", "title": "Rooting and stripping are inverse", "statement": "Rooting a path and stripping the same root gives the path back, and a rooted path starts with its root.", "quantifier": "all pairs of paths", "why_tests_cant": "all pairs; repeated elements fail", "anchors": [{"file": "src/pathing/pather.rs", "symbols": ["root", "strip", "starts_with"]}]}
{"id": "C74", "title": "starts_with is element-wise", "statement": "A path starts with another exactly when the other's element list is a prefix of its own.", "quantifier": "all pairs of paths", "why_tests_cant": "all pairs; textual prefix is not element prefix", "anchors": [{"file": "src/pathing/pather.rs", "symbols": ["starts_with"]}]}
{"id": "C75", "title": "Path resolution", "statement": "Resolving a path against a value follows its elements through maps (by label or position) and arrays (by position), the root path resolves to the whole value, and a missing step is an error.", "quantifier": "every path and value", "why_tests_cant": "all nested values", "anchors": [{"file": "src/pathing/pather.rs", "symbols": ["resolve", "_resolve", "tail"]}]}
{"id": "C76", "title": "Attachment streams parse back", "statement": "A message with attached indexed signatures is the message followed by a counter stating the exact number of signatures and the signatures in order, which parse back.", "quantifier": "every message and every list of signatures", "why_tests_cant": "all lists", "anchors": [{"file": "src/messaging.rs", "symbols": ["messagize"]}, {"file": "src/cesr/core/counter/mod.rs", "symbols": ["qb64b"]}, {"file": "src/cesr/core/indexer/mod.rs", "symbols": ["qb64b"]}]}
{"id": "C77", "title": "Attached receipts are all emitted", "statement": "Every signature passed to messagize, indexed or not, appears in the output or the call fails.", "quantifier": "every combination of signature arguments", "why_tests_cant": "all argument combinations", "anchors": [{"file": "src/messaging.rs", "symbols": ["messagize"]}]}
{"id": "C78", "title": "Constructor argument precedence", "statement": "When several encodings are given to one constructor the result equals parsing the first present in the order raw, qb64b, qb64, qb2, and giving none is an error.", "quantifier": "every combination of optional arguments", "why_tests_cant": "all combinations of contents", "anchors": [{"file": "src/cesr/core/matter/mod.rs", "symbols": ["new"]}, {"file": "src/cesr/core/indexer/mod.rs", "symbols": ["new"]}, {"file": "src/cesr/core/counter/mod.rs", "symbols": ["new"]}]}
{"id": "C79", "title": "Indexed parsing never panics", "statement": "Parsing an indexed primitive from bytes or text returns a value or an error.", "quantifier": "every byte string and every text", "why_tests_cant": "network input; the failing texts contain characters outside ASCII", "anchors": [{"file": "src/cesr/core/indexer/mod.rs", "symbols": ["exfil", "bexfil"]}]}
{"id": "C80", "title": "The integer of a parsed number can be read", "statement": "Reading the integer of a number or sequence number obtained by parsing returns a value (below 256 to the width of its code) or an error, never a panic.", "quantifier": "every text and every byte string that parses", "why_tests_cant": "Panics occur only on texts with a particular ending that no test parses.", "anchors": [{"file": "src/cesr/core/number.rs", "symbols": ["Number"]}, {"file": "src/cesr/core/seqner.rs", "symbols": ["Seqner"]}]}
{"id": "C81", "title": "Read values can be written", "statement": "Whatever float-free value the JSON loader returns consists of 64-bit integers, UTF-8 strings and maps with distinct labels, nested at most 127 deep, and reading its own JSON text returns it unchanged.", "quantifier": "every text", "why_tests_cant": "Depends on every number form, escape, duplicate label and nesting a text can contain.", "anchors": [{"file": "src/data.rs", "symbols": ["From<&JsonValue> for Value", "to_json"]}]}
{"id": "C82", "title": "Weights are fractions from zero to one", "statement": "A weight text occurring in an accepted threshold is an integer or a fraction of integers whose value is between zero and one, and every such fraction of 32-bit size is accepted.", "quantifier": "every threshold value accepted by the constructors and every weight in it", "why_tests_cant": "all strings; the fallback branch of the parser looks only at the first part of a text with several division signs", "anchors": [{"file": "src/cesr/core/tholder.rs", "symbols": ["values_to_rationals"]}]}
{"id": "C83", "title": "Ignored fields are just left out of the digest", "statement": "With an ignore list the SAID is the digest of the JSON of the data without the ignored fields, the others in their order.", "quantifier": "every data map and ignore list", "why_tests_cant": "the order in which remaining fields are serialised after a removal depends on the removal primitive and on the position of the removed field", "anchors": [{"file": "src/cesr/core/saider.rs", "symbols": ["derive"]}]}
{"id": "C84", "title": "Which events can be sized", "statement": "An event whose first field is the version is sized exactly when the version string is one of version 1.0 and the JSON is shorter than 2^24 bytes; otherwise an error is returned, no panic.", "quantifier": "every data map with v first and JSON below 2^32 bytes", "why_tests_cant": "sizes near the limit are too large to test", "anchors": [{"file": "src/cesr/core/common.rs", "symbols": ["sizeify"]}]}
{"id": "C85", "title": "A verified SAID is the digest of the data", "statement": "If a SAID verifies against data, the SAID is the digest of the JSON text of these data with the label field replaced by a run of # signs of the SAID's length; for data without a version string the converse holds as well.", "quantifier": "every primitive, data map, label and digest function", "why_tests_cant": "pins down what exactly is digested, over all data; a unit test only fixes one digest", "anchors": [{"file": "src/cesr/core/saider.rs", "symbols": ["verify", "derive", "serialize"]}]}
{"id": "C86", "title": "One list of digest codes", "statement": "A primitive is reported digestive, can be built as a SAID and has a digest function exactly when its code is one of the nine digest codes.", "quantifier": "every well-formed primitive", "why_tests_cant": "four separate code lists in the source must agree for all codes", "anchors": [{"file": "src/cesr/core/matter/mod.rs", "symbols": ["digestive"]}, {"file": "src/cesr/core/saider.rs", "symbols": ["validate_code"]}, {"file": "src/cesr/crypto/hash.rs", "symbols": ["digest"]}]}
{"id": "C87", "title": "Reading an event is local", "statement": "An event read from bytes keeps exactly the announced number of them, its data are what those bytes parse to, and reading those bytes followed by any other text gives the same event.", "quantifier": "every byte string an event is read from and every UTF-8 continuation", "why_tests_cant": "the continuation is arbitrary and may itself contain version strings; tests fix one stream", "anchors": [{"file": "src/cesr/core/sadder.rs", "symbols": ["inhale", "populate_from_raw"]}, {"file": "src/cesr/core/common.rs", "symbols": ["sniff", "loads"]}]}
{"id": "C88", "title": "Event accessors return what the fields say", "statement": "The keys, next-key digests and witnesses of an event are the primitives listed in its fields in order; its sequence number is the hexadecimal number in s; it is an establishment event exactly for ilks icp, rot, dip and drt.", "quantifier": "every event and every field content", "why_tests_cant": "lists of any length with any mixture of codes and malformed entries", "anchors": [{"file": "src/cesr/core/serder.rs", "symbols": ["verfers", "digers", "werfers", "sner", "sn", "pre", "est"]}]}
{"id": "C89", "title": "Deriving and verifying prefixes never panics", "statement": "Deriving a prefix from an event, or verifying a prefix against an event, returns a value or an error on every event.", "quantifier": "every event, code and option", "why_tests_cant": "all JSON values as events", "anchors": [{"file": "src/prefexing/prefixer.rs", "symbols": ["new", "derive", "verify"]}]}
{"id": "C90", "title": "Building a signer never panics", "statement": "Signer::new returns a signer or an error on every input; a raw seed of at least the required size whose public key exists builds a signer.", "quantifier": "every code, raw seed and encoded text", "why_tests_cant": "all texts of seed codes, including non-canonical padding", "anchors": [{"file": "src/signing/signer.rs", "symbols": ["new", "derive_verfer"]}, {"file": "src/cesr/crypto/sign.rs", "symbols": ["public_key"]}]}
{"id": "C91", "title": "Different accounts get different keys", "statement": "Keys a salty creator creates for different account indices (pidx) are stretched from different paths.", "quantifier": "every creator, pair of account indices, rotation and key index", "why_tests_cant": "all index pairs; a stem hides the account index", "anchors": [{"file": "src/signify/creating.rs", "symbols": ["SaltyCreator", "create"]}]}
{"id": "C92", "title": "Creators report errors instead of panicking", "statement": "Building a salty creator and creating keys return an error, and do not panic, on invalid salts, codes and indices.", "quantifier": "every salt, code list, index and flag", "why_tests_cant": "all inputs; unwrap and integer overflow", "anchors": [{"file": "src/signify/creating.rs", "symbols": ["SaltyCreator"]}]}
{"id": "C93", "title": "Creators return what was asked for", "statement": "Salty and randy creators return one signer per requested code in order (or count of the default code), each of that code with the requested transferability.", "quantifier": "every list of codes, count, code and flag", "why_tests_cant": "all lists", "anchors": [{"file": "src/signify/creating.rs", "symbols": ["SaltyCreator", "RandyCreator", "create"]}]}
{"id": "C94", "title": "Path operations never panic", "statement": "Reading, rooting, stripping, comparing and resolving paths return a value or an error, and do not panic.", "quantifier": "every pair of paths and every value", "why_tests_cant": "all pairs of paths; removal from a vector by stored index", "anchors": [{"file": "src/pathing/pather.rs", "symbols": ["path", "root", "strip", "starts_with", "resolve"]}]}
{"id": "C95", "title": "Tail of a path is an identifier or a container", "statement": "The tail of a path in an event is the resolved text only if that text is a self-addressing identifier, or the JSON of the resolved map or array, and an error otherwise.", "quantifier": "every path and event", "why_tests_cant": "all values reachable by a path; text after an identifier", "anchors": [{"file": "src/pathing/pather.rs", "symbols": ["tail"]}]}
{"id": "C96", "title": "Seals are emitted", "statement": "A seal passed to messagize is in the output, before the signatures it belongs to, and reads back; or the call fails.", "quantifier": "every seal and every combination of signature arguments", "why_tests_cant": "all seals and argument combinations", "anchors": [{"file": "src/messaging.rs", "symbols": ["messagize"]}, {"file": "src/seal.rs", "symbols": ["Seal"]}]}
{"id": "C97", "title": "Receipts carry what they acknowledge", "statement": "A receipt made for a prefix, sequence number and digest has exactly those as its data, its accessors give them back, it reads back from its bytes, and the inputs for which it is refused are known exactly.", "quantifier": "every prefix, sequence number and digest text", "why_tests_cant": "all inputs", "anchors": [{"file": "src/receipting.rs", "symbols": ["receipt"]}]}
{"id": "C98", "title": "Primitives in arbitrary states", "statement": "A primitive whose code, size, raw, index or other index were changed through the setters, or which is a default value, prints in text or binary only forms that read back as itself, and the states in which printing, sizing or reading it panics are known exactly.", "quantifier": "every code, size, raw, index and other index", "why_tests_cant": "the state space of the public setters is unbounded", "anchors": [{"file": "src/cesr/core/matter/mod.rs", "symbols": ["set_code", "set_size", "set_raw", "qb64", "qb2", "full_size"]}, {"file": "src/cesr/core/indexer/mod.rs", "symbols": ["set_index", "set_ondex", "qb64", "qb2", "full_size"]}, {"file": "src/cesr/core/number.rs", "symbols": ["num"]}, {"file": "src/cesr/core/seqner.rs", "symbols": ["sn"]}, {"file": "src/cesr/core/dater.rs", "symbols": ["dts"]}, {"file": "src/cesr/core/bexter.rs", "symbols": ["bext"]}]}
{"id": "C99", "title": "Editing data through brackets changes exactly the addressed part", "statement": "For any data value v and any chain of brackets: reading returns exactly the part the brackets denote and panics exactly when they denote none. Assigning to a denoted part replaces it and leaves every other part, the lengths and the label order as they were; assigning to a label that the addressed object lacks appends that label; every other assignment panics (in particular v[\"new\"][\"deeper\"] = x). An edited value is again a well-formed value whose JSON text reads back as itself. Merely taking a mutable reference to a missing label adds it with null.", "quantifier": "all values, chains of labels and positions, assigned values", "why_tests_cant": "trees, paths and values are unbounded; the claim covers every untouched part", "anchors": [{"file": "src/data.rs", "symbols": ["Index<usize> for Value", "Index<&str> for Value", "IndexMut<usize> for Value", "IndexMut<&str> for Value"]}]}
{"id": "C100", "title": "Building objects and converting values", "statement": "An object literal has each label once, where it was first given, with the value given last. An object made from a HashMap answers every label the same whatever the iteration order, but two orders never give the same JSON text. TryFrom and the to_x methods agree except that TryFrom also converts between integers and floats; none panics.", "quantifier": "all lists of entries and all their permutations, all values", "why_tests_cant": "the entry lists and iteration orders are unbounded; a test sees one iteration order", "anchors": [{"file": "src/data.rs", "symbols": ["dat!", "From<&HashMap<String", " Value>> for Value", "TryFrom<&Value>", "to_i64", "to_f64"]}]}
{"id": "C101", "title": "Saidify changes only the SAID field and the announced size", "statement": "Whenever saidify succeeds, the data it returns have the same labels in the same order as the data given; the label field holds the text of the returned SAID, whose code is the one asked for (Blake3-256 if none); the version string, if any, is replaced by one of the same protocol that announces the size of the returned data's own JSON; every other field is untouched. Saider::new on the returned data, with or without the code, recomputes that same SAID.", "quantifier": "all data, codes, kinds, labels, ignored labels and digest functions of the right output size", "why_tests_cant": "data and digests are unbounded; the claim covers every untouched field", "anchors": [{"file": "src/cesr/core/saider.rs", "symbols": ["saidify", "derive", "new"]}, {"file": "src/cesr/core/common.rs", "symbols": ["sizeify"]}]}
{"id": "C102", "title": "Events and credentials report what their fields say", "statement": "The current and next thresholds of an event are those written in its fields kt and nt (none if absent) and a hexadecimal text there means its number; the first-seen number is the one of the primitive in f; the issuer, schema, subject, status registry and chains of a credential are its fields i, s, a, ri and e; the SAID reported is the text in d and the event's code is the SAID's. Missing compulsory fields panic, missing optional ones give none.", "quantifier": "all data and all streams", "why_tests_cant": "field contents are unbounded and each accessor must read its own field", "anchors": [{"file": "src/cesr/core/serder.rs", "symbols": ["tholder", "ntholder", "fner", "_fn"]}, {"file": "src/cesr/core/creder.rs", "symbols": ["issuer", "schema", "subject", "status", "chains"]}, {"file": "src/cesr/core/sadder.rs", "symbols": ["said"]}, {"file": "src/cesr/core/tholder.rs", "symbols": ["process_sith"]}]}
{"id": "C103", "title": "JSON texts in any layout are read, down to the nesting limit", "statement": "A JSON text of a data value, whatever white space stands around and between its tokens, is read back as that very value if the value nests at most 127 deep and is refused otherwise; what the library prints itself is read back exactly when it nests at most 127 deep.", "quantifier": "all data values, all layouts", "why_tests_cant": "texts, layouts and depths are unbounded", "anchors": [{"file": "src/data.rs", "symbols": ["Value", "to_json", "from"]}, {"file": "src/cesr/core/common.rs", "symbols": ["loads"]}]}
{"id": "C104", "title": "The readable form of an event shows its data", "statement": "The readable (pretty) form of an event is a JSON text of its data that reads back as the same data when not cut; it is cut to exactly the limit asked for (1024 bytes by default) and never panics; data nested too deep give an error.", "quantifier": "all events and all limits", "why_tests_cant": "data, texts and limits are unbounded; a limit may fall inside a character", "anchors": [{"file": "src/cesr/core/sadder.rs", "symbols": ["pretty"]}]}
{"id": "C105", "title": "A signed event is accepted by whoever reads it", "statement": "Data with a version string and the texts of the signers' keys in k can be given a SAID and built into an event; asked for signatures by any of the signers, in any order and number up to 4095, the message can be made; the reader gets the very same event, whose SAID verifies and whose keys are the signers' keys, followed by exactly those signatures, each verifying under the key at its index; the threshold found is the one written in kt, satisfied when enough signatures are there.", "quantifier": "all signers, data, requests, digest functions and correct signature schemes", "why_tests_cant": "composes saidify, event building, signing, framing and reading over unbounded data and key lists", "anchors": [{"file": "src/cesr/core/saider.rs", "symbols": ["saidify", "verify"]}, {"file": "src/cesr/core/serder.rs", "symbols": ["new", "verfers", "tholder"]}, {"file": "src/signing/signer.rs", "symbols": ["sign_indexed"]}, {"file": "src/messaging.rs", "symbols": ["messagize"]}, {"file": "src/cesr/core/tholder.rs", "symbols": ["satisfy"]}]}
{"id": "C106", "title": "No other event passes under the same SAID", "statement": "An event read from any stream that carries the SAID of a given verified event and verifies itself has exactly the same data, each field in its place, unless the digest function has a collision.", "quantifier": "all streams, events and digest functions", "why_tests_cant": "streams are adversarial and unbounded", "anchors": [{"file": "src/cesr/core/saider.rs", "symbols": ["verify"]}, {"file": "src/cesr/core/sadder.rs", "symbols": ["populate_from_raw"]}]}
{"id": "C107", "title": "Filling an event in place", "statement": "Filling an existing event from bytes or from data (populate_from_raw, populate_from_ked, populate_from_kind_and_self) gives exactly the event the constructor would make and keeps nothing of the old one but its code; a change that is refused leaves the event as it was; serialising an event again changes nothing; an event whose data are replaced keeps the SAID named in its data and cannot verify with other data than before.", "quantifier": "for every event in any state, all bytes, all data values, all kinds and every digest function", "why_tests_cant": "The state left behind by a refused change depends on which of several steps failed on arbitrary input; tests look at a few inputs and at the returned value only.", "anchors": [{"file": "src/cesr/core/sadder.rs", "symbols": ["populate_from_raw", "populate_from_ked", "populate_from_kind_and_self"]}, {"file": "src/cesr/core/serder.rs", "symbols": ["set_ked", "set_saider"]}]}
{"id": "C108", "title": "Short constructors", "statement": "For every type the short constructors (new_with_raw, new_with_qb64, new_with_qb64b, new_with_qb2, and those from a number, text, date, path, serialisation, data or threshold) agree: a value of the type is given back, the same in every respect, from each of its encodings together with the key, tier or transferability passed on; what new_with_raw makes is a value of its type holding the first of the bytes given; and an event made by new_with_ked is read back by new_with_raw.", "quantifier": "for every type, every value of it, all codes, keys, tiers, events and digest functions", "why_tests_cant": "Each short constructor fills in the arguments of a larger one by position; swapping two of them, or leaving out a default, shows only for particular codes, keys or tiers.", "anchors": [{"file": "src/cesr/core/verfer.rs", "symbols": ["new_with_raw", "new_with_qb64b", "new_with_qb64", "new_with_qb2"]}, {"file": "src/cesr/core/diger.rs", "symbols": ["new_with_ser", "new_with_raw"]}, {"file": "src/cesr/core/saider.rs", "symbols": ["new_with_sad", "new_with_raw"]}, {"file": "src/cesr/core/number.rs", "symbols": ["new_with_num", "new_with_numh"]}, {"file": "src/cesr/core/seqner.rs", "symbols": ["new_with_sn", "new_with_snh"]}, {"file": "src/cesr/core/siger.rs", "symbols": ["new_with_raw"]}, {"file": "src/cesr/core/cigar.rs", "symbols": ["new_with_raw"]}, {"file": "src/signing/signer.rs", "symbols": ["new_with_raw", "new_with_defaults"]}, {"file": "src/cesr/core/serder.rs", "symbols": ["new_with_ked", "new_with_raw"]}, {"file": "src/cesr/core/creder.rs", "symbols": ["new_with_ked", "new_with_raw"]}]}
{"id": "C109", "title": "Signers in any state", "statement": "Whatever state a signer was brought into by its setters or by default, signing and verifying never panic, the signature is made with the seed the signer holds and verifies under the keys of that seed, and it verifies under the key attached to it.", "quantifier": "for every signer state, key, message, index and other index, and all answers of the signature schemes", "why_tests_cant": "The public setters change the seed but not the key; tests only sign with signers fresh from a constructor.", "anchors": [{"file": "src/signing/signer.rs", "symbols": ["sign_unindexed", "sign_indexed", "set_code", "set_raw", "default"]}, {"file": "src/cesr/core/verfer.rs", "symbols": ["verify"]}]}
{"id": "C110", "title": "Reading the fields of an event in any state", "statement": "Whatever state an event is in, its identifier, establishment flag, sequence number and lists of keys, digests and witnesses are exactly what its data say, and reading them panics exactly if the field is missing or a listed text makes parsing a primitive panic.", "quantifier": "for every event state, in particular the default one and those made by set_ked", "why_tests_cant": "Which of value, error and panic an accessor gives depends on arbitrary data; tests read well-formed events.", "anchors": [{"file": "src/cesr/core/serder.rs", "symbols": ["pre", "est", "sn", "sner", "verfers", "digers", "werfers", "default"]}]}
{"id": "C111", "title": "Setters are independent and the last one wins", "statement": "After any sequence of calls of set_code, set_size and set_raw on a primitive (or of set_code, set_raw, set_index and set_ondex on an indexed signature, or of the eight setters of an event), every reader gives the last value set for its field, or the value held before when none was set. The key attached to a seed or a signature is not changed by them.", "quantifier": "all primitives, signers, indexed signatures and events in any state, and all sequences of calls", "why_tests_cant": "Tests call each setter once on one value; the claim is about all sequences of calls and all values.", "anchors": [{"file": "src/cesr/core/matter/mod.rs", "symbols": ["set_code", "set_raw", "set_size"]}, {"file": "src/cesr/core/indexer/mod.rs", "symbols": ["set_index", "set_ondex"]}, {"file": "src/cesr/core/siger.rs", "symbols": ["set_code", "set_raw", "set_index", "set_ondex"]}, {"file": "src/cesr/core/cigar.rs", "symbols": ["set_code", "set_raw", "set_size"]}, {"file": "src/signing/signer.rs", "symbols": ["set_code", "set_raw", "set_size"]}, {"file": "src/cesr/core/serder.rs", "symbols": ["set_code", "set_raw", "set_ked", "set_ident", "set_kind", "set_size", "set_version", "set_saider"]}, {"file": "src/cesr/core/creder.rs", "symbols": ["set_code", "set_raw", "set_ked", "set_ident", "set_kind", "set_size", "set_version", "set_saider"]}]}
{"id": "C112", "title": "Default values are empty, of their own kind, and never pass for a primitive", "statement": "Default::default() of every primitive type has a code of its own kind and no raw material. Printing it in either form gives an error or a form that reads back as the same default. Default counters do not print; default events hold an empty object.", "quantifier": "all types with a Default instance, both forms", "why_tests_cant": "Tests compare a few default codes; none prints a default or reads the print back.", "anchors": [{"file": "src/cesr/core/dater.rs", "symbols": ["default"]}, {"file": "src/cesr/core/bexter.rs", "symbols": ["default"]}, {"file": "src/cesr/core/cigar.rs", "symbols": ["default"]}, {"file": "src/cesr/core/diger.rs", "symbols": ["default"]}, {"file": "src/cesr/core/saider.rs", "symbols": ["default"]}, {"file": "src/cesr/core/number.rs", "symbols": ["default"]}, {"file": "src/cesr/core/seqner.rs", "symbols": ["default"]}, {"file": "src/cesr/core/salter.rs", "symbols": ["default"]}, {"file": "src/cesr/core/verfer.rs", "symbols": ["default"]}, {"file": "src/signing/signer.rs", "symbols": ["default"]}, {"file": "src/cesr/core/siger.rs", "symbols": ["default"]}, {"file": "src/cesr/core/counter/mod.rs", "symbols": ["default"]}, {"file": "src/cesr/core/serder.rs", "symbols": ["default"]}, {"file": "src/cesr/core/creder.rs", "symbols": ["default"]}]}
{"id": "C113", "title": "Reading is the same in release and debug builds", "statement": "A build without overflow checks reads every text and binary string exactly as a build with them: same values, same errors, same panics; it builds the same indexed primitives and counters.", "quantifier": "every byte string, code, index, other index and count", "why_tests_cant": "tests run in one profile; arithmetic differs between profiles for all inputs", "anchors": [{"file": "Makefile", "symbols": ["release"]}, {"file": "src/cesr/core/matter/mod.rs", "symbols": ["exfil", "bexfil"]}, {"file": "src/cesr/core/indexer/mod.rs", "symbols": ["exfil", "bexfil", "new_with_code_and_raw"]}, {"file": "src/cesr/core/counter/mod.rs", "symbols": ["new_with_code_and_count"]}, {"file": "src/cesr/core/matter/tables.rs", "symbols": ["raw_size"]}]}
{"id": "C114", "title": "Printing in a release build", "statement": "In a build without overflow checks printing never panics and gives the debug result wherever a debug build does not panic; every accepted indexed signature prints in text and binary and reads back; the reported full size is right modulo 2^32.", "quantifier": "every state of every primitive, indexed primitive and counter", "why_tests_cant": "tests run in one profile and with constructed values only", "anchors": [{"file": "Makefile", "symbols": ["release"]}, {"file": "src/cesr/core/matter/mod.rs", "symbols": ["infil", "binfil", "full_size"]}, {"file": "src/cesr/core/indexer/mod.rs", "symbols": ["infil", "binfil", "full_size"]}, {"file": "src/cesr/core/counter/mod.rs", "symbols": ["infil"]}]}
{"id": "C115", "title": "Weighted thresholds are sound in a release build", "statement": "In a build without overflow checks no weighted threshold is accepted unless every clause's exact weights sum to at least one, and none is satisfied unless the exact sum of the signed weights of every clause is at least one, however the 32-bit sums wrap around.", "quantifier": "every threshold value or sith, every list of indices", "why_tests_cant": "wrapping sums over all weights and subsets", "anchors": [{"file": "Makefile", "symbols": ["release"]}, {"file": "src/cesr/core/tholder.rs", "symbols": ["values_to_rationals", "process_weighted", "satisfy_weighted"]}]}
{"id": "C116", "title": "Weighted thresholds are complete in a release build", "statement": "In a build without overflow checks an accepted weighted threshold is satisfied whenever the exact sum of the signed weights of every clause is at least one.", "quantifier": "every accepted threshold and every list of indices within its size", "why_tests_cant": "wrapping sums over all weights and subsets", "anchors": [{"file": "Makefile", "symbols": ["release"]}, {"file": "src/cesr/core/tholder.rs", "symbols": ["values_to_rationals", "satisfy_weighted"]}]}
{"id": "C117", "title": "Derived keys in a release build use distinct paths", "statement": "In a build without overflow checks the keys derived for different key indices or positions of one rotation, and at different positions of one batch, are stretched from different paths.", "quantifier": "every batch size, start index, rotation index and key index", "why_tests_cant": "indices near the end of their range wrap around only without overflow checks", "anchors": [{"file": "Makefile", "symbols": ["release"]}, {"file": "src/cesr/core/salter.rs", "symbols": ["signers"]}, {"file": "src/signify/creating.rs", "symbols": ["SaltyCreator", "create"]}]}
{"id": "C118", "title": "Reading JSON follows the grammar", "statement": "Exactly the texts of the JSON grammar nested at most 127 deep are read, each as the value it denotes: escapes and surrogate pairs as their characters, integers of 64 bits exactly, a repeated label with its last value at its first place; loading panics exactly for numbers it cannot hold, every other text is an error.", "quantifier": "every byte string and every meaning of float texts", "why_tests_cant": "the grammar has infinitely many texts; tests sample a few spellings", "anchors": [{"file": "src/data.rs", "symbols": ["from", "Value"]}]}
{"id": "C119", "title": "Printed JSON is as short as possible", "statement": "No text that is read as a given value (without floats) is shorter than the JSON printed for it, and one of the same length differs at most in the case of hexadecimal digits of escaped control characters.", "quantifier": "every text and every value without floats", "why_tests_cant": "compares the printed text with every other text of the same value", "anchors": [{"file": "src/data.rs", "symbols": ["to_json", "Value"]}]}
{"id": "C120", "title": "Accepted key events continue the log", "statement": "A key event that verification accepts has all the fields of its type; its number is at most the number of events in the log, and the answer tells whether it is below, in which case the event stored under that number has its identifier. An inception has number zero and its identifier is its prefix; any other event names in p the identifier of the event stored before it.", "quantifier": "every event, attachment, store, digest function, signature scheme and depth of verification", "why_tests_cant": "tests replay a few recorded logs; the claim is about any event against any store", "anchors": [{"file": "sample/keri/kmi/verification.rs", "symbols": ["verify_key_event"]}, {"file": "sample/keri/verification.rs", "symbols": ["verify_ked_labels"]}]}
{"id": "C121", "title": "An accepted key event is signed by its threshold of keys", "statement": "An accepted key event carries signatures over its own bytes by enough different keys to meet the threshold in force: its own keys and threshold if it sets keys, else those of the last event before it that does.", "quantifier": "every event, list of attached groups, store and signature scheme", "why_tests_cant": "tests attach the right signatures; a forgery with repeated or foreign ones is not among them", "anchors": [{"file": "sample/keri/kmi/verification.rs", "symbols": ["verify_key_event"]}, {"file": "src/cesr/core/tholder.rs", "symbols": ["satisfy"]}]}
{"id": "C122", "title": "A rotation honours the announced keys", "statement": "An accepted event that replaces keys is signed by announced keys: those of its signatures that name, by their other index, an announced digest of the key they verify under come from different keys and satisfy the announced threshold of the event in force before; without an announcement no rotation is accepted.", "quantifier": "every rotation, store, digest function and signature scheme", "why_tests_cant": "pre-rotation is a security claim over all forgeries; tests rotate honestly", "anchors": [{"file": "sample/keri/kmi/verification.rs", "symbols": ["verify_key_event"]}, {"file": "src/cesr/core/diger.rs", "symbols": ["new"]}]}
{"id": "C123", "title": "Prefixes and identifiers bind accepted events", "statement": "The prefix of an accepted inception is the digest of the event with prefix and identifier blanked. Two accepted inceptions with one prefix, and two other accepted events with one identifier, have the same fields apart from the text of d, unless Blake3 has a collision.", "quantifier": "every pair of accepted events, in any two stores, with any signatures", "why_tests_cant": "no test can range over the other events with the same identifier", "anchors": [{"file": "sample/keri/kmi/verification.rs", "symbols": ["verify_key_event"]}, {"file": "src/prefexing/prefixer.rs", "symbols": ["verify"]}, {"file": "src/cesr/core/saider.rs", "symbols": ["verify"]}]}
{"id": "C124", "title": "Deep verification covers the whole log", "statement": "If deep verification accepts an event with number n, each event stored before it, in a log in order, is itself accepted with the signatures stored with it.", "quantifier": "every store, event, number up to 2^32 and signature scheme", "why_tests_cant": "the recursion goes as deep as the log is long, and skips events already seen", "anchors": [{"file": "sample/keri/kmi/verification.rs", "symbols": ["verify_key_event"]}]}
{"id": "C125", "title": "An identifier fixes the history before it", "statement": "If two parties with logs in order accept by deep verification events with the same identifier, their logs hold events with the same identifiers under all smaller numbers and with the same data after the inception, or Blake3 has a collision.", "quantifier": "every two stores, events, signatures and signature schemes", "why_tests_cant": "compares all histories of any length that lead to one identifier", "anchors": [{"file": "sample/keri/kmi/verification.rs", "symbols": ["verify_key_event"]}, {"file": "src/cesr/core/saider.rs", "symbols": ["verify"]}]}
{"id": "C126", "title": "Everything ingested was verified", "statement": "After any streams were ingested with verification on, each key event, registry event and credential in the store was accepted by its verification with the attachments stored with it, against a store that has only been extended since; each event stands in the log of its prefix at the place that is its number.", "quantifier": "every sequence of streams, each succeeding or failing midway, deep or not, from an empty store", "why_tests_cant": "streams and their interleavings are unbounded, and a set of identifiers under verification lets events skip verification", "anchors": [{"file": "sample/keri/parsing.rs", "symbols": ["ingest_messages", "seen_said"]}, {"file": "sample/keri/kmi/verification.rs", "symbols": ["verify_key_event"]}, {"file": "sample/keri/acdc/tel/verification.rs", "symbols": ["verify_transaction_event"]}, {"file": "sample/keri/acdc/verification.rs", "symbols": ["verify_acdc"]}]}
{"id": "C127", "title": "Ingestion only appends", "statement": "Ingesting a stream leaves every stored event and credential in its place and adds further ones behind.", "quantifier": "every store, stream, outcome and option", "why_tests_cant": "ranges over all streams, including those that fail midway", "anchors": [{"file": "sample/keri/parsing.rs", "symbols": ["ingest_messages"]}]}
{"id": "C128", "title": "Stores agree on history", "statement": "If two stores built by ingestion hold under a number of a log events with the same identifier, they hold events with the same identifiers and data under all smaller numbers, or Blake3 has a collision.", "quantifier": "every two parties with any streams, signature schemes and options", "why_tests_cant": "compares all pairs of histories of any length", "anchors": [{"file": "sample/keri/parsing.rs", "symbols": ["ingest_messages"]}, {"file": "sample/keri/kmi/verification.rs", "symbols": ["verify_key_event"]}]}
{"id": "C129", "title": "Registry events are anchored by the registry's owner", "statement": "verify_transaction_event accepts an event only with one couple of number and identifier, naming a key event in the log of the owner of the registry (field ii of its inception) that holds exactly one seal, for the accepted event. So only the owner can issue or revoke in a registry.", "quantifier": "every store, event, attachments, options and signature scheme", "why_tests_cant": "ranges over all stores and events, including ones made to deceive", "anchors": [{"file": "sample/keri/acdc/tel/verification.rs", "symbols": ["verify_transaction_event"]}, {"file": "sample/keri/verification.rs", "symbols": ["verify_anchor"]}]}
{"id": "C130", "title": "Continuity of registry logs", "statement": "An accepted registry event has the fields of its type; inceptions and issuances have number 0, a revocation follows the stored event before it and names its identifier; an event whose number is below the length of the log is in the store already.", "quantifier": "every store, event, attachments and options", "why_tests_cant": "ranges over all logs of any length", "anchors": [{"file": "sample/keri/acdc/tel/verification.rs", "symbols": ["verify_transaction_event"]}]}
{"id": "C131", "title": "Revocation is final", "statement": "Once a revocation is in the log of a credential in a store built by ingestion, the credential is refused by verify_acdc, whatever is ingested later.", "quantifier": "every history of ingested streams, signature scheme, schema validator and clock", "why_tests_cant": "speaks about all later streams", "anchors": [{"file": "sample/keri/parsing.rs", "symbols": ["ingest_messages"]}, {"file": "sample/keri/acdc/verification.rs", "symbols": ["verify_acdc"]}, {"file": "sample/keri/acdc/tel/verification.rs", "symbols": ["verify_transaction_event"]}]}
{"id": "C132", "title": "An accepted credential is checked and issued by its issuer", "statement": "verify_acdc accepts a credential only if its identifier verifies, the last event of its log is a recent issuance, its schema accepts it, and every signature group on the whole of it has enough signatures by the keys of a stored event; and the issuer it names is the one that signed and issued it.", "quantifier": "every store, credential, attachments, options, signature scheme, schema validator and clock", "why_tests_cant": "ranges over all forged credentials and attachments", "anchors": [{"file": "sample/keri/acdc/verification.rs", "symbols": ["verify_acdc"]}]}
{"id": "C133", "title": "A credential's identifier determines it", "statement": "Two credentials accepted anywhere under the same identifier have the same content, or Blake3 has a collision.", "quantifier": "every two credentials, stores and verifiers", "why_tests_cant": "compares all pairs of credentials", "anchors": [{"file": "sample/keri/acdc/verification.rs", "symbols": ["verify_acdc"]}, {"file": "src/cesr/core/saider.rs", "symbols": ["Saider"]}]}
{"id": "C134", "title": "Edges of accepted credentials are checked and chains end", "statement": "Each edge of an accepted credential leads to a stored credential that the edge's schema accepts and whose holder is the issuer of the accepted one, unless the operator or the lack of a holder says otherwise. In a store built by ingestion each edge leads to a credential stored earlier.", "quantifier": "every credential, store and history", "why_tests_cant": "ranges over all graphs of credentials", "anchors": [{"file": "sample/keri/acdc/verification.rs", "symbols": ["verify_acdc"]}]}
{"id": "C135", "title": "Deep verification verifies the whole chain", "statement": "If verify_acdc accepts a credential going deep, every credential reachable over edges is in the store and is accepted with its stored attachments.", "quantifier": "every store and every graph of credentials of any depth", "why_tests_cant": "ranges over chains of unbounded length and shape, with sharing", "anchors": [{"file": "sample/keri/acdc/verification.rs", "symbols": ["verify_acdc"]}]}
{"id": "C136", "title": "The default witness threshold is safe and reachable", "statement": "An inception or rotation built for witnesses without a witness threshold announces one between one and their number such that, with fewer than a third of them faulty, any two groups of so many witnesses share an honest one (safe) and the honest ones alone are enough (live).", "quantifier": "every number of witnesses, cut and added", "why_tests_cant": "ranges over all numbers of witnesses; an off-by-one shows only for some remainders", "anchors": [{"file": "sample/keri/kmi/event.rs", "symbols": ["ample", "incept", "rotate"]}]}
{"id": "C137", "title": "Rotations replace witnesses as asked", "statement": "A rotation that cuts and adds witnesses lists exactly the given cuts and additions, with a witness threshold fit for the witnesses left, and every cut of present witnesses can be carried out.", "quantifier": "every list of witnesses, cuts and additions", "why_tests_cant": "the code removes by positions it found before removing, so failure depends on where the cuts stand", "anchors": [{"file": "sample/keri/kmi/event.rs", "symbols": ["rotate"]}]}
{"id": "C138", "title": "A built and signed inception is accepted", "statement": "An inception built from the keys of a key set and signed by that set is accepted by verification, sets these keys, and names the keys whose digests it was given as next.", "quantifier": "every key set, threshold, next key set, witness list, configuration, anchored data; every correct signature scheme", "why_tests_cant": "ranges over all parameters and over signature schemes", "anchors": [{"file": "sample/keri/kmi/event.rs", "symbols": ["incept"]}, {"file": "sample/keri/kmi/verification.rs", "symbols": ["verify_key_event"]}]}
{"id": "C139", "title": "A built and signed interaction is accepted", "statement": "An interaction built on the last event of an identifier and signed by the key set in force is accepted by verification.", "quantifier": "every store with that log, every anchored data, every correct signature scheme", "why_tests_cant": "ranges over all stores and histories", "anchors": [{"file": "sample/keri/kmi/event.rs", "symbols": ["interact"]}, {"file": "sample/keri/kmi/verification.rs", "symbols": ["verify_key_event"]}]}
{"id": "C140", "title": "A built and signed rotation is accepted", "statement": "A rotation to the key set whose digests the last establishment event announced, built on the last event and signed by that set, is accepted by verification and sets the new keys.", "quantifier": "every store with that log, every next key set, threshold, witness change and data, every correct signature scheme", "why_tests_cant": "ranges over all stores, histories and key sets", "anchors": [{"file": "sample/keri/kmi/event.rs", "symbols": ["rotate"]}, {"file": "sample/keri/kmi/verification.rs", "symbols": ["verify_key_event"]}]}
{"id": "C141", "title": "A controller's whole life is ingested", "statement": "Whatever sequence of inception, rotations and interactions a controller builds and signs with their key sets, feeding the events one after the other into a ledger that does not know the identifier takes each in without an error, and the log then holds exactly these events in order.", "quantifier": "every sequence of events of any length, every key set and parameters, every correct signature scheme", "why_tests_cant": "unbounded sequences; building, signing, parsing and verification must agree in every state", "anchors": [{"file": "sample/keri/kmi/event.rs", "symbols": ["incept", "rotate", "interact"]}, {"file": "sample/keri/parsing.rs", "symbols": ["ingest_messages"]}]}
{"id": "C142", "title": "Issued credentials are accepted", "statement": "What issue_acdc makes for an issuer who controls its identifier and owns the registry - the anchoring interaction, the issuance and the signed credential - is accepted by ingest_messages, one text after the other, with verification on; each attachment is written in its proper form, and afterwards the issuer still controls the identifier, owns the registry and the credential is held.", "quantifier": "all correct signature schemes, digest functions, ledgers, key sets, credential data, subjects, rules and edges, schemas, clocks, parsers that read the three texts", "why_tests_cant": "Building and checking are separate code over sizes, identifiers, indices and seals; examples show it for a few credentials, not for all data, key counts and log lengths.", "anchors": [{"file": "sample/keri/acdc/mod.rs", "symbols": ["issue_acdc"]}, {"file": "sample/keri/parsing.rs", "symbols": ["ingest_messages"]}, {"file": "sample/keri/acdc/verification.rs", "symbols": ["verify_acdc"]}, {"file": "sample/keri/acdc/message.rs", "symbols": ["messagize_creder"]}]}
{"id": "C143", "title": "Revocations are accepted and take effect", "statement": "What revoke_acdc makes for the issuer - the anchoring interaction and the revocation - is accepted by ingest_messages; afterwards verify_acdc accepts no credential with that identifier, whatever is attached and however deep it looks.", "quantifier": "all correct signature schemes, digest functions, ledgers with one registry event for the credential, key sets, times, parsers that read the two texts; afterwards all credentials with that identifier, attachments and options", "why_tests_cant": "The effect of a revocation is a statement about all later verifications; tests try one.", "anchors": [{"file": "sample/keri/acdc/mod.rs", "symbols": ["revoke_acdc"]}, {"file": "sample/keri/acdc/verification.rs", "symbols": ["verify_acdc"]}, {"file": "sample/keri/parsing.rs", "symbols": ["ingest_messages"]}]}
{"id": "C144", "title": "Registries are accepted", "statement": "The inception of a registry, anchored by an interaction with its seal and followed by the place of that interaction, is accepted by ingest_messages, and the registry is then owned by the identifier that made it.", "quantifier": "all correct signature schemes, digest functions, ledgers, key sets and log lengths below 2^32, parsers that read the two texts", "why_tests_cant": "The prefix of the registry is derived from its own data and checked again by other code; examples show it for a few owners only.", "anchors": [{"file": "sample/keri/acdc/tel/management.rs", "symbols": ["incept"]}, {"file": "sample/keri/acdc/tel/verification.rs", "symbols": ["verify_transaction_event"]}, {"file": "sample/keri/parsing.rs", "symbols": ["ingest_messages"]}]}
{"id": "C145", "title": "Rotations with reserve keys are accepted", "statement": "The event rotate_partial builds, with the number of the identifier's next event and the identifier of its last, is accepted by verify_key_event once the reserve keys and the new signing keys have signed it, if the last establishment event announced the reserve keys; later interactions signed by the new signing keys alone are accepted too, although other keys come before theirs.", "quantifier": "all correct signature schemes, digest functions, key derivation functions, stores, salts or texts of reserve keys, numbers of keys, tiers, numbers below 2^32", "why_tests_cant": "Indices of the new keys follow those of the reserve keys, and other indices that point nowhere have to be harmless; tests show one combination of counts.", "anchors": [{"file": "sample/keri/kmi/mod.rs", "symbols": ["rotate_partial"]}, {"file": "sample/keri/kmi/verification.rs", "symbols": ["verify_key_event"]}]}
{"id": "C146", "title": "Whole lives with reserve keys are accepted", "statement": "An identifier begun by incept_partial from a salt and then rotated by rotate_partial with the salts in turn and used in interactions, in any order and as often as one likes, is taken in event by event by any ledger without events of that identifier, which in the end holds exactly these events.", "quantifier": "all sequences of rotations and interactions up to 2^32 events, all salts, counts, codes and tiers kept over time, correct signature schemes, digest functions, ledgers", "why_tests_cant": "Each rotation relies on reserve keys derived again from the salt of an earlier call; only induction over histories covers all of them.", "anchors": [{"file": "sample/keri/kmi/mod.rs", "symbols": ["incept_partial", "rotate_partial"]}, {"file": "sample/keri/parsing.rs", "symbols": ["ingest_messages"]}]}
{"id": "C147", "title": "All signing keys and all reserve keys are needed", "statement": "After an event built by incept_partial or rotate_partial with default thresholds, an accepted event under its keys carries a verifying signature of each signing key, and an accepted rotation after it carries for each announced digest a verifying signature of a key with this digest.", "quantifier": "all events made with fewer than 2^27 keys, all later events, attachments, stores and options", "why_tests_cant": "It is a statement about every forged event; tests drop one signature at most.", "anchors": [{"file": "sample/keri/kmi/mod.rs", "symbols": ["incept_partial", "rotate_partial"]}, {"file": "sample/keri/kmi/verification.rs", "symbols": ["verify_key_event"]}]}
{"id": "C148", "title": "Which arguments partial inception and rotation accept", "statement": "rotate_partial takes reserve keys either from two salts or from texts with a threshold; every other choice of arguments is a value error; with texts it returns the bare event, with salts the signed one. incept_partial needs next keys or a salt, and from a salt without a threshold it succeeds only when told that keys are transferable.", "quantifier": "all combinations of arguments, digest functions, signature schemes, key derivation functions", "why_tests_cant": "Five optional arguments give 32 combinations with arbitrary values; that leaving out an argument can never succeed is a statement about all the other arguments.", "anchors": [{"file": "sample/keri/kmi/mod.rs", "symbols": ["incept_partial", "rotate_partial"]}]}
{"id": "C149", "title": "Schemas stand under their own identifiers", "statement": "Each schema in the cache of compiled schemas has the identifier it stands under: the digest of its JSON with hash signs in the field $id. A schema made has the identifier it answers with and is compiled under it. Two schemas with one identifier are the same but for a field v, or the digest function has a collision.", "quantifier": "all digest functions, validators, texts and values without floats, and sequences of schemas made and put into the caches", "why_tests_cant": "The caches are global and keyed by text; that no sequence of calls puts a schema under another's identifier needs an invariant over all of them.", "anchors": [{"file": "sample/keri/acdc/schemer.rs", "symbols": ["add", "inhale", "exhale"]}, {"file": "src/cesr/core/saider.rs", "symbols": ["verify", "derive"]}]}
{"id": "C150", "title": "Schemas read back from their own text", "statement": "A schema made from a value gives the same schema when made again from its text. (False for schemas with a version string of the wrong size.)", "quantifier": "all digest functions, validators and values without floats nested at most 127 deep", "why_tests_cant": "The digest is over a text with another version string than the one kept; a test with a schema that has none sees no difference.", "anchors": [{"file": "sample/keri/acdc/schemer.rs", "symbols": ["exhale", "inhale"]}]}
{"id": "C151", "title": "Answers of the schema caches never change", "statement": "Once a schema is in the cache for credentials, the answer for its identifier and a text is whether the text conforms to the one compiled schema with this identifier, and stays the same whatever schemas are made and put into the caches later.", "quantifier": "all digest functions, validators, sequences of schemas made and put into the caches, and texts", "why_tests_cant": "Later additions under the same identifier are skipped or overwrite; tests share one process-wide cache and try few orders.", "anchors": [{"file": "sample/keri/acdc/schemer.rs", "symbols": ["prime", "validate", "add"]}]}
{"id": "C152", "title": "Accepted credentials conform to the schema they name", "statement": "A credential accepted by verify_acdc with the schema caches names a schema in them, this schema has the identifier named, and the credential's JSON conforms to it.", "quantifier": "all digest functions, validators, signature schemes, stores, caches filled through the API, credentials and attachments", "why_tests_cant": "Binds verification to the caches: any order of filling them and any credential.", "anchors": [{"file": "sample/keri/acdc/verification.rs", "symbols": ["verify_acdc"]}, {"file": "sample/keri/acdc/schemer.rs", "symbols": ["validate"]}]}
{"id": "C153", "title": "Credentials with unknown schemas give errors", "statement": "verify_acdc answers a credential whose schema is not in the cache with an error. (False: it panics.)", "quantifier": "all credentials otherwise acceptable, stores and caches", "why_tests_cant": "Indexing of a map in a global cache panics only for keys never primed; tests prime the schemas they use.", "anchors": [{"file": "sample/keri/acdc/schemer.rs", "symbols": ["get"]}, {"file": "sample/keri/acdc/verification.rs", "symbols": ["verify_acdc"]}]}
{"id": "C154", "title": "Signatures on a key event never crash its verification", "statement": "Verifying a key event (verify_key_event, and ingest_messages on a stream) answers or reports an error for every set of indexed signatures attached to it; no choice of indices, raw bytes or group kinds makes it panic. (False: an index equal to the number of keys slips through the bounds check.)", "quantifier": "all stores, events, attached groups, digest and signature functions", "why_tests_cant": "the index has 2^32 values and the bad one depends on the number of keys of another event; tests attach signatures a signer made", "anchors": [{"file": "sample/keri/src/kmi/verification.rs", "symbols": ["verify_key_event"]}, {"file": "sample/keri/src/parsing.rs", "symbols": ["ingest_messages"]}]}
{"id": "C155", "title": "More signatures never make an accepted event refused", "statement": "If a key event is accepted with some signatures, it is accepted with the same answer when further signatures with indices of its keys are attached, whether they verify or not. (False: with weights for fewer keys than there are, or weights with large denominators, one more good signature panics.)", "quantifier": "all stores, accepted events, lists of further signatures, thresholds", "why_tests_cant": "tests cover a few numbers of signatures; the claim is about adding any list to any accepted set, through two thresholds and two index lists", "anchors": [{"file": "sample/keri/src/kmi/verification.rs", "symbols": ["verify_key_event"]}, {"file": "src/core/tholder.rs", "symbols": ["satisfy", "satisfy_weighted"]}]}
{"id": "C156", "title": "Numbers cross to JavaScript and back unchanged", "statement": "The two 64-bit words that Number.num, Seqner.sn, Serder.sn and Serder._fn give a script are the halves of the number, and a number handed back to Number.new_with_num, Seqner.new_with_sn or the constructors is the number it was. (Going out is right; coming back is false from 2^64 on: the high word is not shifted.)", "quantifier": "all numbers below 2^128, all primitives and events", "why_tests_cant": "128-bit domain; values at or above 2^64 do not occur in tests", "anchors": [{"file": "wasm/src/util.rs", "symbols": ["U128Wrapper"]}, {"file": "wasm/src/primitives/number.rs", "symbols": ["num", "new_with_num"]}, {"file": "wasm/src/primitives/seqner.rs", "symbols": ["sn", "new_with_sn"]}, {"file": "wasm/src/primitives/serder.rs", "symbols": ["sn", "_fn"]}]}
{"id": "C157", "title": "The bindings hand out an event's body and completed data", "statement": "Serder.ked gives a text that reads as the body of the event, and Saider.saidify gives the identifier and a text of the completed data. (False for every event and all data: both trap.)", "quantifier": "all events a script can build, all data, labels and codes", "why_tests_cant": "a claim about every event and all data; one test would show the failure but not that nothing escapes it", "anchors": [{"file": "wasm/src/primitives/serder.rs", "symbols": ["ked"]}, {"file": "wasm/src/primitives/saider.rs", "symbols": ["saidify", "new_with_sad"]}]}
{"id": "C158", "title": "A bad text is an error for a script, a good one means its value", "statement": "A text that is not JSON, handed to any binding that takes a value, is reported as an error; a text that reads as a value makes the binding do what the function of the crate does with that value. (The first half is false: it traps.)", "quantifier": "all texts, all bindings that take a value, all their other arguments", "why_tests_cant": "all texts; tests hand in well-formed JSON", "anchors": [{"file": "wasm/src/util.rs", "symbols": ["ValueWrapper"]}, {"file": "wasm/src/primitives/tholder.rs", "symbols": ["new", "new_with_thold", "new_with_sith"]}, {"file": "wasm/src/primitives/saider.rs", "symbols": ["new", "new_with_sad", "verify"]}, {"file": "wasm/src/primitives/prefixer.rs", "symbols": ["new", "new_with_ked", "verify"]}, {"file": "wasm/src/primitives/serder.rs", "symbols": ["new", "new_with_ked"]}]}
{"id": "C159", "title": "Verdicts and thresholds are the same through texts", "statement": "Verifying a SAID or a prefix against the JSON text of data gives the verdict of the crate on the data; data completed by saidify verify; the texts of Tholder.thold and Tholder.sith make the same threshold.", "quantifier": "all data without floats nested at most 127 deep, all identifiers, prefixes and accepted thresholds", "why_tests_cant": "unbounded data through a printer and a reader; tests compare a few documents", "anchors": [{"file": "wasm/src/primitives/saider.rs", "symbols": ["verify"]}, {"file": "wasm/src/primitives/prefixer.rs", "symbols": ["verify"]}, {"file": "wasm/src/primitives/tholder.rs", "symbols": ["thold", "sith", "new_with_thold", "new_with_sith"]}]}
{"id": "C160", "title": "The codexes name every code, each once and rightly", "statement": "Each name in the codexes offered to JavaScript stands for the code that the crate gives to that name; different names stand for different codes; each code is in the size table; every code of the crate has a name. (The last is false: the codes of ECDSA secp256r1 have none.)", "quantifier": "all names and codes of both codexes", "why_tests_cant": "a claim about the whole of two hand-written tables against two others, and about what is absent", "anchors": [{"file": "wasm/src/primitives/codex.rs", "symbols": ["matter_codex_code", "indexer_codex_code"]}, {"file": "src/cesr/core/matter/tables.rs", "symbols": ["Codex"]}, {"file": "src/cesr/core/indexer/tables.rs", "symbols": ["Codex"]}]}
{"id": "C161", "title": "Verifying a credential answers whatever is attached to it", "statement": "verify_acdc answers or reports an error, and never panics, for a credential that is acceptable, whatever groups of signatures are attached to it. (False: one signature with the number of the signer's keys as its index makes it panic; no key is needed.)", "quantifier": "all stores, acceptable credentials, attachments, depths", "why_tests_cant": "ranges over all attachments that anyone may add; the failing index depends on the number of keys in the event named", "anchors": [{"file": "sample/keri/acdc/verification.rs", "symbols": ["verify_acdc"]}]}
{"id": "C162", "title": "Further endorsements do no harm to an accepted credential", "statement": "A credential that is accepted stays accepted, with the same answer, when further groups of signatures on it or on parts of it are attached. (False for signatures of someone whose key event the store lacks; true for all that name stored events with enough good signatures and for signatures on parts.)", "quantifier": "all stores, accepted credentials, further groups", "why_tests_cant": "compares two runs over all attachments and all stores", "anchors": [{"file": "sample/keri/acdc/verification.rs", "symbols": ["verify_acdc"]}]}
{"id": "C163", "title": "A credential is accepted exactly when all that is due is there", "statement": "With the store trusted (deep = false), verify_acdc accepts a credential exactly when it names a registry and a schema that accepts it, its identifier is right, the last event in its log is no revocation and not too old, all groups attached are signatures on parts of it, at least one on the whole, each of these names a stored event and has enough good signatures, equal ones counted once, and every edge leads to a stored credential, which the schema it names accepts, with its operators met. The answer tells whether the store has the credential.", "quantifier": "all stores, credentials, attachments, schemas and clocks", "why_tests_cant": "an equivalence over all credentials and stores; tests only see samples of either side", "anchors": [{"file": "sample/keri/acdc/verification.rs", "symbols": ["verify_acdc"]}]}
{"id": "C164", "title": "The edges of a credential cannot bring its verifier down", "statement": "verify_acdc answers or reports an error for every credential for which all else is due, whatever its edges. (False: an edge that leads nowhere, an operator that is no text, the operator DI2I, or I2I to a credential without a holder make it panic; no other edge does.)", "quantifier": "all stores, credentials and edges", "why_tests_cant": "ranges over all values an issuer may put into the edge section and over what the store holds", "anchors": [{"file": "sample/keri/acdc/verification.rs", "symbols": ["verify_acdc"]}]}
{"id": "C165", "title": "A key event is accepted exactly when it is in order and continues its log", "statement": "With the store trusted (deep not true), verify_key_event accepts an event exactly when it has the fields of its type, only indexed signatures are attached, all can be checked and the good ones satisfy the threshold in force; an inception has number 0 and its derived prefix as identifier; any other event has its derived identifier and names in p the event stored under the number before; a rotation reveals enough announced keys. It answers false if the number is the length of the log, and true if it is below and the event stored there has the same identifier; it accepts nothing else.", "quantifier": "all stores, events, attachments, hash functions of the right size, signature schemes", "why_tests_cant": "an equivalence over all events and stores; tests only see samples of either side", "anchors": [{"file": "sample/keri/kmi/verification.rs", "symbols": ["verify_key_event"]}]}
{"id": "C166", "title": "A registry event is accepted exactly when it is anchored and continues its log", "statement": "With the store trusted (deep = false), verify_transaction_event accepts an event exactly when it has the fields of its type, one couple is attached that names a stored key event of the registry's owner with one seal and no more, for this event; a registry's inception has its derived prefix, an issuance or revocation its derived identifier; inceptions and issuances have number 0 and a revocation names in p the event stored under the number before. The answer tells whether the event was there.", "quantifier": "all stores, events, couples, hash functions", "why_tests_cant": "an equivalence over all events and stores; tests only see samples of either side", "anchors": [{"file": "sample/keri/acdc/tel/verification.rs", "symbols": ["verify_transaction_event"]}, {"file": "sample/keri/verification.rs", "symbols": ["verify_anchor"]}]}
{"id": "C167", "title": "No key event brings its verifier down", "statement": "verify_key_event gives an answer or an error for every event read, whatever its fields. (False: an event without prefix, number or type, or an inception whose threshold makes thresholds panic; no signature is needed. True for events with these fields, clean primitives and steady thresholds, in a log of such events.)", "quantifier": "all stores, events read from bytes, attachments", "why_tests_cant": "ranges over all values an event's author may put into its fields and over what the store holds", "anchors": [{"file": "sample/keri/kmi/verification.rs", "symbols": ["verify_key_event"]}]}
{"id": "C168", "title": "What was ingested verifies again, at any depth", "statement": "A key event taken in with verification on verifies again at any later time, deep or not, with the attachments stored behind it; and against a ledger built that way a deep verification accepts exactly what a shallow one accepts, with the same answer.", "quantifier": "all sequences of streams, stored events, candidate events, depths and lists of identifiers seen", "why_tests_cant": "the ledger is the result of any history of streams, and deep verification walks the log back to its inception", "anchors": [{"file": "sample/keri/kmi/verification.rs", "symbols": ["verify_key_event"]}, {"file": "sample/keri/parsing.rs", "symbols": ["ingest_messages"]}]}
{"id": "C169", "title": "Registry events ingested verify again, at any depth", "statement": "The same for registry events, whose deep verification also walks the anchoring key-event logs: each stored one verifies again, and depth changes no answer.", "quantifier": "all sequences of streams, stored events, candidate events, depths and lists of identifiers seen", "why_tests_cant": "ranges over all histories and over the interplay of two logs", "anchors": [{"file": "sample/keri/acdc/tel/verification.rs", "symbols": ["verify_transaction_event"]}, {"file": "sample/keri/parsing.rs", "symbols": ["ingest_messages"]}]}
{"id": "C170", "title": "Stored credentials stand or fall with their chains", "statement": "A credential taken in with verification verifies again later, with the attachments stored with it, exactly as long as its log does not end in a revocation and is not too old; at depth, exactly as long as this also holds of every credential up its chains. If the chains are in good standing, depth changes no answer for any credential.", "quantifier": "all sequences of streams, stored and candidate credentials, attachments, chains of any length, clocks and depths", "why_tests_cant": "ranges over all histories of a ledger and over recursion through chains of credentials and three kinds of logs", "anchors": [{"file": "sample/keri/acdc/verification.rs", "symbols": ["verify_acdc"]}, {"file": "sample/keri/parsing.rs", "symbols": ["ingest_messages"]}]}
{"id": "C171", "title": "No registry event brings its verifier down", "statement": "Verifying a registry event, with any couple attached, gives an answer or an error and never panics.", "quantifier": "all registry events that can be read, all attached couples, all stores and depths", "why_tests_cant": "a crash needs a particular missing field in the event, in the log it names or in a seal of the anchoring event", "anchors": [{"file": "sample/keri/acdc/tel/verification.rs", "symbols": ["verify_transaction_event"]}, {"file": "sample/keri/verification.rs", "symbols": ["verify_anchor"]}]}
{"id": "C172", "title": "A stream taken in once can be taken in again and is not stored twice", "statement": "A stream that was taken in to its end, with verification, is taken in again to its end at any later time, and the second time changes nothing in the store.", "quantifier": "all streams, all stores reached with verification, everything added to the store in between, any later time, verification on or off the second time; stored events trusted", "why_tests_cant": "replay is one call on one stream in a test; the claim is about every stream, every history in between and every later clock", "anchors": [{"file": "sample/keri/parsing.rs", "symbols": ["ingest_messages"]}, {"file": "sample/keri/acdc/verification.rs", "symbols": ["verify_acdc"]}]}
{"id": "C173", "title": "Every message of a stream taken in is held and was verified", "statement": "When a stream was taken in to its end, with verification, the store holds an event or credential with the identifier of each message in it, and each message was verified with its attachments.", "quantifier": "all streams, all stores reached with verification, all messages in the stream", "why_tests_cant": "which messages are passed over depends on all identifiers met before in the stream", "anchors": [{"file": "sample/keri/parsing.rs", "symbols": ["ingest_messages", "seen_said"]}]}
{"id": "C174", "title": "Endorsements of key events can be read back", "statement": "The endorsement made for an event, and the message with it, can be read back by a reader of the encoding: the event, the counters, and for each list given all of its signatures in order, with the keys of unindexed signatures; and one is made for every event and every number of signatures. (False: the keys of unindexed signatures are left out although the counter announces pairs, and a pipelined message holds at most 4095 groups of four characters.)", "quantifier": "all events, all lists of signatures, pipelined or not", "why_tests_cant": "limits of counters show only with many signatures, and what is lost only to a reader", "anchors": [{"file": "sample/keri/kmi/endorsement.rs", "symbols": ["endorse_serder"]}, {"file": "sample/keri/kmi/message.rs", "symbols": ["messagize_serder"]}]}
{"id": "C175", "title": "Where two logs part, the same controller signed both", "statement": "If two stores built by ingestion hold for an identifier the same event under a number and then any two events, both of these were signed with the keys set by the same last event that sets keys: interactions by enough of the signing keys, rotations by enough of the announced ones. All logs for an identifier begin alike. So nobody but the controller can make two parties' logs differ.", "quantifier": "all pairs of stores and parties, all logs, all numbers", "why_tests_cant": "tests compare logs that were made in one place, and cannot cover every way in which a fork could come about", "anchors": [{"file": "sample/keri/kmi/verification.rs", "symbols": ["verify_key_event"]}, {"file": "sample/keri/parsing.rs", "symbols": ["ingest_messages"]}]}
{"id": "C176", "title": "Endorsements of credentials can be read back", "statement": "The endorsement of a credential reads back, by a reader of the encoding, as a path to the whole credential, the identifier, the number and the identifier of the key event in force, and all signatures in order. It is made exactly for at most 4095 signatures that can be printed, and a message with it exactly if the credential is text and the endorsement is a whole number of at most 4095 groups of four characters; the counter in the message then says the exact number.", "quantifier": "all credentials, identifiers, numbers below 2^128 and lists of signatures", "why_tests_cant": "limits of counters show only with many signatures, and alignment only to a reader", "anchors": [{"file": "sample/keri/acdc/endorsement.rs", "symbols": ["ratify_creder"]}, {"file": "sample/keri/acdc/message.rs", "symbols": ["messagize_creder"]}]}
{"id": "C177", "title": "Every registry event has an anchor of its own", "statement": "One key event anchors at most one registry event: two accepted registry events of one owner with the same anchor are the same. In a ledger made by taking in streams, registry events of one owner are no more than the key events of that owner and each has its own anchor. If two parties hold the same key log of an owner but different events of that owner under one number of a registry log, the key log holds an anchor for each.", "quantifier": "all stores, ledgers, events, couples and depths", "why_tests_cant": "relates all registry logs of an owner to the key log, for all histories", "anchors": [{"file": "sample/keri/acdc/tel/verification.rs", "symbols": ["verify_transaction_event"]}, {"file": "sample/keri/parsing.rs", "symbols": ["ingest_messages"]}]}
{"id": "C178", "title": "A credential's endorsement is by as many keys as the threshold asks", "statement": "If a credential is accepted, each group of signatures on the whole of it is by a stored key event's keys that meet that event's threshold: with a number k, k different keys of it have signed; with weights, the keys that signed earn every clause.", "quantifier": "all credentials, stores, attachments and depths", "why_tests_cant": "whether one key can pass for several depends on which forms of a signature count as the same", "anchors": [{"file": "sample/keri/acdc/verification.rs", "symbols": ["verify_acdc"]}, {"file": "src/cesr/core/siger.rs", "symbols": ["Siger"]}]}
