{"id": "C01", "title": "Constrained INTEGER round trip", "statement": "For bounds lb <= ub and any value v with lb <= v <= ub, encode_integer(lb,ub,ext,v) succeeds, and decode_integer with the same bounds, run at the place where the value was written, returns (v,false) and stops exactly at the end of what was written.", "quantifier": "all i128 bounds and values, every buffer content before and after, every bit alignment, both extensible flags", "why_tests_cant": "2^128 values times bounds times 8 alignments; the encoding has five regimes with boundaries at 2^k, 256, 65536", "anchors": ["codecs/src/aper/encode/mod.rs:encode_integer", "codecs/src/aper/encode/encode_internal.rs:encode_constrained_whole_number", "codecs/src/aper/decode/mod.rs:decode_integer", "codecs/src/aper/decode/decode_internal.rs:decode_constrained_whole_number"]}
{"id": "C02", "title": "Unconstrained INTEGER round trip", "statement": "For every i128 value, encoding it without bounds and decoding it without bounds at the same place returns the same value.", "quantifier": "all i128 values, all surrounding buffers and alignments", "why_tests_cant": "unbounded value space; tests cover a handful of octet widths", "anchors": ["codecs/src/aper/encode/encode_internal.rs:encode_unconstrained_whole_number", "codecs/src/aper/decode/decode_internal.rs:decode_unconstrained_whole_number", "codecs/src/aper/mod.rs:decode_bits_as_integer"]}
{"id": "C03", "title": "Semi-constrained INTEGER round trip", "statement": "For every lower bound and every value not below it, encoding with only a lower bound and decoding with the same bound returns the value.", "quantifier": "all i128 lower bounds and values >= the bound, all surrounding buffers", "why_tests_cant": "unbounded value space, two's-complement versus unsigned widths differ only at particular boundaries", "anchors": ["codecs/src/aper/encode/encode_internal.rs:encode_semi_constrained_whole_number", "codecs/src/aper/decode/decode_internal.rs:decode_semi_constrained_whole_number"]}
{"id": "C04", "title": "Encoders reject values outside their bounds without writing the value", "statement": "encode_integer / encode_enumerated / encode_choice_idx return an error for any value below lb or above ub, a length determinant outside its bounds is rejected, and in every such case the buffer holds at most the extension bit more than before.", "quantifier": "all bounds and all values outside them, all buffers", "why_tests_cant": "the complement of the range is infinite in practice", "anchors": ["codecs/src/aper/encode/mod.rs:encode_integer", "codecs/src/aper/encode/mod.rs:encode_length_determinent", "codecs/src/aper/encode/encode_internal.rs"]}
{"id": "C05", "title": "Decoded constrained values respect the declared bounds", "statement": "Whenever decode_integer(lb,ub,false) returns Ok(v,_), lb <= v <= ub; whenever decode_length_determinent returns Ok(n) for bounds below 64K, lb <= n <= ub.", "quantifier": "all buffers, offsets and bounds", "why_tests_cant": "adversarial input: every bit pattern must be considered", "anchors": ["codecs/src/aper/decode/mod.rs:decode_integer", "codecs/src/aper/decode/decode_internal.rs:decode_constrained_whole_number", "codecs/src/aper/decode/decode_internal.rs:decode_length_determinent"]}
{"id": "C06", "title": "Length determinant round trip", "statement": "For every length the encoder accepts (constrained, unconstrained below 16K, normally-small), decode_length_determinent with the same parameters returns the same length and stops at the end of it.", "quantifier": "all lengths, all bound combinations, all buffers and alignments", "why_tests_cant": "three formats with boundaries at 128, 16384, 32/64 and 65536", "anchors": ["codecs/src/aper/encode/mod.rs:encode_length_determinent", "codecs/src/aper/decode/decode_internal.rs:decode_length_determinent"]}
{"id": "C07", "title": "BOOLEAN round trip", "statement": "encode_bool then decode_bool returns the same Boolean, consuming exactly one bit.", "quantifier": "both values, all buffers and offsets", "why_tests_cant": "must hold at every bit offset and with any neighbours", "anchors": ["codecs/src/aper/encode/mod.rs:encode_bool", "codecs/src/aper/decode/mod.rs:decode_bool"]}
{"id": "C08", "title": "ENUMERATED round trip", "statement": "For every root index within bounds, encode_enumerated then decode_enumerated returns (index,false).", "quantifier": "all bounds, indices, extensibility, buffers, alignments", "why_tests_cant": "unbounded parameter space", "anchors": ["codecs/src/aper/encode/mod.rs:encode_enumerated", "codecs/src/aper/decode/mod.rs:decode_enumerated"]}
{"id": "C09", "title": "CHOICE index round trip", "statement": "For every root alternative index within bounds, encode_choice_idx then decode_choice_idx returns (index,false).", "quantifier": "all bounds, indices, extensibility, buffers, alignments", "why_tests_cant": "unbounded parameter space", "anchors": ["codecs/src/aper/encode/mod.rs:encode_choice_idx", "codecs/src/aper/decode/mod.rs:decode_choice_idx"]}
{"id": "C10", "title": "SEQUENCE header round trip", "statement": "For every presence bitmap, encode_sequence_header then decode_sequence_header with the bitmap length returns the same bitmap and extension flag false.", "quantifier": "all bitmaps of any length, both extensible flags, all buffers", "why_tests_cant": "bitmaps of unbounded length", "anchors": ["codecs/src/aper/encode/mod.rs:encode_sequence_header", "codecs/src/aper/decode/mod.rs:decode_sequence_header"]}
{"id": "C11", "title": "BIT STRING round trip", "statement": "For every bit string the encoder accepts, decode_bitstring with the same size bounds returns exactly the same bits.", "quantifier": "all bit strings of any length, all size bounds, extensibility, buffers, alignments", "why_tests_cant": "strings of unbounded length and content; fragmentation threshold", "anchors": ["codecs/src/aper/encode/mod.rs:encode_bitstring", "codecs/src/aper/decode/mod.rs:decode_bitstring"]}
{"id": "C12", "title": "OCTET STRING round trip", "statement": "For every octet string the encoder accepts, decode_octetstring with the same size bounds returns exactly the same octets.", "quantifier": "all octet strings, size bounds, extensibility, buffers, alignments", "why_tests_cant": "strings of unbounded length and content", "anchors": ["codecs/src/aper/encode/mod.rs:encode_octetstring", "codecs/src/aper/decode/mod.rs:decode_octetstring"]}
{"id": "C13", "title": "Character string round trip", "statement": "For every UTF-8 string the encoder accepts, decode_{utf8,printable,visible}_string with the same bounds returns the same string.", "quantifier": "all UTF-8 strings, size bounds, extensibility, buffers, alignments, both byte orders of the host", "why_tests_cant": "unaligned short strings depend on host byte order", "anchors": ["codecs/src/aper/encode/mod.rs:encode_string", "codecs/src/aper/decode/decode_charstrings.rs:decode_string"]}
{"id": "C14", "title": "Encoding only appends", "statement": "Every encode function, whether it succeeds or fails, leaves all bits already in the buffer unchanged, and changes neither the read position nor the key.", "quantifier": "all encode calls, all arguments, all prior buffers", "why_tests_cant": "a frame condition over all states", "anchors": ["codecs/src/aper/encode/mod.rs", "codecs/src/aper/encode/encode_internal.rs", "codecs/src/aper/mod.rs:append_bits"]}
{"id": "C15", "title": "Decoding never alters the input and never moves backwards or past the end", "statement": "Every decode function leaves the buffer unchanged; if the read position was within the buffer it stays within the buffer and never decreases, on success and on error alike.", "quantifier": "all decode calls on all buffers and parameters", "why_tests_cant": "frame and monotonicity over all inputs", "anchors": ["codecs/src/aper/decode/mod.rs", "codecs/src/aper/decode/decode_internal.rs", "codecs/src/aper/decode/decode_charstrings.rs", "codecs/src/aper/mod.rs"]}
{"id": "C16", "title": "Decoding depends only on what it consumes", "statement": "If a decode succeeds, changing or extending anything after the consumed bits, or replacing the data before the start by other data of the same alignment, does not change the result or the number of bits consumed.", "quantifier": "all decode calls, all prefixes and suffixes", "why_tests_cant": "relates infinitely many pairs of inputs", "anchors": ["codecs/src/aper/decode/mod.rs", "codecs/src/aper/decode/decode_internal.rs", "codecs/src/aper/decode/decode_charstrings.rs", "codecs/src/aper/mod.rs"]}
{"id": "C17", "title": "Truncated input is never accepted", "statement": "If decoding consumes n bits of a message, decoding any strict prefix of those n bits does not succeed.", "quantifier": "all decode calls, all cut points", "why_tests_cant": "all truncation points of all messages", "anchors": ["codecs/src/aper/decode/mod.rs", "codecs/src/aper/decode/decode_internal.rs", "codecs/src/aper/decode/decode_charstrings.rs", "codecs/src/aper/mod.rs"]}
{"id": "C18", "title": "Decoding untrusted bytes never panics", "statement": "For any byte buffer, decode functions called with the sane parameters produced by the compiler return Ok or Err and never panic.", "quantifier": "all byte strings, all sane parameters, both overflow-check profiles", "why_tests_cant": "fuzzing samples only", "anchors": ["codecs/src/aper/decode/mod.rs", "codecs/src/aper/decode/decode_internal.rs", "codecs/src/aper/decode/decode_charstrings.rs", "codecs/src/aper/mod.rs:decode_bits_as_integer", "codecs/src/aper/mod.rs:decode_align"]}
{"id": "C19", "title": "Decoding terminates", "statement": "Every decode loop (string fragments, list elements) finishes after a number of steps bounded by the input size.", "quantifier": "all byte strings and parameters", "why_tests_cant": "non-termination cannot be observed by finite tests", "anchors": ["codecs/src/aper/decode/mod.rs:decode_bitstring", "codecs/src/aper/decode/mod.rs:decode_octetstring", "codecs_derive/src/aper/seqof.rs"]}
{"id": "C20", "title": "Encoding well-typed values never panics", "statement": "Encoding any value within i128-representable ranges returns Ok or Err, never panics.", "quantifier": "all values and bounds, both profiles", "why_tests_cant": "arithmetic corner cases over 2^128 values", "anchors": ["codecs/src/aper/encode/mod.rs", "codecs/src/aper/encode/encode_internal.rs", "codecs/src/aper/mod.rs:length_in_bytes"]}
{"id": "C21", "title": "Bytes to buffer to bytes is the identity", "statement": "from_slice followed by into_bytes / get_inner returns the bytes; into_bytes of any encoding has ceil(n/8) bytes, its unused bits are zero, and reading it back starts with exactly the encoded bits.", "quantifier": "all byte strings and all bit buffers", "why_tests_cant": "unbounded buffers", "anchors": ["codecs/src/aper/mod.rs:from_slice", "codecs/src/aper/mod.rs:into_bytes", "codecs/src/aper/mod.rs:get_inner", "codecs/src/aper/mod.rs:length_in_bytes"]}
{"id": "C22", "title": "Alignment padding", "statement": "Aligning the encoder adds fewer than 8 zero bits and reaches a byte boundary; decode_align skips exactly that padding and rejects any non-zero padding bit.", "quantifier": "all buffers and offsets", "why_tests_cant": "every offset and padding content", "anchors": ["codecs/src/aper/mod.rs:align", "codecs/src/aper/mod.rs:decode_align", "codecs/src/aper/mod.rs:append_aligned"]}
{"id": "C23", "title": "Message histories compose", "statement": "Encoding any list of values one after another into one buffer and decoding them in the same order from the produced bytes returns the same list.", "quantifier": "all finite histories of primitive encodes, all values", "why_tests_cant": "unbounded histories with alignment carry-over", "anchors": ["codecs/src/aper/encode/mod.rs", "codecs/src/aper/decode/mod.rs"]}
{"id": "C24", "title": "Derived codec round trip", "statement": "For every ASN.1 type tree built from derive(AperCodec) attributes and every value of it that the encoder accepts, decoding the bytes yields the same value.", "quantifier": "all type trees of any depth and all values", "why_tests_cant": "unbounded nesting of types", "anchors": ["codecs_derive/src/aper/seq.rs", "codecs_derive/src/aper/choice.rs", "codecs_derive/src/aper/seqof.rs", "codecs_derive/src/aper/open.rs", "codecs_derive/src/aper/integer.rs"]}
{"id": "C25", "title": "OPTIONAL components keep their presence", "statement": "After a derived SEQUENCE round trip exactly the components that were Some are Some.", "quantifier": "all sequences, all presence patterns", "why_tests_cant": "2^n presence patterns", "anchors": ["codecs_derive/src/aper/seq.rs"]}
{"id": "C26", "title": "CHOICE keeps its alternative and rejects unknown indices", "statement": "A derived CHOICE decodes to the alternative that was encoded; an index with no alternative, and any extension alternative, is an error.", "quantifier": "all choices and indices", "why_tests_cant": "unbounded alternatives", "anchors": ["codecs_derive/src/aper/choice.rs"]}
{"id": "C27", "title": "SEQUENCE OF preserves length and order", "statement": "A derived SEQUENCE OF decodes to a list of the same length and order; the list length always lies in the size bounds, otherwise encode reports an error.", "quantifier": "all element types, all list lengths including zero", "why_tests_cant": "unbounded lists", "anchors": ["codecs_derive/src/aper/seqof.rs"]}
{"id": "C28", "title": "Open type selects by key and frames its content", "statement": "A derived open type decodes the alternative named by the key field decoded before it, fails for unknown or missing keys, and leaves the read position at the end of the announced content so that following components decode correctly.", "quantifier": "all open type tables, keys, contents and following data", "why_tests_cant": "position after the content depends on content bit length", "anchors": ["codecs_derive/src/aper/open.rs", "codecs_derive/src/aper/seq.rs"]}
{"id": "C29", "title": "Distinct values have distinct encodings", "statement": "Two different values of one type never encode to the same bits, nor is one encoding a prefix of the other at the same alignment.", "quantifier": "all pairs of values", "why_tests_cant": "quadratic in an infinite space", "anchors": ["codecs/src/aper/encode/mod.rs", "codecs/src/aper/decode/mod.rs"]}
{"id": "C30", "title": "Constrained INTEGER wire format follows X.691", "statement": "For each range the emitted bits equal the X.691 aligned encoding (bit-field, one octet, two octets, or length plus minimal octets).", "quantifier": "all ranges and values", "why_tests_cant": "all ranges up to 2^127", "anchors": ["codecs/src/aper/encode/encode_internal.rs:encode_constrained_whole_number", "codecs/src/aper/mod.rs:bytes_needed_for_range"]}
{"id": "C31", "title": "Length determinant and other wire formats follow X.691", "statement": "Unconstrained length determinants, normally-small lengths, unconstrained and semi-constrained integers are emitted in the X.691 form with minimal octets.", "quantifier": "all lengths and values", "why_tests_cant": "all values", "anchors": ["codecs/src/aper/encode/encode_internal.rs"]}
{"id": "C32", "title": "Bounds resolved from constraints contain exactly the permitted range", "statement": "For an INTEGER or SIZE constraint, the lower and upper bound given to the codec are the minimum and maximum of the permitted root values.", "quantifier": "all constraint expressions built from values, ranges, unions and intersections", "why_tests_cant": "expression trees of unbounded size", "anchors": ["asn-compiler/src/resolver/asn/structs/types/constraints.rs:ConstraintValues", "asn-compiler/src/resolver/asn/types/constraints.rs"]}
{"id": "C33", "title": "Generated integer type can hold every permitted value", "statement": "The Rust integer type chosen for a constrained INTEGER represents every value between the bounds.", "quantifier": "all bounds", "why_tests_cant": "all pairs of bounds up to i128", "anchors": ["asn-compiler/src/resolver/asn/types/base/integer.rs", "asn-compiler/src/generator/int.rs:to_inner_type"]}
{"id": "C34", "title": "ENUMERATED numbering", "statement": "Every root enumeration item gets a distinct index, contiguous from zero in the order of X.691 indices, and the codec upper bound is the last index.", "quantifier": "all enumerations", "why_tests_cant": "unbounded item lists, mixed numbering", "anchors": ["asn-compiler/src/resolver/asn/types/base/enumerated.rs", "asn-compiler/src/generator/asn/types/base/enumerated.rs"]}
{"id": "C35", "title": "Generated CHOICE and SEQUENCE attributes are consistent", "statement": "Alternatives get distinct keys in 0..ub, optional components get distinct bitmap indices below the declared count, in textual order, for every definition.", "quantifier": "all definitions", "why_tests_cant": "unbounded component lists", "anchors": ["asn-compiler/src/generator/asn/types/constructed/choice.rs", "asn-compiler/src/generator/asn/types/constructed/seq.rs"]}
{"id": "C36", "title": "Generated names are unique", "statement": "Names produced for anonymous types never repeat, and distinct ASN.1 identifiers map to distinct Rust identifiers.", "quantifier": "all generation histories and identifiers", "why_tests_cant": "unbounded histories", "anchors": ["asn-compiler/src/generator/int.rs:get_unique_name", "asn-compiler/src/generator/int.rs:to_type_ident"]}
{"id": "C37", "title": "Definitions are processed after what they depend on, each exactly once", "statement": "The order produced for modules/definitions is a permutation of the input that respects dependencies, or an error is reported.", "quantifier": "all dependency graphs", "why_tests_cant": "all graphs, including cyclic ones", "anchors": ["asn-compiler/src/compiler.rs:sorted_modules", "asn-compiler/src/parser/asn/structs/module.rs:definitions_sorted", "asn-compiler/src/resolver/int.rs"]}
{"id": "C38", "title": "Imports are complete", "statement": "Compilation proceeds past import resolution only if every imported module and every imported name is defined there.", "quantifier": "all sets of modules", "why_tests_cant": "all import graphs", "anchors": ["asn-compiler/src/compiler.rs:resolve_imports"]}
{"id": "C39", "title": "Tokenizer is lossless and ordered", "statement": "The tokens, in order, are exactly the lexical items of the input (X.680 clause 12, comments included): nothing but blanks lies between them, every text made of items is accepted, positions are strictly increasing, and each token carries its line and column.", "quantifier": "all input texts", "why_tests_cant": "all strings", "anchors": ["asn-compiler/src/tokenizer/mod.rs:tokenize"]}
{"id": "C40", "title": "Tokenizer is total", "statement": "For every input text tokenize returns tokens or an error; it never panics or loops.", "quantifier": "all input texts", "why_tests_cant": "all strings", "anchors": ["asn-compiler/src/tokenizer/mod.rs:tokenize"]}
{"id": "C41", "title": "Parser terminates and makes progress", "statement": "On every token list each parse function returns, consumes no more tokens than given, and loops only while consuming tokens.", "quantifier": "all token lists", "why_tests_cant": "non-termination cannot be observed by tests", "anchors": ["asn-compiler/src/parser"]}
{"id": "C42", "title": "Parameter substitution replaces formal by actual parameters", "statement": "Instantiating a parameterized definition replaces every occurrence of each formal parameter by its own actual parameter and nothing else.", "quantifier": "all definitions, formals and actuals", "why_tests_cant": "capture only arises for particular overlaps", "anchors": ["asn-compiler/src/parser/asn/defs.rs:apply_params"]}
{"id": "C43", "title": "Decoded character strings are well-formed text", "statement": "Every character string a decode call returns is the UTF-8 encoding of a sequence of Unicode scalar values; malformed byte sequences are rejected with an error.", "quantifier": "all inputs, bounds and read positions", "why_tests_cant": "malformed sequences of every kind at every position", "anchors": ["codecs/src/aper/decode/decode_charstrings.rs:decode_string"]}
{"id": "C44", "title": "Values beyond the extension marker decode as X.691 lays them out", "statement": "When the extension bit is set, INTEGER, ENUMERATED, CHOICE index, SEQUENCE header, BIT STRING and OCTET STRING decode calls return the value that X.691 says those bits carry and report it as an extension value.", "quantifier": "all extension values, all alignments, all surrounding data", "why_tests_cant": "unbounded values and alignments", "anchors": ["codecs/src/aper/decode/mod.rs:decode_integer", "codecs/src/aper/decode/mod.rs:decode_enumerated", "codecs/src/aper/decode/mod.rs:decode_choice_idx", "codecs/src/aper/decode/mod.rs:decode_sequence_header"]}
{"id": "C45", "title": "Fragmented strings are reassembled", "statement": "Decoding a string sent in fragments of 16K items returns the concatenation of all fragments in order, and a fragment that announces no block or more than four blocks is rejected.", "quantifier": "all numbers and sizes of fragments, all contents", "why_tests_cant": "unbounded number of fragments", "anchors": ["codecs/src/aper/decode/mod.rs:decode_bitstring", "codecs/src/aper/decode/mod.rs:decode_octetstring", "codecs/src/aper/decode/decode_charstrings.rs:decode_string"]}
{"id": "C46", "title": "Decoders accept every X.691 encoding", "statement": "Any bits that X.691 (aligned PER) allows for a value decode to that value, whoever produced them.", "quantifier": "all types, bounds, values, alignments", "why_tests_cant": "interoperability with encoders that are not this library", "anchors": ["codecs/src/aper/decode/mod.rs", "codecs/src/aper/decode/decode_internal.rs"]}
{"id": "C47", "title": "Compiled definitions describe the types of the schema", "statement": "Compiling a set of modules yields, for every type definition, a Rust definition whose codec attributes describe the type the schema defines: the same structure, bounds, sizes, extension markers, indices and presence bits, through references and imports.", "quantifier": "all sets of modules, all definitions of any nesting, all orders in which a HashMap may yield them", "why_tests_cant": "schemas of unbounded size, and hash-map iteration orders differ between runs", "anchors": ["asn-compiler/src/compiler.rs:Asn1Compiler", "asn-compiler/src/resolver", "asn-compiler/src/generator"]}
{"id": "C48", "title": "Values of compiled types survive encoding and decoding", "statement": "For a type defined in a schema, the codec generated by compiling the schema encodes each value of the type, and decoding the bytes gives the value back.", "quantifier": "all schemas, all types in them, all values", "why_tests_cant": "all schemas and values", "anchors": ["asn-compiler/src/compiler.rs", "codecs_derive/src/aper", "codecs/src/aper"]}
{"id": "C49", "title": "Open types offer exactly the objects of their object set", "statement": "The open type generated for a class field has one alternative for every object of the object set, selected by the value of the object's unique field and holding the type the object gives, and none besides.", "quantifier": "all object sets, including sets that name other sets", "why_tests_cant": "sets of unbounded size and nesting", "anchors": ["asn-compiler/src/resolver/asn/types/ioc.rs:resolve_object_set", "asn-compiler/src/resolver/asn/types/constructed.rs:get_seq_component_for_object_set"]}
{"id": "C50", "title": "An ASN.1 text is read as what it denotes", "statement": "For every text in the ASN.1 notation that the compiler supports, parsing succeeds and gives the modules, imports, types, constraints, values, classes, objects and object sets that the notation says the text denotes.", "quantifier": "all texts in the notation: modules of any size, types and constraints of any nesting", "why_tests_cant": "the notation is recursive and unbounded", "anchors": ["asn-compiler/src/parser/asn", "asn-compiler/src/parser/asn/types", "asn-compiler/src/parser/mod.rs:parse", "asn-compiler/src/tokenizer/mod.rs:tokenize"]}
{"id": "C51", "title": "Printed attributes are read back as computed", "statement": "The derive macro reads from the attributes and fields that the compiler prints exactly the bounds, extension markers, keys, optional positions and types that the compiler computed, so that the derived codec encodes and decodes the type that the compiler meant.", "quantifier": "all schemas and all definitions generated from them", "why_tests_cant": "all bounds, names and numbers of components", "anchors": ["asn-compiler/src/generator/asn/types", "codecs_derive/src/attrs.rs", "codecs_derive/src/utils.rs", "codecs_derive/src/aper"]}
{"id": "C52", "title": "Generated items are accepted by the macro and name only defined types", "statement": "Each item that the compiler prints is accepted by the derive macro, holds what the derived functions take and return, and names only types that the compiler has printed too.", "quantifier": "all schemas that the compiler accepts", "why_tests_cant": "all schemas", "anchors": ["asn-compiler/src/generator/mod.rs:generate", "asn-compiler/src/resolver/mod.rs:resolve_definitions", "codecs_derive/src/aper"]}
{"id": "C53", "title": "Hand-written attributes mean what they say", "statement": "For a hand-written struct or enum, the order of the asn attributes and how they are grouped make no difference, an attribute that is unknown, of the wrong kind, given twice or meaningless for the type is refused, comments may be added, and the macro reports errors rather than panicking.", "quantifier": "all lists of attributes, all structs and enums", "why_tests_cant": "all attribute lists and orders", "anchors": ["codecs_derive/src/lib.rs:derive", "codecs_derive/src/attrs.rs:parse_ty_meta_as_codec_params", "codecs_derive/src/attrs.rs:parse_fld_meta_as_codec_params", "codecs_derive/src/utils.rs"]}
{"id": "C54", "title": "Objects are read as written in the syntax of their class", "statement": "An information object that is written in the WITH SYNTAX notation of its class has exactly the fields that the text sets, each with the type or value written there, and the defaults of the fields it does not set, in whatever order, with however many words, and across files; object sets have the objects that are written in them.", "quantifier": "all classes, all objects and object sets of them, all files of a schema", "why_tests_cant": "all classes, words, types and values, and all orders of the settings", "anchors": ["asn-compiler/src/parser/asn/types/ioc.rs:parse_object_from_class", "asn-compiler/src/parser/asn/module.rs:resolve_object_classes", "asn-compiler/src/compiler.rs:Asn1Compiler"]}
{"id": "C55", "title": "From the files of a schema to the bytes of its values", "statement": "When the files of a schema are compiled, each type in them is printed as a Rust item whose derived codec is that of the ASN.1 type, and a value of the type that is encoded with it is decoded from the bytes again.", "quantifier": "all sets of files, all orders in which the compiler may handle them, all values", "why_tests_cant": "all schemas and values; every stage has to agree with the next", "anchors": ["asn-compiler/src/compiler.rs:Asn1Compiler", "asn-compiler/src/generator/mod.rs:generate", "codecs_derive/src/lib.rs"]}
{"id": "C56", "title": "Values of whole types are encoded as X.691 prescribes, and what X.691 prescribes is decoded", "statement": "The bytes that a derived or generated type produces for a value are the complete ALIGNED PER encoding of that value in ITU-T X.691, with components, alternatives, lists and open types nested to any depth, and the decoder of the type turns the X.691 encoding of a value, as another implementation would produce it, into that value.", "quantifier": "all types and values, and all schemas from which the types are generated", "why_tests_cant": "all nestings, alignments and values; a test shows agreement with another encoder on the messages tried only", "anchors": ["codecs_derive/src/aper/seq.rs", "codecs_derive/src/aper/choice.rs", "codecs_derive/src/aper/seqof.rs", "codecs_derive/src/aper/open.rs", "codecs/src/aper", "asn-compiler/src/generator/asn/types/constructed/choice.rs", "asn-compiler/src/generator/asn/types/constructed/seq.rs"]}
{"id": "C57", "title": "The generated program does not depend on the order of resolution", "statement": "Compiling the same files twice gives the same program: within what the topological sort leaves open, the order in which modules and definitions are taken out of hash maps, and the order of the modules in the table, makes no difference to the generated items or to whether they are generated.", "quantifier": "all schemas, all iteration orders of the hash maps of the sort (all valid topological orders of modules and definitions)", "why_tests_cant": "a run of a test sees one hash seed; the number of valid orders is exponential", "anchors": ["asn-compiler/src/compiler.rs:Asn1Compiler::resolve_definitions", "asn-compiler/src/parser/asn/structs/module.rs:definitions_sorted", "asn-compiler/src/resolver/int.rs:Resolver", "asn-compiler/src/generator/mod.rs:generate"]}
{"id": "C58", "title": "A message that is decoded can be encoded again", "statement": "If octets, from whatever sender, are decoded successfully, then encoding the decoded value succeeds and its octets decode to the same value. If the octets were the encoding that X.691 prescribes, encoding the decoded value gives the same octets.", "quantifier": "all types of all compiled schemas, all octets that are decoded successfully, both build profiles and byte orders", "why_tests_cant": "the octets are chosen by the sender and need not come from this encoder; tests start from values that are known to be valid", "anchors": ["codecs_derive/src/aper/integer.rs", "codecs_derive/src/aper/seq.rs", "codecs_derive/src/aper/seqof.rs", "codecs_derive/src/aper/choice.rs", "codecs_derive/src/aper/open.rs", "codecs/src/aper/decode/mod.rs", "codecs/src/aper/encode/mod.rs"]}
{"id": "C59", "title": "A value that the encoder accepts arrives unchanged", "statement": "Whatever value a program stores in a generated type, within its bounds or not, encoding it either fails or yields octets that decode to exactly that value. No value outside of its bounds is sent, and two different values are never sent as the same octets.", "quantifier": "all types, all values of their Rust types, whether or not they satisfy the constraints of the ASN.1 type, both build profiles and byte orders", "why_tests_cant": "tests encode values that are known to be valid; the claim is about invalid parts at any depth of any value, where a dropped error turns into another message", "anchors": ["codecs_derive/src/aper/integer.rs", "codecs_derive/src/aper/seq.rs", "codecs_derive/src/aper/seqof.rs", "codecs_derive/src/aper/choice.rs", "codecs_derive/src/aper/open.rs", "codecs/src/aper/encode/mod.rs"]}
{"id": "C60", "title": "Text that is not ASN.1 is reported", "statement": "A file is compiled only if all of its text is ASN.1, and then as what it denotes: text that is not in the notation is reported and no code is generated from a misreading of it.", "quantifier": "all texts, all sequences of tokens", "why_tests_cant": "the texts outside of the notation are unbounded in number and kind; a test shows that one of them is rejected", "anchors": ["asn-compiler/src/parser/int.rs", "asn-compiler/src/parser/utils.rs", "asn-compiler/src/parser/asn/defs.rs", "asn-compiler/src/parser/asn/types/int.rs", "asn-compiler/src/parser/asn/types/constraints.rs", "asn-compiler/src/parser/asn/types/ioc.rs", "asn-compiler/src/parser/asn/module.rs"]}
{"id": "C61", "title": "The generated program mirrors the schema", "statement": "For every type defined in a schema that is compiled there is an item of that name, with a field for each component in order, optional exactly where the component is, a variant for each alternative under its index, and a constant for each item of an ENUMERATED with the number that is sent for it. Unnamed types inside are items under names made of the path to them, parameterized types are taken with their parameters put in, and an open type has one variant for each object of its set.", "quantifier": "all schemas that are compiled, all definitions in them, any nesting", "why_tests_cant": "a test compares the output for one schema; components could be dropped, swapped or given another type for some nesting, set of objects or order of definitions", "anchors": ["asn-compiler/src/generator/asn/types/constructed/choice.rs", "asn-compiler/src/generator/asn/types/constructed/seq.rs", "asn-compiler/src/generator/asn/types/constructed/seqof.rs", "asn-compiler/src/generator/asn/types/base/enumerated.rs", "asn-compiler/src/generator/asn/types/int.rs", "asn-compiler/src/generator/int.rs", "asn-compiler/src/resolver/asn/types/constructed.rs"]}
{"id": "C62", "title": "Earlier calls on a compiler object do not show", "statement": "What resolve_modules followed by generate prints on a compiler object depends on the modules that it holds, not on the calls that were made before: after any calls of add_module and resolve_modules, in any order and number, also after calls that failed, it prints what a compiler object prints that is created for the same modules. In particular the program hampi-asn1c, which makes these calls file by file, prints this.", "quantifier": "all schemas, all sequences of calls on a compiler object, all orders in which each call goes through the definitions", "why_tests_cant": "a test makes the calls in one order; what a call that fails leaves behind depends on where it fails and on the order of the hash maps", "anchors": ["asn-compiler/src/compiler.rs Asn1Compiler::add_module, resolve_modules, generate", "asn-compiler/src/resolver/int.rs Resolver::resolve_definitions, resolve_classes", "asn-compiler/src/generator/int.rs Generator::generate", "asn-compiler/src/bin/hampi-asn1c.rs main"]}
{"id": "C63", "title": "What is built from a message is bounded by its length", "statement": "A decoder never returns more than it has read: the strings in a decoded value have together no more bits than the message, and for each bit that is read no more values (components, list elements, alternatives) are made than the type has parts. A short message cannot make the receiver allocate an arbitrarily large value.", "quantifier": "all types, all octets received, any nesting of lists", "why_tests_cant": "a test sends some messages; lengths announced in nested lists and fragmented strings multiply, and the bound must hold for each combination an attacker may send", "anchors": ["codecs_derive/src/aper/seqof.rs generate_aper_codec_for_asn_sequence_of", "codecs/src/aper/decode/mod.rs decode_bitstring, decode_octetstring, decode_length_determinent", "codecs/src/aper/decode/decode_charstrings.rs decode_string"]}
{"id": "C64", "title": "Old and new versions of a protocol understand each other", "statement": "When a schema is extended behind its extension markers (objects added to object sets, alternatives to CHOICE types, items to ENUMERATED types, additions to SEQUENCE types), programs generated from the old and the new version understand each other: the new one reads every message that the old one reads, as the same value; a value that both have is sent as the same octets by both; and the old one reads a message of the new one as the same value or reports an error, which it does only if there is no such value in the old version. It never takes it for another value.", "quantifier": "all pairs of an old and an extended schema, all their types, all values, all octets received, any nesting", "why_tests_cant": "a test has two versions of one schema and some messages; alternatives that are inserted shift the indices of the generated enums and an unknown one may occur at any depth", "anchors": ["codecs_derive/src/aper/choice.rs, open.rs, seq.rs, seqof.rs", "asn-compiler/src/resolver/asn/types/constructed.rs", "asn-compiler/src/resolver/asn/types/ioc.rs", "asn-compiler/src/generator/asn/types/constructed/seq.rs, choice.rs"]}
{"id": "C65", "title": "The protocol that comes with the compiler is compiled rightly", "statement": "The files of specs/ngap are read as the modules that X.680 makes of them, and compiling them gives, whatever order the hash maps have, one and the same program, in which every type of the protocol is exactly one item that means what the specification says and has its names, and every value of these types that the encoder takes is decoded again from its octets, where these octets are the ones that X.691 prescribes.", "quantifier": "all orders of modules and definitions, all build settings, all 1782 definitions of the six files, all values of their types", "why_tests_cant": "the generated file has 1928 items and a test in the repository decodes one message; a wrong bound in one of them shows only for values that no test sends", "anchors": ["specs/ngap/*.asn", "asn-compiler/src/compiler.rs", "asn-compiler/src/resolver", "asn-compiler/src/generator", "codecs_derive/src/aper"]}
{"id": "C66", "title": "The encoding of a value is not much longer than the value", "statement": "A successful encoder writes all strings of the value, and besides them less than 153 bits for each value (component, list element, alternative) that the value consists of; a program that decodes messages and encodes them again sends no more than a fixed multiple of what it receives.", "quantifier": "all types, all values that the encoder accepts, all octets received, any nesting of open types and lists", "why_tests_cant": "headers, padding and the frames of nested open types add up; a test measures some messages, while buffers are planned for all", "anchors": ["codecs/src/aper/encode/mod.rs", "codecs/src/aper/encode/encode_internal.rs", "codecs_derive/src/aper/open.rs", "codecs_derive/src/aper/seq.rs"]}
{"id": "C67", "title": "Debug and release builds agree, and so do hosts", "statement": "Whatever the compiler, a codec function or a derived codec does in a debug build without panicking, it does in a release build as well: same result, same buffer. The byte order of the host changes neither generated programs nor messages nor decoded values.", "quantifier": "all schemas and orders, all calls, types, values and buffers, both profiles, both byte orders", "why_tests_cant": "tests run in one profile on one host; a difference shows only for inputs at which arithmetic leaves its type, or on hosts of the other byte order", "anchors": ["codecs/src/aper/mod.rs", "codecs/src/aper/encode", "codecs/src/aper/decode", "codecs_derive/src/aper", "asn-compiler/src/resolver/asn/structs/types/constraints.rs", "asn-compiler/src/generator"]}
{"id": "C68", "title": "Generated names are identifiers of Rust", "statement": "Every name in a generated program, of items, fields, variants and constants and of the types they use, is letters, digits and underscores and starts with a letter; none is a keyword of Rust or hides a type of its library that the program uses.", "quantifier": "all texts of files that compile, all modules, all orders of resolution, both build profiles", "why_tests_cant": "tests compile a few schemas; a name that rustc refuses shows only when a schema happens to contain it, at any depth of nesting", "anchors": ["asn-compiler/src/generator/int.rs:to_type_ident", "asn-compiler/src/generator/int.rs:to_const_ident", "asn-compiler/src/generator/int.rs:to_value_ident", "asn-compiler/src/generator/asn/types/constructed", "asn-compiler/src/resolver/asn/types/constructed.rs"]}
