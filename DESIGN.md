# Formal model of gabhijit/hampi in Rocq (Coq 8.16.1)

hampi is an ASN.1 toolkit in Rust: a compiler from ASN.1 modules to Rust types
with attributes (`asn-compiler`), a derive macro that turns the attributes into
`encode`/`decode` functions (`codecs_derive`), and the aligned PER runtime these
functions call (`codecs`). The model covers all three, and the theorems speak
about each alone and about the chain.

## Layout

| Part of /repo | Model | Specification | Theorems |
|---|---|---|---|
| codecs/src/aper (the runtime codec: `AperCodecData`, every `encode_*`/`decode_*`) | `Base`, `CodecModel`, `Api` (the calls as data) | `Spec`, `ApiSpec` | `Theorems_Codec` |
| codecs_derive/src/aper/*.rs (what `#[derive(AperCodec)]` emits) | `DeriveModel` | `DeriveSpec` | `Theorems_Derive` |
| ITU-T X.691, aligned variant (not code: the standard the codec follows) | `X691`, `X691Types` | `X691Spec`, `X691TypesSpec` | `Theorems_X691`, `Theorems_X691Types` |
| asn-compiler/src/tokenizer | `TokenModel` | `TokenSpec` | `Theorems_Tokenizer` |
| asn-compiler/src/parser | `Asn1Model` (the trees), `ParserModel`, `DefinitionModel` | `ParserSpec`, `DefinitionSpec` | `Theorems_Parser` |
| asn-compiler/src/parser/asn/defs.rs `apply_params` | `DefinitionModel` | `ParamSpec` | `Theorems_Params` |
| asn-compiler/src/resolver, generator, compiler.rs | `ResolveModel`, `ModuleModel`, `GenModel`, `DefinitionModel` | `CompilerSpec` | `Theorems_Compiler`, `Theorems_Meet` |
| the same, for all orders of the hash maps | `ResolveModel`, `ModuleModel` | `CompilerSpec` (`valid_orders`), `OrderSpec` | `Theorems_Order` |
| values that are accepted for sending | `DeriveModel` | `ArriveSpec` | `Theorems_Arrive` |
| texts that the parser accepts | `ParserModel`, `DefinitionModel`, `TokenModel` | `LooseSpec` | `Theorems_Loose` |
| names of fields and constants, words of Rust | `GenModel`, `ResolveModel`, `ModuleModel` | `WordSpec`, `OpenNameSpec`, `LegalSpec` | `Theorems_Names` |
| names and structure of the generated items | `ResolveModel`, `ModuleModel`, `GenModel` | `ShapeSpec` | `Theorems_Shape` |
| a compiler object, calls in any order (compiler.rs, bin/hampi-asn1c.rs) | `SessionModel` | `SessionSpec` | `Theorems_Session` |
| the size of decoded values | `DeriveModel` | `SizeSpec` | `Theorems_Size` |
| the length of encodings | `DeriveModel` | `SizeSpec`, `GrowthSpec` | `Theorems_Growth` |
| two versions of a schema | all of the compiler, `DeriveModel` | `VersionSpec` (types, values), `RevisionSpec` (schemas) | `Theorems_Version` |
| specs/ngap/*.asn, compiled | all of the compiler, `DeriveModel`; texts in `NgapFiles` | `ProtocolSpec`, `NgapSpec` | `Theorems_Check` |
| decoding followed by encoding | `DeriveModel` | `RelaySpec`, `X691Types` | `Theorems_Relay` |
| parser/asn/types/ioc.rs (objects), module.rs, compiler.rs (from files to modules) | `DefinitionModel`, `ModuleModel` | `LinkSpec` | `Theorems_Link` |
| asn-compiler/src/generator (the items printed), codecs_derive/src/lib.rs, attrs.rs, utils.rs, aper (reading them) | `RustModel` | `RustSpec` | `Theorems_Rust` |

All other files hold proofs (`*Proofs`, `Frame`, `Safety`, `Local`, `Loops`,
`Ranges`, `Combinators`, `BitLemmas`) and concrete cases (`*Facts`). A
`Theorems_*` file holds nothing but theorems closed by `exact`, with `Print
Assumptions` and an `Example` beside them.

Conventions:

* A Rust function on `&mut AperCodecData` becomes `cdata -> res A * cdata`.
  `res` has `Ok`, `Err` (message dropped), `Panic` (slice out of range,
  `unwrap`, `unreachable!`, overflow with checks on) and `Diverge` (a loop or
  recursion that does not end; the model uses fuel, and theorems show when it
  does not run out). The state comes back on failure too: a failed encode
  leaves partial output in the buffer.
* `usize` has 64 bits. Integers are `Z`; wraps and casts are explicit.
* `env` carries the facts about the build that matter: overflow checks on
  (debug) or off (release), and the byte order of the host.
* A `BitVec<u8, Msb0>` is a `list bool`.
* A `HashMap` is an association list; where Rust's iteration order matters the
  order is a parameter of the model (`orders`) and theorems hold for all orders.
* Every definition of the model carries a comment with file and lines.
* Statements with the suffix `_partial` say in a comment what is missing;
  `_refuted` theorems are witnesses that the full statement is false of the code.

## Trusted base

* Coq's kernel. `Print Assumptions` says "Closed under the global context" for
  every theorem in `Theorems_*.v`: no axioms, of the standard library or others.
* The reading of /repo as text. The program cannot be built here, so the model
  was compared with what the program left in /repo (see "Comparison with the
  program's own output" below).
* The crates the code uses, by specification:
  * bitvec: `load_be` panics unless 1 <= length <= bits of the target; on `Msb0`
    it is the value of the bits read from the left; `load` is `load_le` on
    little-endian and `load_be` on big-endian hosts; `from_bitslice`/`to_bitvec`
    keep the head offset; the dead bits of the last byte are zero in
    `into_vec`/`into_bytes` after appends; bit lengths are below 2^61.
  * topological-sort: `pop_all` gives the nodes without predecessors in some
    order; an empty `pop_all` with nodes left is a cycle.
  * heck 0.4: word boundaries of `to_upper_camel_case`, `to_snake_case` and
    `to_shouty_snake_case` on ASCII identifiers.
  * Rust's Unicode tables: `char::is_numeric` is a parameter known to hold of
    the ASCII digits and of no other ASCII character; white space is the
    White_Space list; of the letters tested only h, H, b, B lower to h or b.
  * `i128`/`u128`/`usize` `FromStr` and formatting, `str::trim`,
    `str::split_whitespace`.
* `syn`/`quote`: the tokens they print are read back as the same tokens; the
  grammar of attributes (`parse_meta`) and of literals is modelled.

## Comparison with the program's own output

/repo holds ASN.1 specifications and the Rust code that the compiler made of
them. The model of the compiler, extracted to OCaml outside of this directory,
was run on the texts in /repo/specs:

| Specification | Generated file in /repo | Items |
|---|---|---|
| RANAP | examples/tests/11-ranap.rs | 1521, all equal, in the same order |
| S1AP | examples/tests/12-s1ap.rs | 1451, all equal, in the same order |
| NGAP | examples/tests/13-ngap.rs, benches/ngap.rs | 1928, all equal, in the same order |

The two RANAP messages and the NGAP message in examples/tests are decoded by the
extracted model of the derived code and encoded again to the same octets. This
is a test and no part of the proofs; it is why the model is believed to be the
program.

How far the theorems about schemas (C47, C48, C50, C54, C55) reach in these
specifications: all definitions of NGAP are in the notation of C50; outside of
it are three SEQUENCEs of RANAP and one each of S1AP and RRC, which have
additions without version brackets (finding 18). Empty object sets (290 of 445
in NGAP), OCTET STRING (CONTAINING ...) and objects with types written out have
a meaning in `asn_means`. Types without one are those over a constrained
reference (`TBCD-STRING (SIZE (3))` in RANAP, finding 21); S1AP defines
MobilityInformation in two modules (finding 20). The open types of NGAP lose
the three objects with inline types (finding 28) in UplinkNASTransport,
RerouteNASRequest and UEContextReleaseComplete.

The check of C65, extracted as well, finds a meaning for 1758 of the 1782
definitions of NGAP (this one is also proved, see C65), 1453 of 1484 of S1AP and
1177 of 1373 of RANAP. The others are the two periods of finding 62, lists of
S1AP with a SIZE that names a constant of their own module, and the constrained
references of RANAP, each with all that contains them.

Whether a value comes back depends on the open types in it, because of finding
9; hence `flow_of` is about the value and not only its type. The types NGAP-PDU,
RANAP-PDU and S1AP-PDU have values of both sorts.

## Not modelled

* Log output, error texts, allocation failure and stack overflow (recursion
  that does not end is `Diverge`), rustfmt, reading and writing files, command
  line parsing.
* rustc: that the items and the code of the macro compile is modelled only as
  far as `RustSpec.fits` says (the fields have the types the code needs) and
  that named types are defined. The constants of ENUMERATED types are in the
  generator's output (C34, C61), not in the tokens that are printed from it.
* REAL, SET, SET OF, tags: the parser rejects them or stops; modelled as such.
* The examples.

## Properties

The English statements are in `properties.jsonl`, the theorems and what is
missing in `MANIFEST.json`.

| Id | How |
|---|---|
| C01-C03 | Round trip of integers: arithmetic of bit lists, case split over the encoding regimes. |
| C04-C05 | What the encoder refuses, what the decoder can return. |
| C06 | Round trip of the length formats. |
| C07-C10 | Round trips of booleans, enumerations, choice indices, presence bits. |
| C11-C13 | Round trips of strings; induction over fragments; C13 depends on the byte order. |
| C14 | A frame predicate on encoders, closed under sequencing: only appends. |
| C15-C17 | Locality of decoders: what is read does not depend on what follows; truncation. |
| C18-C20 | Safety: no panic, fuel not used up, under guards; witnesses beyond them. |
| C21-C22 | Packing of bits into bytes. |
| C23 | Induction over a list of operations. |
| C24-C29 | Derived codecs: induction over type trees of any depth; `flow_of` and `carries` values. |
| C30-C31, C43-C46 | Comparison with X.691, written separately as a relation. |
| C32-C38 | Compiler passes: bounds against the meaning of constraints, widths, numbering, names, order, imports. For intersections of two ranges or numbers, the result is stated exactly (`MeetProofs`): the one range or number if both are the same, otherwise a panic; of three ranges the first two of which differ, the third (a refutation). |
| C39-C40 | Tokenizer: sound and complete for the lexical items, positions, termination, the exact panics. |
| C41, C50 | Parser: progress and termination; a file in the specified notation, from its characters, is read as the modules it denotes; no ambiguity. |
| C42 | Instances of parameterized types are the body with the parameters replaced, as trees. |
| C47-C49 | The meaning of the program: an assignment of meanings to the names of all modules (numbers, types, objects, object sets, parameterized types), and an invariant of the resolver over all valid orders; each generated definition is the ASN.1 type it stands for; encode/decode of the generated program; open type tables. |
| C51-C53 | Items as token lists: printing followed by the reading of the macro is the identity; commutation of attribute updates; what the macro refuses. |
| C54-C55 | The notation of objects and the modules that files denote, as relations; the text of an object is tokenized to the tokens it came from, and read setting by setting; composition with C47, C48, C50 and C51 from characters to bytes. |
| C56 | X.691 for whole types as relations between trees, values and bits (`X691Types`), independent of the attributes; induction over the carried values for the encoder; for the decoder, induction over the known values with the padding that the decoder leaves to the next call; induction over the generator for the numbers of alternatives and presence bits (`NumberProofs`); composition with C55. |
| C57 | The order is an argument of `compile`, constrained by `valid_orders` only. Resolution is monotone in the tables of resolved definitions (`OrderProofs`): what is resolved with some of the definitions stays the same when more are there. So any two runs agree with their union, tables are kept ordered by name, and the generated items are a function of the table. |
| C58 | Two facts about `dec` (`RelayProofs`): a value it returns that lies within its bounds can be carried (`carries` of C24, so that the round trip applies), and for types whose bounds are as wide as the bits that are read it returns no others. X.691 is shown to be a function (`RelayCanonProofs`), so that with C56 canonical messages are reproduced octet by octet. |
| C59 | Induction over the values of the Rust types (`rust_value`): a successful call of `enc`, from any state of the buffer, shows that every part was within its bounds (the acceptance lemmas of C01 to C13, `AcceptProofs`), so that `carries` of C24 holds, and with it the round trip. `carries` is also shown to imply `within` of C58. |
| C60 | The notation that the parser takes is written down with all its liberties (`LooseSpec`, where they are marked), independently of the parser. Induction over the turns of each loop of the parser, with the tokens read so far as witness, shows that what is accepted is in it and denotes what was read. The tokens of a text have the text of their kind (`lexed`), from C39. Lifted to `compile_files`. That the notation of C50 is contained in it follows from C50. |
| C61 | What a type looks like in Rust is specified by mutual inductive relations between the type as written in the schema and an item of the program (`ShapeSpec.shaped`), apart from resolver and generator. An invariant of the resolver's environment relates each resolved definition to the written one, with parameters put in and objects collected from the sets; induction over the resolved type then relates the items that the generator adds to it. Lifted to `compile_files`. |
| C62 | A compiler object is a state (modules with objects read in place, resolver, printed items) and a history is any list of calls, whose effects are kept when they fail. The first session is related to `compile_files` by simulation. For replays, an invariant says that the resolver holds only what `Reached` of C57 allows, that a read object is what its text denotes, and that nothing was lost that is still needed; confluence (C57) then gives the same definitions. What `add_module` answers after any calls is proved by tracking the module names held (`SessionAnswers`). |
| C63 | `payload` (bits in strings) and `nodes` (number of values) of a decoded value against the distance the read position has moved; induction over the type, inside of it over the fragments of a string and the elements of a list. |
| C64 | `newer t1 t2` between type trees, `same_value` between their values; simultaneous induction over both trees shows that the two decoders go through the same states as long as the alternatives are known to both. `later_modules` between schemas is a relation on the syntax trees; that the meanings are `newer` is proved by well-founded induction over modules and definitions, with parameterized types, classes, objects and sets. |
| C65 | `CheckSpec` has functions that look for the meaning of a schema; `CheckProofs` and `CheckModuleProofs` show that what they find is a meaning in the sense of `CompilerSpec`. `protocol_fine` (in `ProtocolCheck`) adds the checks for the conditions of C48, C51 and C57 and runs the model of the compiler once, in the debug build, which by C67 is enough. The kernel evaluates it (`vm_cast_no_check`, 3.5 minutes; `coqchk`, which has no virtual machine, takes 14) on the files; C47, C48, C51, C56, C57, C60 and C61 then speak about all orders and all values. |
| C66 | `adds m lo hi`: the encoder m appends at least lo bits if it succeeds and at most hi in any case; for each primitive by its cases, for types by induction with `nodes` and `payload` of C63 as measures. |
| C67 | `BuildProofs` and `BuildCodec`: a relation between the results in two environments (the first panics, or they are equal) that is kept by sequencing, folds and loops, shown for every function in which arithmetic may leave its type, by induction on constraints, types and schemas. Applied in both directions to two hosts it gives equality. |
| C36, programs | `OpenNameProofs`: the generator adds the names that are written and made-up ones with different numbers, by induction on types with open types in them; `PlainProofs`: an invariant of the resolver, that types in open types are references; names of objects in a set determine their numbers, so that variants differ. |
| C68 | `LegalProofs`: an invariant of the generator (all names handed on start with a letter and contain letters, digits, hyphens, spaces and underscores), by induction on types; `SpelledProofs`: an invariant of the resolver (names in resolved definitions are those of the modules). The words that heck splits a name into keep its letters in order (`WordProofs`), from which the keywords among fields follow. `WrittenProofs`: names in what the tokenizer and the parser yield, including instances of parameterized definitions and objects read again from their text, are names of ASN.1, so that the claim holds of files. |

Wrong programs tried against the theorems are in `seeded/LOG.jsonl`.

## Findings

Deviations of the code from what a user would expect, each shown by a theorem
or an example of the model.

Runtime codec:

1. Unconstrained integers of 9 to 15 octets are encoded but cannot be decoded.
2. A semi-constrained integer with a length of 17 octets or more panics on
   decode; this is reachable from any message with an extensible CHOICE or
   ENUMERATED. `value + lb` can overflow; 16 octets come out negative.
3. Semi-constrained encode computes the length of the two's complement; a
   difference of 2^127 or more panics (debug) or wraps (release).
4. Constrained decode can return values and lengths outside the bounds.
5. For ranges above 64K the lowest value is refused on encode; ranges of 2^127
   and more panic; an upper bound alone is not enforced.
6. Bit and octet strings with a constrained length of 16384 or more read again
   after the last fragment; encode refuses them after the extension bit is out.
7. `decode_string` loads in host order and scrambles strings of one or two
   characters; fragmented character strings end after the first fragment.
8. `length_in_bytes` underflows on an empty buffer (open type with a NULL).
9. Open types: the decoder ignores the length and does not skip padding; the key
   is global to the buffer, so nested keys are mixed up.
10. SEQUENCE OF: the empty list cannot be decoded; elements of no width do not
    end; a violation of the size is dropped in silence; the extension flag is
    passed where "normally small" is expected.
11. Derived types: extension values of ENUMERATED cannot be told apart, SEQUENCE
    additions are not skipped, CHOICE additions are an error, integers are cast
    with `as`.
12. `decode_align` panics near the end of a buffer whose length is not a
    multiple of 8, and when the offset is past the end.
13. Length determinants with negative or crossed bounds panic.
14. Against X.691: short strings of variable size are not aligned; normally
    small lengths switch at 32 instead of 64; ranges of exactly 2^32 and 2^64
    use one octet less.

Tokenizer and parser:

15. The tokenizer panics on the empty text, carriage returns, unknown
    characters, and on `[`, `]` or `-` at the end; a lone `-` is a number;
    columns after comments and in strings over several lines are off; Unicode
    numerics are accepted in numbers.
16. Endless loops on `SEQUENCE { 5 }`, CHOICE and object sets likewise, and on
    legal ASN.1: `Foo{INTEGER}`, `DEFAULT TRUE`, REAL, SET, tags inside SEQUENCE
    or CHOICE. Slice panics on `OCTET` or `CHARACTER` at the end and on `0<`.
17. Legal and rejected: `CHOICE {a A, ..., b B, ...}`, `SEQUENCE SIZE (1..5) OF
    T`, EXPORTS, `IMPORTS ;`, tags, value sets, `ALL EXCEPT`, CONTAINING of a
    built-in type, WITH COMPONENTS, `a BOOLEAN ::= TRUE`, a class without WITH
    SYNTAX at the end of a file, nested optional groups in WITH SYNTAX.
18. Read as something else: additions without version brackets become components
    of the root; CHOICE additions without brackets come after those with; a value
    in braces of a type in capitals is an object; `(SIZE 5)` is the value 5; SET
    is a reference; the second definition of a name replaces the first.
19. Parameters are replaced one after the other and by text, so an actual
    parameter named like a later formal one is captured and a component named
    like a value parameter is renamed; `X{T} ::= T{T}` with `X{X}` does not end.

Compiler:

20. `add_module` returns the opposite of its documentation; cyclic imports and
    modules with the same name are dropped in silence; of two modules of one name
    in a file the first wins; definitions of the same name in two modules
    overwrite each other.
21. `(0..10 | 20)` has upper bound 10; intersection compares ranges for equality;
    `INTEGER (0..10 ^ 5..20)` panics; an intersection that has become empty starts
    again, so `(1..2 ^ 3..4 ^ 5..600)` is `5..600`; MIN and MAX in a range cannot be resolved;
    only the first of several constraints counts; constraints on references are
    ignored; `(SIZE(1..5), ...)` loses its marker.
22. The width of signed integers leaves out the sign: `-200..200` is an `i8`;
    128-bit ranges are 64-bit integers; `abs(i128::MIN)` overflows.
23. ENUMERATED with explicit numbers underflows in the generator; references as
    numbers are ignored; more than 256 items wrap; there are no constants for
    additions. A CHOICE without root alternatives underflows; additions are
    numbered from 0 again.
24. SEQUENCE additions in brackets are dropped; DEFAULT is mandatory.
25. A SEQUENCE with an unresolved reference panics where the others give an
    error; imports are checked for the module only.
26. Recursive and cyclic definitions, and all that need them, vanish while the
    compiler reports success.
27. SIZE of SEQUENCE OF, fields of objects and names of values add no dependency,
    so the outcome depends on the order of a `HashMap`.
28. In a SEQUENCE with class fields other components vanish and OPTIONAL is lost;
    objects with a literal id or an inline type are not in the open type table.
29. Generated names can collide for different written names.

Generated items and derive macro:

30. A type called `Option` makes the SEQUENCEs that use it be refused; types
    called `Vec`, `String`, `Result`, `Some` and so on clash with Rust's.
31. IA5String and the other string types apart from UTF8String, PrintableString
    and VisibleString compile and are then refused by the macro.
32. Components named by Rust keywords other than `type` give fields that are no
    Rust.
33. A value, object or object set with the name of a type in another module
    removes the type; what uses it names a type that is not there.
34. The macro refuses every attribute besides `asn`, doc comments included. A
    repeated key counts with its last value; attributes that have no meaning for
    the type are ignored. A bound that is no `i128`, and a CHOICE without bounds,
    make it panic. Variants that are no tuples are left out in silence. The check
    for unsupported string types compares with a misspelt word.

Objects:

35. An object with a literal `'..'B` or `'..'H` makes the compiler fail; one in
    the default syntax (class without WITH SYNTAX) silently has no fields.
36. Words that the class does not have are passed over and the value is read at
    the wrong place; mandatory fields need not be there; a field without words
    takes a single token, so `{ INTEGER (0..5) ID 5 }` is refused.
37. Classes are found by name in all modules handled so far: with two classes of
    one name the outcome depends on the order of a `HashMap`, and a class need
    not be imported. Object sets are kept in reverse order.

Whole types against X.691:

38. A value of no bits, for example a NULL as a message of its own, is encoded in
    no octets; X.691 prescribes one zero octet.
39. SEQUENCE OF with an extensible SIZE: the extension bit is not written and the
    length is written as a normally small one.
40. The SIZE of a UTF8String is not visible in PER, but is put into the attributes
    and left out of the encoding as if it counted octets; a text of the right
    number of characters may be refused.
41. The alternatives of a CHOICE are numbered in the order of the text also in
    modules without AUTOMATIC TAGS, where X.691 goes by the tags.

Order of resolution:

42. The value of an ENUMERATED type in an object is looked up among all values
    resolved so far, of all modules and without imports. If an item has the name
    of a value of an unrelated module, the number of that value becomes the key
    of the open type in those runs in which the other module is handled first.
    Otherwise the object is left out of the open type in silence.
43. A component that is constrained by an object set and of a type that is not
    resolved yet is dropped from its SEQUENCE in silence.
44. `second INTEGER ::= first` does not order the two values. In about half of
    the runs the compiler panics.

Relaying:

45. A number, size or index beyond the bounds of its type is accepted by the
    decoder whenever it fits the bits that are read, and then refused by the
    encoder. For SEQUENCE OF it is not refused: the length is left out, and the
    elements arrive as others.
46. An index beyond the root of a CHOICE is looked up among the alternatives of
    the extension, which are numbered from 0 again.
47. Extension additions of a received SEQUENCE, and the difference between the
    items of the root and of the extension of an ENUMERATED type, are lost when
    the value is sent on.
48. The encoder of an open type does not compare the alternative with the key.
    A message whose key names another alternative is sent, and the receiver
    takes the octets for a value of the type that the key names.
49. A u64 from 2^63 on is sent as an unconstrained INTEGER of 9 octets, which
    the decoder refuses (1).

Texts that are not ASN.1:

50. Commas are skipped if they are there, and not asked for: between the
    components of a SEQUENCE, CHOICE or version brackets, the items of an
    ENUMERATED type, and parameters. They may also follow the last of them.
51. A definition replaces an earlier one with the same name in silence, and so
    do a field of a class and a clause of WITH SYNTAX. Components of a SEQUENCE
    may have the same name, which is left to the Rust compiler.
52. What follows OCTET, CHARACTER and the `<` of a range is not looked at.
    `SIZE 5` and `FROM "a"` without parentheses are read without the word.
    Operands of `|` may be missing, and `^` may come first.
53. SET is read as a reference to a type of this name, and `Foo{}` as `Foo`.
    The symbols of IMPORTS are all tokens up to FROM.
54. A value in parentheses is read as one in braces, and inside of it only
    brackets of the same kind must match.

Extensible object sets:

55. A SEQUENCE over an object set without objects, `{...}`, becomes a Rust type
    without components. What a later version of the protocol sends in it is not
    skipped, and the components that follow are read from its octets. NGAP has
    290 such sets; all `..._ExtIEs` that are still empty are among them.

Calls on a compiler object:

56. `generate` called twice prints every item twice, and the items for unnamed
    types three times in all, under new numbers. If rustfmt fails, the items of
    the failed call stay for the next one.
57. `resolve_modules` takes the objects out of a set before it reads them. If
    one cannot be read the call fails, and a second call succeeds with a set
    that lacks it.
58. Each call of `resolve_modules` reverses the object sets. As the first object
    of a set decides on the types of components, the second call can lead to
    another program.
59. When a module is replaced, the definitions of the old one stay and are
    printed with those of the new.

Versions of a protocol:

60. An element of a protocol list with a number that the receiver does not know
    makes it reject the whole message, although the open type in which the
    value travels tells its length. (X.681 and the protocols, for example
    NGAP with its criticality, expect the element to be skipped or reported.)
61. Of a set that was empty in the old version, elements of the new one are
    read as elements without components, and what follows from the wrong
    octets (see 55).

The protocols in /repo/specs:

62. NGAP and S1AP: `ExpectedActivityPeriod` and `ExpectedIdlePeriod`, INTEGER
    (1..30|40|50|60|80|100|120|150|180|181, ...), get the upper bound 30 (see
    21). The values above 30 cannot be sent, and the ones below are sent in 5
    bits where other implementations send 8. Both are in NGAP-PDU, in messages
    such as InitialContextSetupRequest and HandoverRequest.
63. NGAP: `RAN-UE-NGAP-ID`, INTEGER (0..4294967295), and `AMF-UE-NGAP-ID`,
    INTEGER (0..1099511627775), cannot be 0 (see 5). The octets of a
    `RAN-UE-NGAP-ID` from 65536 on are not those of X.691, because the range is
    2^32 (C30): 65536 is sent as 40 01 00 00 instead of 80 01 00 00. Both are
    in almost all messages of the protocol.
64. A CHOICE with an alternative `self` becomes an enum with the variant `Self`,
    which is a keyword.
65. A type called like one of the Rust library that generated items use (String,
    Vec, BitVec) hides it: `String ::= UTF8String` becomes a struct that holds
    itself.
66. The type of a nested alternative is called after the CHOICE and the alternative,
    one after the other and without a capital in between (choice.rs:212), so that a
    name can arise that is a keyword although none was written: in
    `Sel ::= CHOICE { f CHOICE { a NULL } }` the inner type is called Self.
