# Formal model of go-amino in Rocq/Coq 8.16.1

Source modelled: `/repo` (tendermint/go-amino v0.15.0), read as text; nothing in it
was built or run.  The properties are in `properties.jsonl`, their status in
`MANIFEST.json`, the Coq development in `rocq/theories` (flags and file order in
`rocq/_CoqProject`), the log of wrong programs tried against the theorems in
`seeded/LOG.jsonl`.

    cd rocq && coq_makefile -f _CoqProject -o Makefile && make -j4

## 1. Layout

* **Model** files hold definitions only.  Each definition that stands for Go code
  cites file and lines.
* **Spec** files (`Spec*.v`) say what a property means without using the model's
  encoders, decoders or registry functions (they share the vocabulary of bytes, Go
  types and Go values).
* **Facts / Props** files hold lemmas.
* **Properties_*.v** hold the theorems `Cnn_…` named in `MANIFEST.json`, each with an
  `Example` that meets its hypotheses on concrete, non-trivial data, and a
  `Print Assumptions`.

| model file | source | contents |
|---|---|---|
| `Base.v` | `reflect.go:49-58` | bytes, wrapping of machine integers, errors, panics, results, `slide` |
| `Prims.v` | `encoder.go`, `decoder.go`, `amino.go:98-108`, `binary-encode.go:481-530`, `binary-decode.go:959-978` | primitive encoders and decoders, field keys, times; the parts of Go's `encoding/binary` they call |
| `Types.v` | `reflect.go` | Go types and values as seen through `reflect`; declarations of a Go program (`tenv`) |
| `Codec.v` | `codec.go` | type information, struct tags, registry, prefix and disambiguation bytes, `Seal` |
| `BinEnc.v` | `binary-encode.go` | all encoders |
| `BinDec.v` | `binary-decode.go` | all decoders |
| `Amino.v` | `amino.go:143-493` | `Marshal/UnmarshalBinaryBare`, `…LengthPrefixed`, `Must…` |
| `Entry.v` | `amino.go:41-93` and the arguments of all entry points | nil arguments, targets that are no pointers, the package-level functions |
| `Print.v` | `codec.go:253-325`, `amino.go:110-131` | `PrintTypes`, `Typ3.String` |
| `Registry.v` | `codec.go` | histories of codec calls, one after another |
| `Conc.v` | `codec.go`, `binary-encode.go:248` | goroutines sharing a codec: the mutex and single accesses, all interleavings |
| `Stream.v` | `encoder.go`, `amino.go:171-184, 290-350` | the same encoders on an `io.Writer` that may fail; the `io.Reader` entry point |
| `DeepCopy.v` | `deep_copy.go` | `DeepCopy` over a heap with pointers into variables, with the methods of user types as functions on heaps |
| `Json.v` | `json-encode.go`, `json-decode.go`, `amino.go:495-591` | JSON encoding and decoding |
| `JsonIndent.v` | `amino.go:531-590` and Go's `json.Indent` | `MarshalJSONIndent`, `MustMarshalJSON`, `MustUnmarshalJSON` |
| `JsonText.v` | Go standard library | the parts of `encoding/json`, `base64`, `utf8`, `strconv` that `Json.v` calls |
| `Scan.v` | `cmd/aminoscan/aminoscan.go` | the struct scanner |
| `Tool.v` | `cmd/aminoscan/aminoscan.go`, `colors.go` | the same with everything that is printed, and `main` |
| `Sha256.v`, `Demo.v` | — | an executable hash and a sample program; used by examples only, and to run the project's own test vectors through the model |

| specification | used for |
|---|---|
| `SpecWire.v` base-128 and base-256 numerals, keys | C01–C10 |
| `SpecNorm.v` what a value reads back as (`norm`), by recursion on values | C11, C12, C25, C35, C45 |
| `SpecSupported.v` sets of types whose every encodable value reads back | C11, C15, C25 |
| `SpecProto.v` proto3 entries of a value | C13, C14, C36, C47 |
| `SpecRegistry.v` what a history of calls asks to be registered | C27–C29 |
| `SpecStruct.v` hidden fields, agreement on visible fields | C38, C41 |
| `SpecVersion.v` struct types that grow | C35, C36 |
| `SpecKin.v` programs whose struct types grow, also inside other values | C35, C36 |
| `SpecDefault.v`, `SpecContents.v` nil/empty; contents of a value | C39, C47 |
| `SpecStream.v` reader and writer contracts | C21–C23, C56 |
| `SpecFrame.v` entries as they stand on the wire, and their order | C19, C37 |
| `SpecCopy.v` looking alike and separateness on the heap | C53, C54 |
| `SpecConc.v` the calls at once, one after another | C31, C58 |
| `SpecTags.v` meaning of struct tags from the tag strings | C57 |
| `SpecJson.v` RFC 8259 grammar, UTF-8, decimals, JSON normal form | C49–C52 |
| `SpecLayout.v` JSON texts equal up to white space, indented layout | C62, C63 |
| `SpecJsonSafe.v` types UnmarshalJSON can set, parts of a target that are kept, accepted texts | C64–C66 |
| `SpecScan.v` what a listing of a message shows | C61 |
| `SpecRead.v` what each type is read from | C68 |
| `SpecReencode.v` values whose encoding survives being read | C73 |
| `SpecWritable.v` values Marshal accepts, types for which it returns | C74 |
| `SpecJsonAgain.v` values whose JSON text survives being read | C75 |
| `SpecJsonWritable.v` values MarshalJSON accepts, types for which it returns | C76 |
| `SpecAdmit.v` histories of codec calls in which nothing panics | C77 |
| `SpecMore.v` codecs with more registrations | C78 |
| `SpecThrough.v` types whose values keep their bytes through JSON | C79 |
| `SpecEcho.v` values that can be sent, types for which whatever is read can be | C80 |
| `SpecMembers.v` JSON texts that agree member by member, for a type | C81 |
| `SpecCut.v` readers whose stream ends | C82 |
| `SpecJsonReads.v` which JSON texts fit a type, and what they stand for; base64 | C83 |
| `SpecJsonSize.v` methods that do not blow up their argument, structs without two fields of the same name | C84 |
| `SpecJsonEcho.v` the values MarshalJSON accepts wherever they stand, and the types for which reading JSON leads to no others | C85 |
| `SpecBulk.v` how many bytes, and how many characters of JSON, a value warrants | C86 |
| `SpecLean.v` types whose messages do not grow when they are read and written again | C87 |
| `SpecRename.v` programs that differ in names of fields and JSON tags only | C89 |
| `SpecRetag.v` programs that differ in binary and amino tags only | C90 |
| `SpecConcat.v` structs divided into leading fields and the rest | C91 |
| `SpecWiden.v` programs that differ in the widths of integer fields | C92 |
| `SpecWidenJson.v` programs that differ in the widths of integer fields, for JSON | C93 |
| `SpecNamed.v` programs that differ in whether basic types are named | C94 |
| `SpecArray.v` structs with slices in the place of arrays | C95 |
| `SpecPointer.v` values that are not blank, structs with pointers in the place of values | C96 |
| `SpecLone.v` values that are not structs, structs with a single visible field | C97 |
| `SpecTwin.v` struct types with the same fields | C98 |
| `SpecPointerJson.v` structs and methods for which pointers make no difference in JSON | C99 |
| `SpecPointee.v` variables behind pointers | C100 |
| `SpecPrint.v` hexadecimal numerals, the table of registered types | C71 |
| `SpecTool.v` colored text, the report of a message | C72 |

## 2. Modelling conventions

* Bytes are `Z` in `[0,256)`; byte strings are `list Z`.  Fixed-width integers are `Z`
  with explicit wrapping at every Go conversion; `int` has 64 bits.
* Go errors are values of `error`, panics values of `panic`; arguments of messages are
  dropped.  A decoder returns the new contents of its target, the reported count and
  an optional error — also on error — so partial updates and the "impossible slide"
  panic are visible.
* Recursion over types is on fuel.  Running out of fuel is a result of its own that
  never counts as success or failure; `FuelFacts.v` shows that more fuel changes no
  other result and `DecTerm.v` that enough fuel exists (C16).
* A Go program's declarations are a record `tenv` (type definitions, tags, method
  sets, `MarshalAmino`/`UnmarshalAmino` as functions, the hash), universally
  quantified.  `wf_env` says that the record is possible in Go (for example, that an
  array length is not negative, or that a type has at most one underlying type).
  SHA-256 is any function giving 32 bytes.
* Codecs are reached by histories of calls from `NewCodec`; `clean` histories are those
  in which no call panicked.  Several theorems hold for all histories.
* Floats are their IEEE bit patterns; nothing is computed with them.
* The recover-less control flow of Go is kept: a panic ends a call with the `EPanic` /
  `DPanic` result, after whatever updates were made.

## 3. What is not modelled

* `time.Time`: location and monotonic clock reading.  A time is (seconds, nanoseconds).
* `fmt`/`Printf` debugging output, `TypeInfo.String`.  `reflect`'s names and sizes of types
  are an input of `PrintTypes`.
* Concurrency: the Go memory model below sequential consistency (C59 states absence of
  races instead), the preference of `RWMutex` for waiting writers, and the scheduling
  of goroutines (every interleaving is allowed).
* Memory: sizes of allocations other than those bounded in C17 and C22; slice capacity.
* `io.Writer`s and `io.Reader`s that panic.
* `DeepCopy`: NaN map keys; methods reached by embedding are methods like others.  Which
  methods have the right signature (`canAminoCopy`, `deep_copy.go:223-258`) is an input.
* Maps: the order in which Go lists keys.  A map is a list of entries and is written in its order.
* JSON: `MarshalJSON`/`UnmarshalJSON` methods on interface types, types with
  `MarshalText`/`UnmarshalText`.  `JsonText.v` is written from the documented
  behaviour of Go 1.13's library, which is not in `/repo`.  The text of times and
  floats and of user methods is a parameter (`jenv`); `jenv_ok` lists what is assumed
  of it: JSON text in UTF-8, and that `time.Time` reads back what it wrote.
  The contents of a target after an error of UnmarshalJSON, the spare capacity of a
  target slice (taken as zeros), and limits of encoding/json on nesting.
* `aminoscan`: Go's `flag` package, whose result is an input of `main`; `scanList` and
  `scanInterface` are commented out in the source.
* `tests/`, code generators, `*_test.go`.

## 4. How the properties are proved

* Primitives, C01–C10: induction on base-128 digits, case analysis on the guards.
* Round trip, C11, C12, C25, C40, C45, C46: induction on fuel and values, encoder and
  decoder side by side, against `norm`.
* Wire format, C13, C14, C47: the encoder against the entries of `SpecProto.v`.
* Decoder on arbitrary bytes, C15–C19, C37, C41, C42, C44: induction on fuel for all
  inputs, with typing and shape invariants of targets.
* Versions and fields, C35, C36, C38, C39, C43, C57.  For struct types that grow inside other
  values, `Careful.v` has a stricter decoder, proof device only: what the encoder of one
  version writes it accepts, and where it accepts, the decoder of the other version does.
* Messages of any origin, C68: `SpecRead.v` describes inductively what each type is read
  from; acceptance by mutual induction on that description, soundness by induction on fuel.
* Writing again what was read, C73: the encoder on a value and on its normal form.
* JSON written again, C75: the JSON encoder on a value and on its JSON normal form.
  Binary after JSON, C79: the JSON normal form of a value is `same` (C39) as the value.
* Writing what was read, C80: decoding keeps values `sendable` (times in range, registered
  types in interfaces), by induction on fuel; encoding sendable values gives no error; C74
  excludes panics.
* JSON members, C81: by induction on fuel, agreeing texts give equal results unless out of
  fuel; the member map is characterised by `last_member`, the wrapper by `string_member`.
* What Marshal and MarshalJSON accept, C74, C76: the encoders against `writable` and
  `jwritable`, for all types; induction on the rank of types and the height of values for
  termination.
* JSON reading, C83: both directions at once, by induction on the depth; the scanner is
  replaced by the grammar, `fill_map` by "the last member of a name".
* JSON sizes, C84: by induction on the depth, directly on the decoder (no assumption on the
  input); the lengths come from the grammar, and fields of different names read different members.
* Reading and writing JSON, C85: C76 says that writing returns; here, by induction on the depth, it
  returns no error on the values of `jtarget`, and the decoder leads to no others, whatever the input.
* Sizes of what is written, C86: by induction on the depth, for all values, also ill-typed ones.
* Reading and writing again, C87: by induction on the depth of the decoder: what it has consumed for
  a value pays for the bytes of that value, part by part; nothing is assumed about the input or the target.
* Equal JSON texts, C88: reading is a function, and by C49 it gives the normal form of either value.
* Renamed fields, C89: a simulation between the two programs, with type information and codecs related
  field by field, through every function of registration, encoding and decoding.
* Changed tags, C90: the same simulation, keeping the options JSON looks at, through the JSON functions.
* Messages of parts, C91: the encoder goes through fields and elements one by one; blank fields take no bytes if what they stand for can be written.
* Widths of integers, C92: the simulation of C89, with fields of related integer types, whose type information is that of types without methods.
* Widths of integers in JSON, C93: the simulation of C90 with fields of related integer types, in the way of C92.
* Names of basic types, C94: the simulations of C92 and C93 with fields whose types resolve to the same basic type and have no methods.
* Arrays and slices, C95: two types of one program are compared, so their type information and fields are, and no simulation is needed.
* Pointers in fields, C96: as C95, with separate positions of the fields on both sides, so that hidden fields may come anywhere; that something not blank is never written as the single byte 0 is shown by induction on `solid`.
* Values alone, C97: the depth of recursion is one less or the same without the struct, so both sides say that some depth is enough; that names in the options have no effect is C89 for two equal programs.
* Types with the same fields, C98: the type information of an unregistered struct type without methods holds its fields and its name, whether it was looked up before or not; the name is used only to find the fields again.
* Pointers in JSON, C99: what is written for a value without an address is written with one too, by induction on the depth; fields are matched as for C96.
* Targets behind pointers, C100: the decoder goes through all pointers before it looks at the text, null excepted.
* Framing and streams, C20–C23, C56, C82: every chunking, every writer, every cut.
* Registry, C24, C26–C30, C32, C33: invariants of all histories.  Entry points, C69, C70: case
  analysis on arguments; codecs that look alike give the same results.  PrintTypes, C71.
  Accepted histories, C77: from the invariants, the calls alone decide.  More
  registrations, C78: successes are kept through every function of the coders.
* Concurrency, C31, C34, C58–C60: invariants of all interleavings of a small-step
  semantics; simulation by the calls one after another.
* JSON, C49–C52, C62–C66: a scanner against the grammar, `jnorm` as normal form; on
  arbitrary bytes by induction on fuel, as for the binary decoder.
* DeepCopy, C53, C54: heap invariants; C67: induction on the way into the object.  aminoscan, C55, C61, C72.

## 5. Where the code does not do what a property says

In these cases the development has a theorem `…_refuted` with a concrete witness,
next to the `…_partial` theorem that gives the conditions under which the property
does hold.

| theorem | what happens |
|---|---|
| `C08_decode_time_extension_refuted` | `DecodeTime` reads on to the end of its input |
| `C09_canonical_refuted` | several encodings decode to one number |
| `C11_iface_nonstruct_refuted`, `C25_nonstruct_field_refuted` | a registered non-struct in an interface in the first field or a list does not decode |
| `C13_method_refuted`, `C14_unreadable_refuted` | a `MarshalAmino` type is written under the wire type of the declared type |
| `C13_list_pointer_refuted`, `C47_pointer_refuted`, `C47_alone_refuted` | a pointer to a list of byte slices is a key without payload; lists of byte lists alone vanish |
| `C15_foreign_disfix_refuted` | hostile bytes naming a registered type that does not implement the interface make Unmarshal panic |
| `C15_list_pointer_refuted`, `C40_list_pointer_refuted`, `C41_list_pointer_refuted` | Unmarshal into a pointer to a list panics |
| `C16_repr_cycle_refuted` | a representation type leading back to its struct: endless recursion |
| `C19_superfluous_digit_refuted`, `C37_superfluous_digit_refuted` | a length with superfluous digits: bytes of the frame are read again |
| `C19_time_refuted`, `C19_list_pointer_refuted`, `C37_time_refuted` | the rest of a time's frame is read as fields of the enclosing struct |
| `C21_empty_read_refuted` | a Read of no bytes is taken for a zero byte |
| `C21_eof_with_data_refuted` | `io.EOF` with the last byte loses a message without a body |
| `C22_taken_refuted` | more prefix bytes are taken than `maxSize` |
| `C23_unterminated_refuted`, `C23_overflow_refuted` | malformed prefixes pass for length 0 |
| `C23_negative_length_refuted` | a length of 2^63 or more panics without a limit |
| `C31_refuted`, `C58_refuted` | a registration succeeds after `Seal` returned |
| `C32_rejected_registration_refuted` | a rejected `RegisterConcrete` stays in the implementer tables |
| `C34_refuted` | a panic in `getTypeInfoWlock` leaves the mutex locked |
| `C59_refuted` | `Implementers` is read without lock |
| `C36_repeated_refuted` | an unknown repeated field with two entries is an error |
| `C38_absent_struct_refuted` | an absent struct field is reset with its hidden fields |
| `C39_*_refuted` | write_empty pointers, pointers to false, zero floats and byte arrays |
| `C40_iface_pointer_refuted` | pointers to interfaces are written but not read |
| `C41_method_refuted` | `UnmarshalAmino` sees old contents |
| `C42_unchanged_refuted` | structs are filled in before an error is found |
| `C44_uint32_refuted` | a varint above 2^32 is truncated for `uint32` |
| `C45_top_level_key_refuted`, `C45_list_field_refuted` | key of the declared type at top level; `MarshalAmino` of list types bypassed in fields |
| `C46_zero_refuted`, `C46_strings_refuted` | top-level zero numbers and lists of strings do not decode |
| `C49_*_refuted` | JSON: floats cannot be read, invalid UTF-8, nil maps, equal field names, pointer-receiver `MarshalJSON` |
| `C50_name_refuted`, `C52_name_refuted` | JSON: registered names are not escaped |
| `C63_outer_space_refuted` | JSON: white space around a text is refused for strings, integers and times |
| `C64_quote_refuted`, `C64_foreign_name_refuted` | JSON: a lone quotation mark for an integer, or the name of a type that does not implement the interface, make UnmarshalJSON panic |
| `C64_types_refuted`, `C64_named_bytes_refuted` | JSON: maps keyed by a named string type, arrays of a named byte type and pointers to interfaces panic |
| `C65_quoted_refuted` | JSON: a newline inside the quotation marks of a number is accepted |
| `C66_kept_refuted` | JSON: absent omitempty fields, hidden fields and null bytes keep old contents |
| `C53_excluded_refuted` | DeepCopy: pointers to nil, functions, cycles |
| `C54_*_refuted` | DeepCopy shares slices and what map values point to |
| `C67_anything_refuted` | DeepCopy: a field of a type with MarshalAmino/UnmarshalAmino panics behind a pointer and is emptied otherwise; methods behind `**T`, in slices and maps are not used |
| `C68_wellformed_refuted` | a message may end after the key of a `[]byte` field |
| `C72_number_refuted`, `C72_argument_refuted` | aminoscan shows field numbers modulo 2^32; flags before the bytes make it panic |
| `C73_nil_time_refuted`, `C73_epoch_refuted` | nil pointers to times come back as the Unix epoch; a struct holding only the epoch is left out and comes back as the year 1 (the data has changed) |
| `C74_nil_pointer_refuted`, `C74_write_empty_refuted` | nil pointers in interfaces and in fields with `write_empty` make Marshal panic |
| `C74_endless_refuted` | Marshal does not end for `type T []T` |
| `C75_empty_list_refuted` | `[]` is read as nil, which is written as `null` |
| `C75_map_order_refuted` | JSON: maps are written in the order reflection lists their keys, which Go leaves open |
| `C75_skipped_field_refuted`, `C75_three_texts_refuted` | a struct under `omitempty` is written because of a field that is not, then read as zero and left out; a value can take three texts before it settles |
| `C76_nil_pointer_refuted`, `C76_byte_array_refuted` | MarshalJSON panics on interfaces holding nil pointers, and on `[2]B` with `type B byte` unless given a pointer |
| `C76_endless_refuted` | MarshalJSON does not end for a type whose MarshalAmino gives the type itself |
| `C77_used_first_refuted` | a type can be registered before it is first used, not after |
| `C78_conflict_refuted`, `C78_registered_refuted` | a new type with the prefix of an old one, or registering a type that was written by itself, changes its bytes; the old bytes are refused |
| `C79_negative_zero_refuted`, `C79_nil_list_refuted` | JSON in between changes the bytes of a negative zero under `omitempty`, and turns a pointer to a nil list under `write_empty` into one that cannot be written |
| `C79_through_binary_refuted` | binary in between changes the JSON of a pointer to zero to `null` |
| `C80_empty_elements_refuted`, `C80_floats_refuted` | an absent array of struct pointers under `empty_elements`, or of floats without `unsafe`, is read without error but cannot be written |
| `C81_omitempty_refuted`, `C81_order_refuted` | null for a field that is `omitempty` resets it, a missing member does not; the order of members of one name matters, in wrappers also of `value` and `Value` |
| `C82_bare_refuted`, `C82_eof_refuted` | a cut bare message is accepted, two bare messages are one; a stream cut inside or right after a length prefix ends with `io.EOF`, like a complete one |
| `C83_one_text_refuted` | base64 is read leniently: bits left over in the last group are ignored, so different texts of the same length are the same bytes |
| `C84_same_name_refuted` | two fields with the same JSON name both read the member: with nesting, each 8 bytes of text double the size of the value |
| `C85_floats_refuted` | an absent array of floats is read as zeros, which MarshalJSON refuses without the unsafe tag |
| `C85_map_keys_refuted` | a map with keys other than strings is read from null; MarshalJSON refuses it even when nil |
| `C87_absent_refuted` | an absent float, byte array, pointer to a time or `write_empty` field takes bytes when it is written again |
| `C87_cut_entry_refuted` | a key at the end of a list of byte slices is read as an empty element |
| `C87_disambiguate_refuted` | prefix bytes alone are read where AlwaysDisambiguate writes twice as many |
| `C88_invalid_utf8_refuted`, `C88_nil_map_refuted` | strings that are not UTF-8 share a text, as do a nil map and an empty one |
| `C89_json_refuted`, `C89_hidden_refuted` | JSON writes the names; the tag that hides a field renumbers the fields after it |
| `C90_binary_refuted`, `C90_unsafe_refuted` | the binary format depends on the tags; without `unsafe` a type with floats panics in JSON too |
| `C91_order_refuted`, `C91_registered_refuted` | two messages one after the other are read as one only in the order of the fields, and only for types without prefix bytes |
| `C92_int16_refuted`, `C92_narrow_refuted` | an int16 field made int32 reads old messages as other numbers, without an error; a uint32 field cuts off what a uint64 field was written with |
| `C93_int32_refuted`, `C93_narrow_refuted` | an int32 field made int64, harmless in the binary format, makes each program refuse the other's JSON; numbers too long for a shorter type are refused |
| `C94_json_method_refuted`, `C94_registered_refuted` | naming the type of a field changes its JSON if the type has a MarshalJSON method; outside of fields a registered name is written before the value |
| `C95_length_refuted`, `C95_json_value_refuted` | arrays refuse lists of another length, but not empty ones; MarshalJSON methods declared on the pointer are used for elements of slices and not of arrays passed by value |
| `C96_blank_refuted`, `C96_list_refuted` | a pointer to a blank struct is written though the blank struct is not, and a pointer to 0 comes back nil; a pointer to a list is written as one field with the elements inside |
| `C97_strings_refuted` | a list of strings alone is written as one field with the elements, numbered 0, inside; in a struct as repeated fields |
| `C98_registered_refuted` | registered struct types with the same fields are told apart by their prefix: the bytes of one are refused by the other |
| `C99_converse_refuted` | MarshalJSON panics on an array of a declared byte type in a struct passed by value, and writes it behind a pointer |
| `C99_receiver_refuted`, `C99_omitempty_refuted` | MarshalJSON methods with pointers as receivers are used behind pointers only; omitempty leaves out 0 but not a pointer to 0 |
| `C100_interface_refuted` | UnmarshalJSON panics on a pointer to an interface |
| `C55_endless_refuted`, `C55_panic_refuted` | aminoscan loops or panics on malformed input |

## 6. Trusted base

* The Coq 8.16.1 kernel (including `vm_compute`, used in examples and witnesses).
* The correspondence between `/repo` and the model files: by reading, supported by the
  citations and by the project's test vectors in `Demo.v`.
* `Print Assumptions` answers **"Closed under the global context"** for every theorem
  listed in `MANIFEST.json`: no axioms are used, neither own nor from the standard
  library.  There is no `Admitted`, no `Axiom`, no section-less `Variable`, no
  disabled kernel check, no functor and no plugin.

## 7. Wrong programs

`seeded/LOG.jsonl` records edits of model definitions made in a scratch copy, with
the theorems that no longer proved.  Edits that no theorem noticed led to stronger
theorems (field `theorems_tightened`).
