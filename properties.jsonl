{"id": "C01", "title": "Uvarint round trip and size", "statement": "For every uint64 u and every byte string rest, EncodeUvarint writes between 1 and 10 bytes, exactly UvarintSize(u) of them, they are the little-endian base-128 digits of u, and DecodeUvarint on those bytes followed by rest returns u, the number of bytes written and no error.", "quantifier": "every uint64 and every continuation of the input", "why_tests_cant": "the input space has 2^64 points (times arbitrary trailing bytes)", "anchors": ["encoder.go:EncodeUvarint", "encoder.go:UvarintSize", "decoder.go:DecodeUvarint"]}
{"id": "C02", "title": "Varint (zigzag) round trip and size", "statement": "For every int64 i and every rest, EncodeVarint writes exactly VarintSize(i) bytes, being the uvarint of 2i (i>=0) or -2i-1 (i<0), and DecodeVarint on them followed by rest returns i, that length, and no error.", "quantifier": "every int64 and every continuation of the input", "why_tests_cant": "the input space has 2^64 points (times arbitrary trailing bytes)", "anchors": ["encoder.go:EncodeVarint", "encoder.go:VarintSize", "decoder.go:DecodeVarint"]}
{"id": "C03", "title": "Narrow integers never truncate", "statement": "EncodeInt8/Int16/Uint8/Uint16/Byte round trip through their decoders for every value; and DecodeInt8/Int16/Uint8/Uint16/Byte succeed on a byte string exactly when the (u)varint at its head decodes to a value in the type's range, returning that very value; out-of-range values are errors, never wrapped.", "quantifier": "every value of each narrow type and every byte string", "why_tests_cant": "an off-by-one in a range guard only shows on boundary values among 2^64 decodable integers", "anchors": ["encoder.go:EncodeInt8", "encoder.go:EncodeInt16", "encoder.go:EncodeUint8", "encoder.go:EncodeUint16", "encoder.go:EncodeByte", "decoder.go:DecodeInt8", "decoder.go:DecodeInt16", "decoder.go:DecodeUint8", "decoder.go:DecodeUint16", "decoder.go:DecodeByte"]}
{"id": "C04", "title": "Fixed-width integers and floats are little-endian and exact", "statement": "EncodeInt32/Int64/Uint32/Uint64/Float32/Float64 write exactly 4 or 8 bytes, least significant first (two's complement / IEEE bit pattern), and the matching decoder returns the value and 4 or 8 whatever follows; with fewer bytes it errors and consumes nothing.", "quantifier": "every 32/64-bit pattern and every continuation", "why_tests_cant": "the input space has 2^64 points (times arbitrary trailing bytes)", "anchors": ["encoder.go:EncodeInt32", "encoder.go:EncodeInt64", "encoder.go:EncodeUint32", "encoder.go:EncodeUint64", "encoder.go:EncodeFloat32", "encoder.go:EncodeFloat64", "decoder.go:DecodeInt32", "decoder.go:DecodeInt64", "decoder.go:DecodeUint32", "decoder.go:DecodeUint64", "decoder.go:DecodeFloat32", "decoder.go:DecodeFloat64"]}
{"id": "C05", "title": "Bool decoding is strict", "statement": "EncodeBool writes the single byte 0 or 1; DecodeBool succeeds exactly when the first byte is 0 or 1, consuming one byte, and errors on every other input.", "quantifier": "every byte string", "why_tests_cant": "the rejecting side ranges over all byte strings", "anchors": ["encoder.go:EncodeBool", "decoder.go:DecodeBool"]}
{"id": "C06", "title": "Byte slices and strings are framed by their length", "statement": "For every byte string b shorter than 2^63 and every rest, EncodeByteSlice/EncodeString write uvarint(len b) then b, ByteSliceSize(b) bytes in all, and DecodeByteSlice/DecodeString on that followed by rest return b and consume exactly those bytes. On any input, a successful decode returns a contiguous piece of the input, so it never allocates more than the input length.", "quantifier": "every byte string, every continuation, every (possibly hostile) input", "why_tests_cant": "hostile length prefixes range over 2^64 values", "anchors": ["encoder.go:EncodeByteSlice", "encoder.go:EncodeString", "encoder.go:ByteSliceSize", "decoder.go:DecodeByteSlice", "decoder.go:DecodeString"]}
{"id": "C07", "title": "Time round trip and range", "statement": "EncodeTime succeeds exactly for times in [0001-01-01, 10000-01-01) UTC; for each of them DecodeTime returns the same instant (seconds and nanoseconds) consuming all bytes; and any time DecodeTime returns without error, on any input, lies in that range with nanoseconds in [0,999999999].", "quantifier": "every instant and every byte string", "why_tests_cant": "about 3*10^20 instants; hostile inputs are unbounded", "anchors": ["encoder.go:EncodeTime", "decoder.go:DecodeTime", "decoder.go:decodeSeconds", "decoder.go:decodeNanos"]}
{"id": "C08", "title": "Primitive decoders stay within the input and ignore what follows", "statement": "Every exported Decode* primitive, on every byte string, returns without panicking a count n that is at most the input length, and, DecodeTime excepted, at least 1 on success, and if it succeeds on bz it returns the same value and count on bz followed by any bytes.", "quantifier": "every byte string and every continuation", "why_tests_cant": "the claim is about all inputs including malformed ones", "anchors": ["decoder.go"]}
{"id": "C09", "title": "Varint encodings are shortest but decoding is not unique", "statement": "EncodeUvarint's output is the unique shortest byte string that DecodeUvarint maps to u, and every byte string DecodeUvarint accepts for u starts with padding-equivalent digits; consequently an encoded value has exactly one encoder output, although the decoder accepts padded ones (malleability).", "quantifier": "every uint64 and every accepted byte string", "why_tests_cant": "minimality quantifies over all byte strings", "anchors": ["encoder.go:EncodeUvarint", "decoder.go:DecodeUvarint"]}
{"id": "C10", "title": "Field keys round trip", "statement": "On the wire a struct field is introduced by the uvarint of fieldNumber*8+wireType; for every field number below 2^29 and wire type below 8 the key decodes back to the same pair, keys are injective, and any key whose number is 2^29 or more is rejected.", "quantifier": "every field number and wire type, every byte string", "why_tests_cant": "2^32 keys times continuations", "anchors": ["binary-encode.go:encodeFieldNumberAndTyp3", "binary-decode.go:decodeFieldNumberAndTyp3"]}
{"id": "C11", "title": "Struct round trip", "statement": "For every struct value that MarshalBinaryBare accepts (fields of any supported type, nested structs, lists, pointers, registered interfaces, recursively), UnmarshalBinaryBare of the bytes into a fresh variable succeeds and yields the normal form of the value: the same value with nil and empty slices identified, pointers to zero numbers/strings read back as nil, and interface contents in registered form. Values already in normal form come back identical.", "quantifier": "every type, every field-tag combination, every value of the type", "why_tests_cant": "types and values are unbounded trees; only structural induction covers them", "anchors": ["amino.go:MarshalBinaryBare", "amino.go:UnmarshalBinaryBare", "binary-encode.go", "binary-decode.go"]}
{"id": "C12", "title": "Encoding is injective up to normal form", "statement": "If two values of the same supported struct type encode to the same bytes then they have the same normal form: no two observably different values collide.", "quantifier": "every pair of values of every type", "why_tests_cant": "pairs of unbounded values", "anchors": ["amino.go:MarshalBinaryBare", "binary-encode.go"]}
{"id": "C13", "title": "Encoding follows the proto3 wire format", "statement": "The bytes of an encoded struct are exactly the proto3 serialization of its fields in declaration order: key then payload, wire types 0/1/2/5, packed lists for scalar elements, one entry per element for length-delimited elements, defaults omitted unless write_empty or pointer.", "quantifier": "every type and value", "why_tests_cant": "format conformance ranges over all values", "anchors": ["binary-encode.go:encodeReflectBinary", "binary-encode.go:encodeReflectBinaryStruct", "binary-encode.go:encodeReflectBinaryList", "reflect.go:typeToTyp3"]}
{"id": "C14", "title": "Output is parseable without a schema", "statement": "The encoding of any struct is accepted by a schema-less wire parser and splits into (field number, wire type, payload) entries with non-decreasing field numbers, only length-delimited entries repeating.", "quantifier": "every type and value", "why_tests_cant": "unbounded values", "anchors": ["binary-encode.go:encodeReflectBinaryStruct", "README.md"]}
{"id": "C15", "title": "Unmarshal never panics on untrusted bytes", "statement": "For a supported target type, UnmarshalBinaryBare and UnmarshalBinaryLengthPrefixed return a value or an error on every byte string; no input makes them panic.", "quantifier": "every byte string, every supported type", "why_tests_cant": "fuzzing samples; hostile inputs are unbounded", "anchors": ["amino.go:UnmarshalBinaryBare", "binary-decode.go", "reflect.go:slide", "tests/fuzz/binary/binary.go"]}
{"id": "C16", "title": "Unmarshal terminates with depth linear in the input", "statement": "On every byte string the decoder finishes: the recursion depth is at most linear in the input length and every list loop consumes at least one byte per iteration.", "quantifier": "every byte string, every type, including recursive ones", "why_tests_cant": "non-termination cannot be observed by a finite test", "anchors": ["binary-decode.go:decodeReflectBinarySlice", "binary-decode.go:decodeReflectBinaryStruct"]}
{"id": "C17", "title": "Decoded size is bounded by the input", "statement": "The total number of slice elements and string/byte-slice bytes a successful or failing Unmarshal creates is at most the input length, so a short message cannot make the decoder allocate large slices.", "quantifier": "every byte string and target type", "why_tests_cant": "the bound is over all hostile inputs", "anchors": ["binary-decode.go", "decoder.go:DecodeByteSlice"]}
{"id": "C18", "title": "Decoder consumption never exceeds the input", "statement": "The internal decoder reports a consumed count between 0 and the input length on every input, success or failure, so the 'impossible slide' panic is unreachable.", "quantifier": "every byte string, type and option set", "why_tests_cant": "all inputs", "anchors": ["reflect.go:slide", "binary-decode.go"]}
{"id": "C19", "title": "Length-delimited content is confined to its frame", "statement": "When a nested struct, list, interface or time is decoded from a length-prefixed frame, exactly the frame is consumed: bytes inside the frame are never reinterpreted as fields of the enclosing struct.", "quantifier": "every byte string", "why_tests_cant": "the violating inputs are rare byte patterns", "anchors": ["binary-decode.go:decodeReflectBinaryStruct", "binary-decode.go:decodeReflectBinarySlice", "binary-decode.go:decodeReflectBinaryInterface"]}
{"id": "C20", "title": "Length-prefixed framing", "statement": "MarshalBinaryLengthPrefixed returns uvarint(len bare) followed by the MarshalBinaryBare bytes; UnmarshalBinaryLengthPrefixed decodes exactly when the prefix equals the number of bytes that follow it, otherwise errors, and then agrees with UnmarshalBinaryBare on the body.", "quantifier": "every value and every byte string", "why_tests_cant": "all framings", "anchors": ["amino.go:MarshalBinaryLengthPrefixed", "amino.go:UnmarshalBinaryLengthPrefixed"]}
{"id": "C21", "title": "Streams of length-prefixed messages", "statement": "Any sequence of messages written one after another with MarshalBinaryLengthPrefixedWriter is read back in order by repeated UnmarshalBinaryLengthPrefixedReader calls whatever way the reader splits the stream into chunks; each call consumes exactly its own message and returns its size.", "quantifier": "every message sequence and every chunking schedule of the reader", "why_tests_cant": "schedules and sequences are unbounded", "anchors": ["amino.go:MarshalBinaryLengthPrefixedWriter", "amino.go:UnmarshalBinaryLengthPrefixedReader"]}
{"id": "C22", "title": "maxSize bounds what the reader accepts and reads", "statement": "With maxSize>0, UnmarshalBinaryLengthPrefixedReader never allocates for or decodes a message whose prefix plus body exceeds maxSize, and accepts every well-formed message of at most maxSize bytes; it never takes more than maxSize bytes from the reader.", "quantifier": "every stream and every maxSize", "why_tests_cant": "all hostile prefixes", "anchors": ["amino.go:UnmarshalBinaryLengthPrefixedReader"]}
{"id": "C23", "title": "Malformed length prefixes are rejected by the reader", "statement": "UnmarshalBinaryLengthPrefixedReader returns an error (and does not panic) when the length prefix is not a valid uvarint or does not fit an int64.", "quantifier": "every stream", "why_tests_cant": "malformed prefixes form a large set; a negative length panics only on 2^63+ prefixes", "anchors": ["amino.go:UnmarshalBinaryLengthPrefixedReader"]}
{"id": "C24", "title": "Registered concrete types carry and check their prefix", "statement": "MarshalBinaryBare of a registered concrete type starts with its four prefix bytes, and UnmarshalBinaryBare into that type succeeds only on inputs starting with them; the rest is decoded as for the unregistered type.", "quantifier": "every registered type, value and byte string", "why_tests_cant": "all inputs", "anchors": ["amino.go:MarshalBinaryBare", "amino.go:UnmarshalBinaryBare"]}
{"id": "C25", "title": "Interface values keep their concrete type", "statement": "A registered concrete value held in a registered interface (top level, field or list element) decodes to the same concrete type and normal-form value, as a pointer exactly when the type was registered as a pointer.", "quantifier": "every codec history, interface, concrete type and value", "why_tests_cant": "histories and values are unbounded", "anchors": ["binary-encode.go:encodeReflectBinaryInterface", "binary-decode.go:decodeReflectBinaryInterface"]}
{"id": "C26", "title": "Prefix and disambiguation bytes are unambiguous", "statement": "For every name, NameToDisfix returns 3 disambiguation and 4 prefix bytes each starting with a non-zero byte taken from the hash as documented; hence 0x00-escaped disambiguation bytes can never be confused with prefix bytes, and DecodeDisambPrefixBytes inverts both forms.", "quantifier": "every name and every byte string", "why_tests_cant": "all names / all inputs", "anchors": ["codec.go:NameToDisfix", "codec.go:nameToDisfix", "binary-decode.go:DecodeDisambPrefixBytes"]}
{"id": "C27", "title": "Registration keeps names, types and disfixes unique", "statement": "After any history of RegisterInterface/RegisterConcrete/Seal/Marshal/Unmarshal calls none of which panicked, no two registered concrete types share a Go type, a name, or disambiguation+prefix bytes, and looking up a registered name or disfix yields the type registered under it.", "quantifier": "every operation history", "why_tests_cant": "histories are unbounded sequences", "anchors": ["codec.go:RegisterConcrete", "codec.go:setTypeInfoNolock"]}
{"id": "C28", "title": "Implementer tables are complete whatever the registration order", "statement": "After any panic-free history, for each registered interface and prefix the recorded implementers are exactly the registered concrete types with that prefix whose pointer implements the interface, independent of the order of RegisterInterface and RegisterConcrete calls.", "quantifier": "every history and permutation", "why_tests_cant": "orders are factorially many", "anchors": ["codec.go:collectImplementersNolock", "codec.go:addCheckConflictsWithConcreteNolock"]}
{"id": "C29", "title": "Prefix conflicts are always declared and disambiguated", "statement": "After any panic-free history, whenever two implementers of an interface share prefix bytes all of them are on its priority list; the encoder then writes disambiguation bytes, and the decoder resolves them to the encoded type.", "quantifier": "every history", "why_tests_cant": "histories are unbounded; conflicts are rare hash events", "anchors": ["codec.go:checkConflictsInPrioNolock", "binary-encode.go:encodeReflectBinaryInterface"]}
{"id": "C30", "title": "Sealing is permanent", "statement": "Once Seal has returned, in every continuation every RegisterInterface and RegisterConcrete call panics, and the registered interfaces, concretes, names and disfixes never change again, although Marshal/Unmarshal still work.", "quantifier": "every continuation of operations", "why_tests_cant": "unbounded histories", "anchors": ["codec.go:Seal", "codec.go:assertNotSealed"]}
{"id": "C31", "title": "Seal excludes concurrent registration", "statement": "Under any interleaving of goroutines calling Register*, Seal and Marshal/Unmarshal, no registration takes effect after Seal has returned.", "quantifier": "every interleaving", "why_tests_cant": "schedules cannot be enumerated by tests", "anchors": ["codec.go:assertNotSealed", "codec.go:RegisterConcrete", "codec.go:Seal"]}
{"id": "C32", "title": "A rejected registration leaves the codec unchanged", "statement": "If RegisterInterface or RegisterConcrete panics, the codec behaves afterwards as if the call had not been made.", "quantifier": "every codec state and rejected call", "why_tests_cant": "all states and failure points", "anchors": ["codec.go:setTypeInfoNolock", "codec.go:addCheckConflictsWithConcreteNolock"]}
{"id": "C33", "title": "Using the codec does not change what it encodes", "statement": "Marshal/Unmarshal calls fill the codec's type cache but never change the result of any later Marshal or Unmarshal call.", "quantifier": "every history of calls", "why_tests_cant": "unbounded histories", "anchors": ["codec.go:getTypeInfoWlock"]}
{"id": "C34", "title": "The codec stays usable after a recovered panic", "statement": "No call leaves the codec's mutex locked: after any call returns or panics, other calls can proceed.", "quantifier": "every call, every panic point", "why_tests_cant": "needs every panic path", "anchors": ["codec.go:getTypeInfoWlock", "codec.go:RegisterInterface", "codec.go:RegisterConcrete"]}
{"id": "C35", "title": "Old bytes decode in a newer struct", "statement": "If a struct type is extended by appending fields (other than non-empty arrays of length-delimited elements), bytes written by the old version decode in the new version to the old fields' values with defaults for the new ones.", "quantifier": "every pair of struct versions and every value", "why_tests_cant": "all schemas and values", "anchors": ["binary-decode.go:decodeReflectBinaryStruct", "binary_test.go:TestNewFieldBackwardsCompatibility"]}
{"id": "C36", "title": "New bytes decode in an older struct", "statement": "Bytes written by a struct with appended fields decode in the older version to the old fields' values, the unknown fields being skipped.", "quantifier": "every pair of struct versions and every value", "why_tests_cant": "all schemas and values", "anchors": ["binary-decode.go:decodeReflectBinaryStruct", "binary-decode.go:consumeAny"]}
{"id": "C37", "title": "Field order and duplicates are checked", "statement": "A decoded struct never takes a non-list field from bytes twice or out of order: if the field numbers on the wire are not strictly increasing (list entries excepted), Unmarshal returns an error.", "quantifier": "every byte string and struct type", "why_tests_cant": "all inputs", "anchors": ["binary-decode.go:decodeReflectBinaryStruct"]}
{"id": "C38", "title": "Skipped fields never leave or enter", "statement": "Unexported fields and fields tagged json:\"-\" do not influence the encoding, and Unmarshal never modifies them.", "quantifier": "every struct type, value and byte string", "why_tests_cant": "non-interference is a property of pairs of runs", "anchors": ["codec.go:parseStructInfo", "codec.go:parseFieldOptions"]}
{"id": "C39", "title": "Nil and empty are one value on the wire", "statement": "Nil and empty slices, nil pointers and pointers to default scalars, produce identical struct encodings, and default-valued fields occupy no bytes unless write_empty is set or they are non-default pointers.", "quantifier": "every struct value", "why_tests_cant": "all values", "anchors": ["reflect.go:isDefaultValue", "binary-encode.go:writeFieldIfNotEmpty", "binary_test.go:TestNilSliceEmptySlice"]}
{"id": "C40", "title": "Pointers are transparent", "statement": "Marshalling a pointer (to a pointer...) gives the bytes of the pointed-to value, a nil pointer panics, and unmarshalling into a pointer variable allocates and gives a pointer to what unmarshalling into the base type gives.", "quantifier": "every value and pointer depth", "why_tests_cant": "all depths and values", "anchors": ["amino.go:MarshalBinaryBare", "reflect.go:derefPointers"]}
{"id": "C41", "title": "Unmarshal overwrites its target", "statement": "Unmarshal into a used variable gives the same result as into a fresh one, provided the variable holds no non-nil interface (which is an error) and skipped fields keep their old contents.", "quantifier": "every byte string and every prior target value", "why_tests_cant": "pairs of unbounded values", "anchors": ["binary-decode.go"]}
{"id": "C42", "title": "A failed Unmarshal leaves the target alone", "statement": "If UnmarshalBinaryBare returns an error the target variable is unchanged.", "quantifier": "every byte string and target", "why_tests_cant": "all failing inputs", "anchors": ["amino.go:UnmarshalBinaryBare"]}
{"id": "C43", "title": "Floats require the unsafe tag", "statement": "Without amino:\"unsafe\", no struct containing a direct float field can be encoded or decoded (type registration panics), and list/pointer float fields are errors whenever an element would be written or read; with the tag they round trip bit for bit (NaN payload quieting aside).", "quantifier": "every value and byte string", "why_tests_cant": "all values", "anchors": ["reflect.go:checkUnsafe", "binary-encode.go:encodeReflectBinary", "binary-decode.go:decodeReflectBinary"]}
{"id": "C44", "title": "Integer fields reject out-of-range values", "statement": "Decoding an integer field never yields a value different from the encoded integer: wire values outside the Go type's range are errors.", "quantifier": "every byte string and integer kind", "why_tests_cant": "2^64 wire values", "anchors": ["binary-decode.go:decodeReflectBinary"]}
{"id": "C45", "title": "MarshalAmino representation is used", "statement": "A type with MarshalAmino/UnmarshalAmino encodes as its representation object and decodes by decoding the representation and calling UnmarshalAmino, so it round trips whenever the method pair does.", "quantifier": "every value and every method pair", "why_tests_cant": "user methods are arbitrary functions", "anchors": ["binary-encode.go:encodeReflectBinary", "binary-decode.go:decodeReflectBinary", "reflect.go:toReprObject"]}
{"id": "C46", "title": "Top-level non-struct values round trip", "statement": "Numbers, strings, byte slices and lists passed directly to MarshalBinaryBare are wrapped as field 1 and decode back to their normal form.", "quantifier": "every non-struct type and value", "why_tests_cant": "all values", "anchors": ["amino.go:MarshalBinaryBare", "amino.go:UnmarshalBinaryBare"]}
{"id": "C47", "title": "No silent data loss", "statement": "If MarshalBinaryBare returns without error, every non-default part of the value is present in the bytes.", "quantifier": "every type and value", "why_tests_cant": "all values; losses occur in rare type shapes", "anchors": ["binary-encode.go:encodeReflectBinary"]}
{"id": "C48", "title": "Must* variants only turn errors into panics", "statement": "MustMarshal*/MustUnmarshal* return what the plain function returns when it succeeds and panic exactly when it errors or panics.", "quantifier": "every call", "why_tests_cant": "all inputs", "anchors": ["amino.go:MustMarshalBinaryBare", "amino.go:MustUnmarshalBinaryBare", "amino.go:MustMarshalBinaryLengthPrefixed", "amino.go:MustUnmarshalBinaryLengthPrefixed"]}
{"id": "C49", "title": "JSON round trip", "statement": "For every supported value, UnmarshalJSON(MarshalJSON(v)) yields v up to the JSON normal form (empty slices read back as nil; interface contents in registered form).", "quantifier": "every type and value", "why_tests_cant": "unbounded values and strings", "anchors": ["amino.go:MarshalJSON", "amino.go:UnmarshalJSON", "json-encode.go", "json-decode.go"]}
{"id": "C50", "title": "JSON output is well-formed JSON", "statement": "MarshalJSON output is a syntactically valid JSON text for every supported value.", "quantifier": "every type and value", "why_tests_cant": "unbounded values", "anchors": ["json-encode.go"]}
{"id": "C51", "title": "64-bit integers are JSON strings", "statement": "MarshalJSON writes int64/int/uint64/uint as quoted decimal strings and UnmarshalJSON rejects unquoted ones, so no value passes through a float.", "quantifier": "every 64-bit integer and every JSON input", "why_tests_cant": "2^64 values", "anchors": ["json-encode.go:encodeReflectJSON", "json-decode.go:decodeReflectJSON"]}
{"id": "C52", "title": "JSON interface values are tagged by registered name", "statement": "An interface value is written as {\"type\":name,\"value\":...} with the name its concrete type was registered under, and decoding resolves exactly that name.", "quantifier": "every codec history and value", "why_tests_cant": "unbounded histories", "anchors": ["json-encode.go:encodeReflectJSONInterface", "json-decode.go:decodeReflectJSONInterface"]}
{"id": "C53", "title": "DeepCopy returns an equal value", "statement": "DeepCopy(o) is structurally equal to o in its exported parts for every object without custom copy methods.", "quantifier": "every object graph", "why_tests_cant": "object graphs are unbounded", "anchors": ["deep_copy.go:DeepCopy"]}
{"id": "C54", "title": "DeepCopy isolates the copy", "statement": "The copy shares no mutable memory with the original: writing through either never changes the other.", "quantifier": "every object graph and every later mutation", "why_tests_cant": "histories of mutations are unbounded", "anchors": ["deep_copy.go:_deepCopy"]}
{"id": "C55", "title": "aminoscan terminates and accounts for every byte", "statement": "The aminoscan struct scanner terminates on every byte string, and the parts it prints concatenate to the consumed prefix of the input.", "quantifier": "every byte string", "why_tests_cant": "non-termination is invisible to tests", "anchors": ["cmd/aminoscan/aminoscan.go:scanStruct"]}
{"id": "C56", "title": "Writer errors are reported", "statement": "The Encode* primitives and MarshalBinaryLengthPrefixedWriter return an error whenever the underlying writer does, and if they return nil every byte has been accepted by the writer in order.", "quantifier": "every writer behaviour (accept, short write, fail at any byte)", "why_tests_cant": "all crash points of the writer", "anchors": ["encoder.go", "amino.go:MarshalBinaryLengthPrefixedWriter"]}
{"id": "C58", "title": "Concurrent calls take effect one at a time", "statement": "Whatever the interleaving of goroutines sharing a codec, the answers of all calls that have returned are those of the same calls made one at a time in the order in which they returned, and the codec ends up as that execution leaves it.", "quantifier": "every set of goroutines and every interleaving", "why_tests_cant": "schedules cannot be enumerated by tests", "anchors": ["codec.go:RegisterInterface", "codec.go:RegisterConcrete", "codec.go:getTypeInfoWlock", "codec.go:Seal"]}
{"id": "C59", "title": "No data race on the codec", "statement": "No goroutine reads or writes the codec's tables while another one writes to them.", "quantifier": "every set of goroutines and every interleaving", "why_tests_cant": "the race detector only sees the schedules that ran", "anchors": ["codec.go:addCheckConflictsWithConcreteNolock", "binary-encode.go:encodeReflectBinaryInterface"]}
{"id": "C60", "title": "Concurrent lookups do not interfere", "statement": "Goroutines that only look up type information, as Marshal and Unmarshal do, get the answers they would get alone from the codec as it was, although lookups insert into the codec's tables.", "quantifier": "every codec, every set of goroutines and every interleaving", "why_tests_cant": "schedules cannot be enumerated by tests", "anchors": ["codec.go:getTypeInfoWlock", "codec.go:getTypeInfoFromPrefixRlock", "codec.go:getTypeInfoFromNameRlock"]}
{"id": "C57", "title": "Struct tags mean what they are documented to mean", "statement": "A codec's description of a struct type lists exactly the exported fields that are not tagged json:\"-\", in order and numbered from 1; a field is fixed64 or fixed32 exactly if its binary tag says so, unsafe, write_empty or empty_elements exactly if its amino tag lists that word, omitempty exactly if that is the second word of its json tag, and its JSON name is the first word of that tag or else the field name.", "quantifier": "every struct type, all tag strings, every registration history", "why_tests_cant": "tag strings are unbounded and tests use a handful of combinations", "anchors": ["codec.go:parseStructInfo", "codec.go:parseFieldOptions"]}
{"id": "C61", "title": "aminoscan shows messages entry by entry", "statement": "On every byte string that is a sequence of entries (key and payload of wire type 0, 1, 2 or 5), the aminoscan struct scanner shows exactly the entries in order, each split into key, length and payload, without an error; and whatever it shows without an error is such a sequence, so no byte is attributed to the wrong field.", "quantifier": "every byte string", "why_tests_cant": "aminoscan has no tests; messages are unbounded", "anchors": ["cmd/aminoscan/aminoscan.go:scanStruct", "cmd/aminoscan/aminoscan.go:scanAny", "cmd/aminoscan/aminoscan.go:scanFieldKey"]}
{"id": "C62", "title": "MarshalJSONIndent changes only the layout", "statement": "Whenever MarshalJSON returns a JSON text, MarshalJSONIndent returns that text with every array element and object member on a line of its own, after the prefix and one indentation per level, and one space after each colon; if prefix and indentation are white space the result is the same JSON text and UnmarshalJSON reads it as the original; if MarshalJSON fails or its result is not JSON, MarshalJSONIndent fails.", "quantifier": "every value, codec, prefix and indentation", "why_tests_cant": "texts, prefixes and indentations are unbounded; the only test compares one struct", "anchors": ["amino.go:MarshalJSONIndent", "amino.go:MarshalJSON", "amino.go:UnmarshalJSON"]}
{"id": "C63", "title": "UnmarshalJSON ignores white space", "statement": "Two JSON texts that differ only in white space around tokens are decoded to the same result (value or error) by UnmarshalJSON.", "quantifier": "every pair of such texts, every codec, type and target", "why_tests_cant": "layouts are unbounded; tests decode what MarshalJSON wrote, without white space", "anchors": ["json-decode.go:decodeReflectJSON", "json-decode.go:invokeStdlibJSONUnmarshal", "json-decode.go:decodeInterfaceJSON", "amino.go:UnmarshalJSON"]}
{"id": "C64", "title": "UnmarshalJSON never panics and always ends", "statement": "For every byte string and every target variable, UnmarshalJSON ends, with either an error or a value of the target's type; it does not panic, and its recursion is bounded by the length of the input.", "quantifier": "every byte string, every registration history, every target type and contents", "why_tests_cant": "arbitrary, hostile byte strings are unbounded; the JSON tests decode a few well formed texts", "anchors": ["json-decode.go:decodeReflectJSON", "json-decode.go:decodeReflectJSONInterface", "json-decode.go:decodeReflectJSONMap", "json-decode.go:decodeReflectJSONArray", "amino.go:UnmarshalJSON"]}
{"id": "C65", "title": "UnmarshalJSON accepts only JSON", "statement": "If UnmarshalJSON succeeds, its input is one JSON text, with nothing but white space around it.", "quantifier": "every byte string, codec, target", "why_tests_cant": "texts are unbounded; accepting garbage shows only on texts nobody wrote down", "anchors": ["json-decode.go:decodeReflectJSON", "json-decode.go:invokeStdlibJSONUnmarshal", "json-decode.go:decodeInterfaceJSON", "amino.go:UnmarshalJSON"]}
{"id": "C66", "title": "UnmarshalJSON overwrites its target", "statement": "What UnmarshalJSON stores in a variable depends only on the input, not on what the variable held before.", "quantifier": "every byte string, codec, target type and pair of earlier contents", "why_tests_cant": "pairs of earlier contents are unbounded; tests decode into fresh variables", "anchors": ["json-decode.go:decodeReflectJSONStruct", "json-decode.go:decodeReflectJSONSlice", "json-decode.go:decodeReflectJSONArray", "amino.go:UnmarshalJSON"]}
{"id": "C67", "title": "DeepCopy uses the methods for copying", "statement": "If anything has a DeepCopy method along the way, the result of that method is used; otherwise, if it has MarshalAmino and UnmarshalAmino, the pair is used to copy it; an error of either is a panic.", "quantifier": "every object, every set of methods, every place in the object", "why_tests_cant": "the tests have methods at the top only, on nine types; objects and methods are unbounded", "anchors": ["deep_copy.go:DeepCopy", "deep_copy.go:deepCopy", "deep_copy.go:callDeepCopy", "deep_copy.go:callAminoCopy", "deep_copy.go:canAminoCopy"]}
{"id": "C68", "title": "Unmarshal reads exactly the messages of the schema", "statement": "UnmarshalBinaryBare reads a struct value from a byte string if and only if the byte string is a message of the struct's type, given by an independent inductive description of which payloads each type takes and what they mean; and the value is the one the message says.", "quantifier": "every byte string of any origin, every struct type, every registration history, every value", "why_tests_cant": "tests decode what was encoded; messages of other origin, with absent, empty, unknown and repeated fields, are unbounded, and that nothing else is accepted cannot be tested at all", "anchors": ["binary-decode.go:decodeReflectBinary", "binary-decode.go:decodeReflectBinaryStruct", "binary-decode.go:decodeReflectBinaryInterface", "binary-decode.go:decodeReflectBinarySlice", "binary-decode.go:decodeReflectBinaryArray", "amino.go:UnmarshalBinaryBare"]}
{"id": "C69", "title": "Arguments of the wrong shape are refused and change nothing", "statement": "Unmarshal into something that is not a non-nil pointer panics or returns an error and sets nothing; the binary Marshal functions panic on nil, MarshalJSON writes null; registering nil or a non-pointer interface prototype panics and leaves the codec as it was.", "quantifier": "every codec, byte string, reader and argument", "why_tests_cant": "tests call the entry points with proper arguments; codecs and inputs are unbounded", "anchors": ["amino.go:MarshalBinaryBare", "amino.go:UnmarshalBinaryBare", "amino.go:UnmarshalBinaryLengthPrefixed", "amino.go:UnmarshalBinaryLengthPrefixedReader", "amino.go:MarshalJSON", "amino.go:UnmarshalJSON", "codec.go:RegisterInterface", "codec.go:RegisterConcrete"]}
{"id": "C70", "title": "Package-level functions are those of a codec without registrations", "statement": "What a package-level function returns does not depend on the calls made before it; values of struct types whose values read back with a fresh codec read back from what the package-level functions write, and structs with interface fields are refused.", "quantifier": "every sequence of earlier package-level calls, every argument", "why_tests_cant": "sequences of earlier calls and values are unbounded", "anchors": ["amino.go:MarshalBinaryBare", "amino.go:UnmarshalBinaryBare", "amino.go:MarshalJSON", "amino.go:UnmarshalJSON"]}
{"id": "C71", "title": "PrintTypes lists the registered types", "statement": "PrintTypes writes a table with one row for every registered type, in order of registration, with the name, the prefix bytes in hexadecimal and the size; whatever the writer does, what it took is a beginning of that table, and all of it exactly when nil is returned.", "quantifier": "every registration history, every writer keeping to the io.Writer contract", "why_tests_cant": "histories and writer failures are unbounded; the tests print one table into a buffer", "anchors": ["codec.go:PrintTypes", "codec.go:getLengthStr"]}
{"id": "C72", "title": "aminoscan shows the message", "statement": "aminoscan decodes hexadecimal input exactly; for a sequence of entries given as first argument it reports number (as 32 bits), type, bytes and meaning of each one; whenever it comes to its end its last line shows all bytes of the input; --color gives different text for different bytes; --concrete-name shows the bytes RegisterConcrete uses.", "quantifier": "every byte string and every command line", "why_tests_cant": "the program has no tests; byte strings are unbounded", "anchors": ["cmd/aminoscan/aminoscan.go:main", "cmd/aminoscan/aminoscan.go:scanStruct", "cmd/aminoscan/aminoscan.go:scanVarint", "cmd/aminoscan/aminoscan.go:scanFieldKey", "cmd/aminoscan/aminoscan.go:hexDecode", "cmd/aminoscan/colors.go:ColoredBytes", "cmd/aminoscan/colors.go:treatAll"]}
{"id": "C73", "title": "Decoding and encoding again gives the same bytes", "statement": "If Marshal writes a value, Unmarshal reads the bytes into a fresh variable and Marshal writes what was read, the bytes are the same: anything hashed or signed over the encoding stays valid after a node has passed it on.", "quantifier": "every supported type, every registration history, every value Marshal accepts", "why_tests_cant": "types and values are unbounded; the tests compare values or bytes of a few hand-written types", "anchors": ["binary-encode.go:encodeReflectBinary", "binary-encode.go:writeFieldIfNotEmpty", "binary-decode.go:decodeReflectBinaryStruct", "reflect.go:defaultValue", "reflect.go:isDefaultValue"]}
{"id": "C74", "title": "Marshal accepts exactly the values it should, and returns", "statement": "Marshal succeeds on a value if and only if every part that has to be written can be: times within years 1 to 9999, floats tagged unsafe, interfaces holding registered types, representations that can be computed, no nil struct pointers among empty_elements, known types. For types without write_empty pointers whose methods do not panic, and values without nil pointers in interfaces, it ends and returns bytes or an error and never panics.", "quantifier": "every type, every registration history, every value", "why_tests_cant": "types and values are unbounded; the tests check a few accepted values and hardly any refused ones", "anchors": ["binary-encode.go:encodeReflectBinary", "binary-encode.go:encodeReflectBinaryInterface", "binary-encode.go:encodeReflectBinaryList", "binary-encode.go:encodeReflectBinaryStruct", "amino.go:MarshalBinaryBare", "codec.go:getTypeInfo"]}
{"id": "C75", "title": "JSON text read and written again is the same text", "statement": "If MarshalJSON writes a value, UnmarshalJSON reads the text into a fresh variable and MarshalJSON writes what was read, the text is the same: what is signed over its JSON form stays valid after a program has passed it on.", "quantifier": "every supported type, every registration history, every value MarshalJSON accepts", "why_tests_cant": "types and values are unbounded; the tests compare a few hand-written values", "anchors": ["json-encode.go:encodeReflectJSON", "json-encode.go:encodeReflectJSONStruct", "json-encode.go:isEmpty", "json-encode.go:encodeReflectJSONList", "json-decode.go:decodeReflectJSON", "json-decode.go:decodeReflectJSONSlice", "amino.go:MarshalJSON", "amino.go:UnmarshalJSON"]}
{"id": "C76", "title": "MarshalJSON accepts exactly the values JSON has a form for, and returns", "statement": "MarshalJSON of a value of any type succeeds exactly if the value is writable: every part that is written is of a kind JSON has a form for (string keys, floats only where marked unsafe), its methods give a result, interfaces hold registered types. Otherwise it returns an error; it neither panics nor fails to end.", "quantifier": "every type environment and JSON methods, every registration history, every type, every value", "why_tests_cant": "types, methods and nesting are unbounded; the tests try a few dozen values", "anchors": ["json-encode.go:encodeReflectJSON", "json-encode.go:encodeReflectJSONInterface", "json-encode.go:encodeReflectJSONList", "json-encode.go:encodeReflectJSONStruct", "json-encode.go:encodeReflectJSONMap", "amino.go:MarshalJSON"]}
{"id": "C77", "title": "Which registrations are accepted, in whatever order", "statement": "No call of a sequence of RegisterInterface, RegisterConcrete, Seal and uses of the codec panics exactly if: each registered type can be described and each name has a prefix; types, names, full prefixes and interfaces are registered once; implementers of an interface with equal prefixes are in its priority list; nothing is registered after Seal and no type after its use. So reordering registrations never changes whether they are accepted, nor anything the codec then writes or reads, in binary or JSON.", "quantifier": "every type environment and hash function, every history of codec calls, every permutation of registrations", "why_tests_cant": "histories, permutations and hashes are unbounded; the tests register a handful of types in one order", "anchors": ["codec.go:RegisterInterface", "codec.go:RegisterConcrete", "codec.go:Seal", "codec.go:setTypeInfoNolock", "codec.go:addCheckConflictsWithConcreteNolock", "codec.go:collectImplementersNolock", "codec.go:checkConflictsInPrioNolock", "codec.go:parseStructInfo", "codec.go:NameToDisfix"]}
{"id": "C78", "title": "Registering more types does not change what is already written and read", "statement": "If a codec registers all that another registers and more, then whatever the other writes or reads, in binary or JSON, it writes to the same bytes and reads to the same value: a program can add types and interfaces, in any order, without breaking its stored data or its peers.", "quantifier": "every type environment and hash function, every two registration histories of which one registers more, every type, value and byte string", "why_tests_cant": "histories, types and values are unbounded; the tests use one set of registrations each", "anchors": ["codec.go:RegisterInterface", "codec.go:RegisterConcrete", "codec.go:getTypeInfoFromPrefixRlock", "codec.go:addCheckConflictsWithConcreteNolock", "binary-encode.go:encodeReflectBinaryInterface", "binary-decode.go:decodeReflectBinaryInterface", "json-encode.go:encodeReflectJSONInterface", "json-decode.go:decodeReflectJSONInterface", "amino.go:MarshalBinaryBare", "amino.go:UnmarshalBinaryBare"]}
{"id": "C79", "title": "A value passed on as JSON keeps its binary encoding", "statement": "A value that MarshalJSON accepts is read back from its JSON text as a value that MarshalBinaryBare and MarshalBinaryLengthPrefixed write as the same bytes as the original: JSON in between loses only what the binary encoding does not show (nil and empty lists, nil and pointers to nothing, hidden fields, values and pointers in interfaces). So bytes that are signed or hashed do not change when a message is passed on as JSON.", "quantifier": "every type environment, registration history, supported type and value", "why_tests_cant": "types and values are unbounded, and the tests check the two formats separately; nowhere is a value taken through one and compared in the other", "anchors": ["json-encode.go:encodeReflectJSON", "json-encode.go:encodeReflectJSONStruct", "json-encode.go:isEmpty", "json-decode.go:decodeReflectJSON", "json-decode.go:decodeReflectJSONStruct", "binary-encode.go:encodeReflectBinary", "binary-encode.go:encodeReflectBinaryStruct", "amino.go:MarshalBinaryBare", "amino.go:MarshalJSON", "amino.go:UnmarshalJSON"]}
{"id": "C80", "title": "What Unmarshal reads, Marshal can write", "statement": "If UnmarshalBinaryBare or UnmarshalBinaryLengthPrefixed returns without error, whatever the bytes it was given, then MarshalBinaryBare and MarshalBinaryLengthPrefixed return bytes for the value read, not an error or a panic. So a program that stores, relays or hashes what it received cannot be stopped by a message that it accepted.", "quantifier": "every type environment, registration history, type, byte string and target value", "why_tests_cant": "byte strings are unbounded, and the tests only read what Marshal wrote or check that bad bytes are refused; values read from other bytes are never written", "anchors": ["binary-decode.go:decodeReflectBinary", "binary-decode.go:decodeReflectBinaryInterface", "binary-decode.go:decodeReflectBinaryArray", "binary-decode.go:decodeReflectBinarySlice", "binary-decode.go:decodeReflectBinaryStruct", "decoder.go:DecodeTime", "reflect.go:defaultValue", "binary-encode.go:encodeReflectBinary", "binary-encode.go:encodeReflectBinaryInterface", "binary-encode.go:encodeReflectBinaryList", "binary-encode.go:encodeReflectBinaryStruct", "amino.go:MarshalBinaryBare", "amino.go:UnmarshalBinaryBare"]}
{"id": "C81", "title": "JSON members count by name", "statement": "UnmarshalJSON looks at the members of an object for a struct, or of the wrapper of a registered value, by name only: reordering them, adding members that no field is called by, repeating a name before its last member, writing a name with escapes, or writing null for a missing member leaves the result the same, be it a value, an error or a panic. A field whose member is missing is reset to zero (kept if it is omitempty), hidden fields are kept, and the others hold what UnmarshalJSON reads from the last member of their name.", "quantifier": "every type environment, registration history, type, target value and pair of JSON texts that agree member by member, at any depth", "why_tests_cant": "the tests read only objects that MarshalJSON wrote, with each member once and in the order of the fields; orders, names and nesting are unbounded", "anchors": ["json-decode.go:decodeReflectJSON", "json-decode.go:decodeReflectJSONStruct", "json-decode.go:decodeReflectJSONInterface", "json-decode.go:decodeInterfaceJSON", "json-decode.go:decodeReflectJSONSlice", "json-decode.go:decodeReflectJSONArray", "json-decode.go:decodeReflectJSONMap", "amino.go:UnmarshalJSON"]}
{"id": "C82", "title": "Length-prefixed messages cut short or run together are noticed", "statement": "What MarshalBinaryLengthPrefixed writes is refused by UnmarshalBinaryLengthPrefixed, for any codec, type and target, if bytes at its end are missing or others follow, and the target is left as it was. A stream is a sequence of such messages in at most one way. UnmarshalBinaryLengthPrefixedReader on a stream that ends before the message does returns an error and leaves the target as it was; the whole messages before it are read back.", "quantifier": "every environment, codec, type, value, place of the cut, continuation, sequence of messages, and every reader that delivers at least one byte per Read and ends with an error, in whatever pieces", "why_tests_cant": "the tests only read complete messages from a buffer that returns everything at once; messages, cuts and ways of reading are unbounded", "anchors": ["amino.go:MarshalBinaryLengthPrefixed", "amino.go:UnmarshalBinaryLengthPrefixed", "amino.go:UnmarshalBinaryLengthPrefixedReader"]}
{"id": "C83", "title": "UnmarshalJSON reads exactly the JSON texts of the type", "statement": "Given a JSON text and a variable of some type, UnmarshalJSON succeeds exactly if the text fits the type by the rules of the JSON form: which texts are numbers, strings, bytes, times, lists, structs, maps, wrapped concrete types; what null means; which fields are kept, reset or set. It then leaves exactly the value the rules give. A text stands for at most one value. Nothing but null is read as a floating-point number.", "quantifier": "every environment, every clean history of registrations, every type, contents of the target, JSON text and depth", "why_tests_cant": "texts, types and previous contents of the target are unbounded; the tests read what was written, and a few malformed texts", "anchors": ["amino.go:UnmarshalJSON", "json-decode.go:decodeReflectJSON", "json-decode.go:decodeReflectJSONInterface", "json-decode.go:decodeReflectJSONArray", "json-decode.go:decodeReflectJSONSlice", "json-decode.go:decodeReflectJSONStruct", "json-decode.go:decodeReflectJSONMap", "json-decode.go:decodeInterfaceJSON"]}
{"id": "C84", "title": "Values decoded from JSON are no larger than the text warrants", "statement": "If the fields of every struct have different JSON names, UnmarshalJSON leaves in the target at most three slice elements, map entries and string bytes per byte of its input more than were there before. The factor of three is needed for bytes that are not UTF-8. If two fields share a name, both read the same member, and the value can be exponentially larger than the text.", "quantifier": "every environment with methods that do not blow up their argument, every clean history of registrations, every type, contents of the target, input (JSON or not) and depth", "why_tests_cant": "inputs and types are unbounded; no test looks at the size of decoded JSON, or at structs with a JSON name used twice", "anchors": ["amino.go:UnmarshalJSON", "json-decode.go:decodeReflectJSON", "json-decode.go:decodeReflectJSONStruct", "json-decode.go:decodeReflectJSONMap", "json-decode.go:decodeReflectJSONSlice", "codec.go:parseFieldOptions"]}
{"id": "C85", "title": "What UnmarshalJSON reads, MarshalJSON can write", "statement": "Whatever text UnmarshalJSON accepts, the value it leaves in the target can be written again by MarshalJSON, provided the old contents of the target could be written. A new variable is such a target, and so is one that has been read into; targets may be pointers. This fails for floats outside of fields tagged unsafe, which are read from null or an absent member but cannot be written, and for maps with other than string keys, which are read from null.", "quantifier": "every environment and clean history, every set of types closed under [jsturdy] and [jechoes] with methods that accept what the reading methods give, every type of the set, text, target and depth", "why_tests_cant": "texts, values, types and registrations are unbounded; the tests only write values they built themselves, not values read from foreign texts", "anchors": ["amino.go:UnmarshalJSON", "amino.go:MarshalJSON", "json-decode.go:decodeReflectJSON", "json-encode.go:encodeReflectJSON", "json-encode.go:encodeReflectJSONMap"]}
{"id": "C86", "title": "What is written is no longer than the value warrants", "statement": "The bytes Marshal returns are bounded by the value: ten bytes for each number and length, five for the key of each part, eight for each interface value, plus the bytes of its strings; whatever the nesting, nothing is written twice. The text MarshalJSON returns is bounded likewise: six characters for each byte of a string, one for each bit of a number, and for each part its name and a fixed number of characters. MarshalAmino and MarshalJSON methods are assumed not to blow up their receiver, and the texts of times and floats to be short.", "quantifier": "every environment with methods that do not grow, every registration history, type, value and depth of recursion; in JSON every bound on the lengths of names", "why_tests_cant": "values are unbounded in size and depth; tests look at the bytes of a few small values", "anchors": ["amino.go:MarshalBinaryBare", "amino.go:MarshalBinaryLengthPrefixed", "amino.go:MarshalJSON", "binary-encode.go:encodeReflectBinary", "json-encode.go:encodeReflectJSON"]}
{"id": "C87", "title": "A message read and written again is no longer than it was", "statement": "If Unmarshal accepts bytes for a struct or list of structs and Marshal writes what was read, the bytes written are no more than the bytes read, with and without length prefix, whatever was in the target before; so a message passed on any number of times never grows. Holds for types without write_empty, without float, array and pointer-to-time fields that may be absent, whose MarshalAmino gives back what UnmarshalAmino was given, and whose interfaces are not AlwaysDisambiguate.", "quantifier": "every environment, registration history, set of lean types, every byte sequence, target value and depth of recursion, any number of hops", "why_tests_cant": "the inputs are all byte sequences the decoder accepts, most of which no encoder produces: overlong numbers, unknown fields, empty elements, needless prefixes", "anchors": ["amino.go:UnmarshalBinaryBare", "amino.go:MarshalBinaryBare", "binary-decode.go:decodeReflectBinary", "binary-encode.go:encodeReflectBinary", "binary-decode.go:decodeReflectBinaryStruct", "binary-encode.go:writeFieldIfNotEmpty"]}
{"id": "C88", "title": "The JSON text of a value determines it up to its normal form", "statement": "Two values of a type whose MarshalJSON texts are equal have the same JSON normal form, so two values already in normal form with equal texts are equal: MarshalJSON confuses no values but those the normal form identifies.", "quantifier": "every environment, registration history, supported set of types, pair of values and depths of recursion", "why_tests_cant": "quantifies over pairs of values of every type; a collision is a pair nobody thought of", "anchors": ["amino.go:MarshalJSON", "json-encode.go:encodeReflectJSON", "json-encode.go:encodeReflectJSONStruct", "json-encode.go:encodeReflectJSONMap", "json-decode.go:decodeReflectJSON"]}
{"id": "C89", "title": "Names of fields and JSON tags have no part in the binary format", "statement": "If two programs differ only in the names of struct fields and in JSON tags (other than the tag that hides a field), then any history of registrations panics in both or in neither, Marshal writes the same bytes for the same value, and Unmarshal reads the same value from the same bytes, failing in the same way when it fails: renaming a field is not a breaking change.", "quantifier": "every pair of such programs, registration history, type, value, byte sequence, target and depth of recursion", "why_tests_cant": "quantifies over pairs of programs and all their types, values and inputs, failing ones included", "anchors": ["codec.go:parseFieldOptions", "codec.go:parseStructInfo", "amino.go:MarshalBinaryBare", "amino.go:UnmarshalBinaryBare", "binary-encode.go:encodeReflectBinary", "binary-decode.go:decodeReflectBinary"]}
{"id": "C90", "title": "Binary and amino tags have no part in the JSON format", "statement": "If two programs differ only in the binary tags and the amino tags of struct fields (other than the option unsafe), then any history of registrations panics in both or in neither, MarshalJSON and MarshalJSONIndent write the same text for the same value, and UnmarshalJSON reads the same value from the same text, failing in the same way when it fails.", "quantifier": "every pair of such programs, registration history, type, value, text, target and depth of recursion", "why_tests_cant": "quantifies over pairs of programs and all their types, values and inputs, failing ones included", "anchors": ["codec.go:parseFieldOptions", "codec.go:parseStructInfo", "amino.go:MarshalJSON", "amino.go:UnmarshalJSON", "amino.go:MarshalJSONIndent", "json-encode.go:encodeReflectJSON", "json-decode.go:decodeReflectJSON"]}
{"id": "C91", "title": "The message of a struct is the messages of its parts, one after the other", "statement": "For an unregistered struct type without an AminoMarshaler method: the message of a struct is the message of its leading fields, the others left blank, followed by the message of the other fields, the leading ones left blank; a list field written as one entry per element may be divided between the two. The whole can be written exactly if both parts can. The same holds for slices of structs and their elements. For supported types the two messages, one after the other, are read as the normal form of the whole. Fields count as blank if they are nil, zero integers, empty strings or lists, false, the start of 1970, pointers to the first three kinds, or structs of blank fields, and are not tagged write_empty. In the other order the messages are not always accepted, nor are messages of registered types.", "quantifier": "every program, clean registration history, struct type, value, way of dividing it, and depth of recursion", "why_tests_cant": "quantifies over all types, values and ways of dividing them, including values that cannot be written", "anchors": ["binary-encode.go:encodeReflectBinaryStruct", "binary-encode.go:encodeReflectBinaryList", "binary-encode.go:writeFieldIfNotEmpty", "amino.go:MarshalBinaryBare", "amino.go:UnmarshalBinaryBare", "reflect.go:isDefaultValue"]}
{"id": "C92", "title": "The widths of integer fields have no part in the binary format", "statement": "If two programs differ only in that struct fields of type int32, int or int64 (uint32, uint or uint64) have another of these types, none of them tagged fixed32 or fixed64, then any history of registrations panics in both or in neither, and Marshal writes the same bytes for the same value or fails in the same way. What one writes the other reads as the normal form of the value, if the value fits its types and the types are supported. If only int and int64 (uint and uint64) are exchanged, Unmarshal gives equal results on all inputs. Exchanging int16 for int32 does not keep messages readable: they are read as other numbers without an error; and with 32-bit types numbers that do not fit are refused (int32) or cut off (uint32).", "quantifier": "every pair of such programs, registration history, type, value, input, target and depth of recursion", "why_tests_cant": "quantifies over pairs of programs and all their types, values and inputs, failing ones included", "anchors": ["binary-encode.go:encodeReflectBinary", "binary-decode.go:decodeReflectBinary", "binary-encode.go:encodeReflectBinaryStruct", "binary-decode.go:decodeReflectBinaryStruct", "codec.go:parseStructInfo", "reflect.go:typeToTyp3"]}
{"id": "C93", "title": "The widths of integer fields in JSON", "statement": "If two programs differ only in that struct fields of type int or int64 (uint or uint64; int8, int16 or int32; uint8, uint16 or uint32) have another type of the same group, then any history of registrations panics in both or in neither, and MarshalJSON and MarshalJSONIndent write the same text for the same value or fail in the same way. What one writes the other reads as the normal form of the value, if the value fits its types and the types are supported. If only int and int64 (uint and uint64) are exchanged, UnmarshalJSON gives equal results on all inputs. Exchanging int32 for int64, which the binary format allows, changes the text, and each program refuses the other's; a number too long for a shorter type is refused.", "quantifier": "every pair of such programs, behaviour of JSON methods and the JSON library, registration history, type, value, input, target and depth of recursion", "why_tests_cant": "quantifies over pairs of programs and all their types, values and inputs, failing ones included", "anchors": ["json-encode.go:encodeReflectJSON", "json-decode.go:decodeReflectJSON", "json-encode.go:encodeReflectJSONStruct", "json-decode.go:decodeReflectJSONStruct", "codec.go:parseStructInfo"]}
{"id": "C94", "title": "Whether basic types are named has no part in the formats", "statement": "If two programs differ only in that struct fields of basic types (integers, floats, strings, bool) have named types defined as them, without MarshalAmino and UnmarshalAmino methods, or the other way round, then any history of registrations panics in both or in neither, Marshal writes the same bytes for the same value, Unmarshal reads the same value from the same bytes, and they fail in the same way. If the types have no MarshalJSON and UnmarshalJSON methods either, the same holds of MarshalJSON, MarshalJSONIndent and UnmarshalJSON. With a MarshalJSON method the text may differ, and outside of fields the name of a registered type is written before the value.", "quantifier": "every pair of such programs, registration history, type, value, input, target and depth of recursion", "why_tests_cant": "quantifies over pairs of programs and all their types, values and inputs, failing ones included", "anchors": ["binary-encode.go:encodeReflectBinary", "binary-decode.go:decodeReflectBinary", "binary-encode.go:encodeReflectBinaryStruct", "binary-decode.go:decodeReflectBinaryStruct", "json-encode.go:encodeReflectJSON", "json-decode.go:decodeReflectJSON", "codec.go:parseStructInfo"]}
{"id": "C95", "title": "Arrays are written as slices of their elements", "statement": "An array type and a slice type with the same element type, without methods and not registered, write the same elements as the same bytes, or neither can be written. Two struct types that differ in having slices where the other has arrays write the same message for the same contents, hidden fields aside, and what one writes the other reads as the normal form of its own value, if the types are supported and the lists have at least one element. In JSON a pointer to an array is written exactly as a pointer to a slice of its elements. A slice of another length is refused by the array, and in JSON arrays passed by value differ where element types declare MarshalJSON on the pointer.", "quantifier": "every program, registration history, pair of such types, contents and depth of recursion", "why_tests_cant": "quantifies over all pairs of types and all contents, nested ones and ones that cannot be written included", "anchors": ["binary-encode.go:encodeReflectBinaryList", "binary-encode.go:encodeReflectBinaryByteArray", "binary-encode.go:encodeReflectBinaryByteSlice", "binary-decode.go:decodeReflectBinaryArray", "binary-decode.go:decodeReflectBinarySlice", "json-encode.go:encodeReflectJSONList"]}
{"id": "C96", "title": "Pointers in struct fields are written as what they point to", "statement": "For two unregistered struct types without methods that differ in having pointers in the second for values in the first (of any type but lists and floats), and in hidden fields anywhere: a struct of the first is written with the same bytes as the struct of the second with pointers to the same values, or neither can be written, if the values that became pointers are not blank, or were pointers already, or the field is tagged write_empty. If the types are supported, what one writes the other reads as the normal form of its own value. A pointer to a blank struct is written though the blank struct is not, and a pointer to a list is written in another form.", "quantifier": "every program, registration history, pair of such struct types, contents and depth of recursion", "why_tests_cant": "quantifies over all pairs of struct types and all contents, nested ones and ones that cannot be written included", "anchors": ["binary-encode.go:encodeReflectBinaryStruct", "binary-encode.go:writeFieldIfNotEmpty", "reflect.go:isDefaultValue", "codec.go:parseStructInfo"]}
{"id": "C97", "title": "A value that is not a struct is written as a struct with it as only field", "statement": "For an unregistered type without methods that is a basic type, a list of bytes, numbers or bools, or a list of structs or times, and any unregistered struct type without methods whose only visible field has this type and no binary and amino tags: the value alone and a struct with the value in that field are written with the same bytes, or neither can be written. If the struct type is supported, the message of the value is read as such a struct, in its normal form; and the message of a struct with a list of structs is read as the list alone. Lists of strings are written in another form alone.", "quantifier": "every program, registration history, pair of such types and value", "why_tests_cant": "quantifies over all such pairs of types and all values, nested ones and ones that cannot be written included", "anchors": ["amino.go:MarshalBinaryBare", "amino.go:isStructOrRepeatedStruct", "binary-encode.go:writeFieldIfNotEmpty", "binary-encode.go:encodeReflectBinaryStruct"]}
{"id": "C98", "title": "Struct types with the same fields are interchangeable", "statement": "For two unregistered struct types with the same fields, tags included, and without methods: every value is written with the same bytes, or fails with the same error (up to the names of types in its text, which the model leaves out), as one or the other, and all bytes are read into all targets with the same result and the same error. The same holds with length prefixes, and in JSON for types without JSON methods. If one of them is registered, its prefix stands before what is written for the other, and what follows the prefix is read as the other; in JSON its name stands beside what is written for the other, and the text beside a name without escapes is read as the other. Two registered types are told apart by their prefixes.", "quantifier": "every program, registration history, pair of such types, value, byte string, target and depth of recursion", "why_tests_cant": "quantifies over all pairs of such types, all values and all byte strings, ill-formed ones included", "anchors": ["codec.go:getTypeInfoWlock", "codec.go:parseStructInfo", "amino.go:MarshalBinaryBare", "amino.go:UnmarshalBinaryBare", "amino.go:MarshalJSON", "amino.go:UnmarshalJSON"]}
{"id": "C99", "title": "Pointers in struct fields are written in JSON as what they point to", "statement": "For two unregistered struct types without methods, the second with pointers to the same values in some fields where the first has values, and with more or fewer hidden fields anywhere: the JSON text written for the first is written for the second, if no field is tagged omitempty and no MarshalJSON method has a pointer as receiver. A pointer passed to MarshalJSON in the place of a value, of any type, is written as the value too. The fields are those of C96: not lists or floats, and not blank unless tagged write_empty. If the second type is supported, the text is read as it, in its normal form. The converse is false: behind a pointer an array of a declared byte type can be written, elsewhere MarshalJSON panics.", "quantifier": "every program, registration history, set of JSON methods with values as receivers, pair of such types and values", "why_tests_cant": "quantifies over all such pairs of types and all contents, nested ones and any methods included", "anchors": ["json-encode.go:encodeReflectJSON", "json-encode.go:encodeReflectJSONStruct", "json-encode.go:encodeReflectJSONList", "json-encode.go:isEmpty"]}
{"id": "C100", "title": "UnmarshalJSON into a pointer reads what it reads into the variable", "statement": "For every type that is not an interface or a pointer to one, registered or not, with or without methods: UnmarshalJSON into a pointer leaves it pointing to what the same text is read as into the variable it points to, a new one for nil, and fails with the same error; only a null makes the pointer nil, where it clears the variable. UnmarshalJSON panics on pointers to interfaces.", "quantifier": "every program, JSON methods, registration history, type, target, byte string and depth of recursion", "why_tests_cant": "quantifies over all types, pointers to pointers included, all targets and all byte strings, those that are not JSON included", "anchors": ["amino.go:UnmarshalJSON", "json-decode.go:decodeReflectJSON"]}
