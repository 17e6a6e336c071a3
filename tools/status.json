{
"C01": ["proved", ""],
"C02": ["proved", ""],
"C03": ["proved", ""],
"C04": ["proved", ""],
"C05": ["proved", ""],
"C06": ["proved", ""],
"C07": ["proved", ""],
"C08": ["proved", ""],
"C09": ["proved", "The encoder emits the unique shortest form; the decoder accepts every form of up to ten bytes, so byte-level canonicity is refuted."],
"C10": ["proved", ""],
"C100": ["proved", "Pointers to interfaces are excluded: UnmarshalJSON panics on them (C100_interface_refuted)."],
"C11": ["partial", "Refuted as stated: an interface field numbered 1 holding a registered non-struct loses its key. Proved for every supported type (the class is spelled out in SpecSupported.v) and every value that has a normal form; values that are their own normal form come back identical."],
"C12": ["proved", "For values that have a normal form, which every value of a supported type has."],
"C13": ["partial", "Proved for regular types; refuted for MarshalAmino types whose representation has another wire type, and for pointers to lists of lists."],
"C14": ["partial", "As C13: proved for regular types, refuted otherwise."],
"C15": ["partial", "Refuted as stated: naming the disfix of a registered type that does not implement the decoded interface makes Unmarshal panic, and so does a target pointing to a list. Proved: for supported types that assignment is the only panic on any bytes, so there is none when every registered type implements every registered interface."],
"C16": ["partial", "Proved for every codec history, type, target and byte string when the UnmarshalAmino representation types do not loop back to a struct through its own list field; for such a loop the decoder recurses forever (refuted)."],
"C17": ["proved", "UnmarshalAmino methods are assumed not to produce more than their argument holds."],
"C18": ["proved", ""],
"C19": ["partial", "Proved for structs, interfaces and packed lists: the decoded value is determined by the frame alone and, with a minimally written length, exactly the frame is consumed. False for lengths with superfluous digits, times and lists behind pointers (refuted)."],
"C20": ["proved", ""],
"C21": ["partial", "Every chunking with non-empty Reads, messages of the types supported in C11. Refuted for a Read returning (0, nil), which is taken for a zero byte, and for io.EOF delivered together with the last byte of a message without a body."],
"C22": ["partial", "Allocation, decoding and acceptance bounds proved for every reader. Refuted: with maxSize below 10 up to ten prefix bytes are taken, because the overflow error is overwritten by the next Read; proved bound: max(10, maxSize)."],
"C23": ["partial", "Proved for prefixes shorter than ten bytes, for maxSize 1 to 9, for unterminated prefixes with maxSize up to 10, and no panic for any positive maxSize. Refuted: with a larger maxSize ten continuation bytes, or an overflowing prefix, pass for length 0; a length of 2^63 or more panics without a limit."],
"C24": ["proved", ""],
"C25": ["partial", "Refuted as stated: a registered non-struct in an interface field numbered 1 or a list element does not decode. Proved for registered structs and for the nested positions where encoder and decoder agree."],
"C26": ["proved", "NameToDisfix panics when the hash has too many zero bytes; seven non-zero bytes suffice."],
"C27": ["proved", ""],
"C28": ["proved", ""],
"C29": ["proved", ""],
"C30": ["proved", ""],
"C31": ["partial", "False as stated (C31_refuted): the sealed check and the registration take the mutex separately. Proved: after Seal has returned only registrations in progress at that time can succeed, one per goroutine, and if there is none nothing registered changes."],
"C32": ["partial", "Refuted as stated: a RegisterConcrete rejected with 'TypeInfo already exists' stays in the implementer tables. Proved: RegisterInterface is atomic; RegisterConcrete is atomic when no registered interface is implemented and the type is known or its name and disfix are new."],
"C33": ["proved", ""],
"C34": ["partial", "False as stated (C34_refuted): a panic in getTypeInfoWlock leaves the mutex locked for good. Proved: that is the only way, read locks are never left, no deadlock otherwise, and a call that finds the mutex free returns."],
"C35": ["partial", "Struct types that grow, at top level (C35_old_bytes, C35_supported) and anywhere inside a message: in lists, pointers, interfaces, representations (C35_nested), for values that have a normal form (always, for supported types). Missing: values without a normal form, which the old version itself cannot read."],
"C36": ["partial", "At top level, holds when no unknown repeated field has two or more entries (the other case is refuted); anywhere inside a message (C36_nested), holds when no unknown field is a list written as entries. For regular types and values that have a normal form."],
"C37": ["partial", "Proved for struct decoding from entries with minimal lengths, for fields other than times and those read through UnmarshalAmino. False with superfluous length digits and with time fields (refuted)."],
"C38": ["partial", "Encoding never depends on hidden fields (MarshalAmino methods assumed to ignore them). Unmarshal leaves the hidden fields of the target struct untouched for all bytes, also on error; hidden fields of nested structs are kept too unless that field is reset as a whole, which happens when it is absent from the bytes (refuted with a witness)."],
"C39": ["partial", "Integers, strings, slices and pointers to these; refuted for write_empty pointers, pointers to false, and zero floats and byte arrays."],
"C40": ["partial", "Marshalling is proved. Unmarshalling is proved for bases that are not lists or interfaces; for those the decoder panics or mismatches (refuted)."],
"C41": ["partial", "Two targets of the same type without set interfaces give the same outcome. Refuted for UnmarshalAmino methods that read their receiver and for pointers to non-nil lists (panic), which the theorem excludes."],
"C42": ["partial", "Refuted for structs (fields are filled one by one) and for left-over bytes; proved for types decoded in one piece, and for prefix and framing errors."],
"C43": ["proved", ""],
"C44": ["partial", "Refuted for uint32 without fixed32 (varint is truncated); proved for all other integer kinds."],
"C45": ["partial", "Refuted for top-level values (key of the declared type) and for list types used as fields (MarshalAmino bypassed); proved at every other position."],
"C46": ["partial", "Refuted as stated: top-level zero numbers and lists of strings do not decode. Proved for non-zero numbers, strings, byte slices and lists of numbers, and for empty slices."],
"C47": ["partial", "Regular types; refuted for lists of byte lists outside fields."],
"C48": ["proved", ""],
"C49": ["partial", "Proved for every value with a JSON normal form (explicit function jnorm), and for every value MarshalJSON accepts whose types are in a supported set. Refuted for floats, strings that are not UTF-8, nil maps, repeated field names and MarshalJSON on the pointer receiver. The text of times and floats is an assumption about the standard library."],
"C50": ["partial", "Proved when registered names need no escapes; refuted for names that do (they are written as they are). Text written by time.Time, by floats and by MarshalJSON methods is assumed to be JSON (jenv_ok)."],
"C51": ["proved", "For all four types, declared types over them (without methods), at any depth and behind any pointers."],
"C52": ["partial", "Written and read sides proved for all inputs; that a written name is resolved again needs a name without escapes (refuted otherwise)."],
"C53": ["partial", "Proved for every finite object (any depth, sharing allowed) of types without methods for copying, without non-nil functions or channels and without a pointer to a nil pointer, interface or map; the excluded objects panic, change a nil map into an empty one, or never return (refuted)."],
"C54": ["partial", "Proved for objects reached without slices and maps of references and without methods for copying: original and copy reach disjoint cells, and later writes to one never change how the other looks. False for slices (dst.Set(src) shares the array) and for map values, refuted with universal statements and concrete writes."],
"C55": ["partial", "Parts concatenate to the consumed prefix: proved for every input. Termination: proved for inputs whose last byte has no continuation bit; refuted for a rest such as 0x80, on which the scanner loops for ever. Panics shown."],
"C56": ["proved", "For every writer keeping to the io.Writer contract (an error whenever n < len(p)); C56_contract_needed shows that a short write without an error is not noticed. Panics of the writer are not modelled."],
"C57": ["proved", "Field descriptions of every struct type against an independent reading of the tag strings."],
"C58": ["partial", "False with Seal (C58_refuted, following from C31). Proved without Seal, and with Seal up to registrations in progress; the unlocked read of C59 is not explained."],
"C59": ["partial", "False (C59_refuted): Implementers is read without lock. Proved that this is the only unprotected access."],
"C60": ["proved", ""],
"C61": ["proved", "For every input: what is shown for a well-formed message is its listing, nothing else is shown as one, and the listing is unique."],
"C62": ["proved", "Layout exact for every prefix and indentation; same text and same reading for white space ones, given that UnmarshalJSON methods of the program do not depend on white space."],
"C63": ["partial", "Proved for white space between tokens. Refuted for white space before or after the whole text (quoted integers, times and null are recognised by their bytes)."],
"C64": ["partial", "Proved for every byte string except a lone quotation mark, every registration history in which the registered types implement the registered interfaces, and every target whose type is in a closed set without the types UnmarshalJSON cannot set; without the assumption on interfaces the only panic left is reflect.Set. Refuted by a lone quotation mark, a foreign registered name, and the excluded types. The program's own methods and the library's time and float readers are assumed to return."],
"C65": ["partial", "Proved, given that time.Time and the program's UnmarshalJSON methods accept only JSON, except for white space inside the quotation marks of a number, which is accepted (refuted by a newline there)."],
"C66": ["partial", "Proved for any two targets that agree on what is kept (hidden, left out and omitempty fields, slices of bytes, parts with methods), and so for all types without such parts. Refuted for omitempty fields, hidden fields and null in lists of bytes. Contents after an error are not modelled."],
"C67": ["partial", "Proved for everything met through interfaces, arrays, exported fields and pointers to structs or arrays (not slices, maps or pointers to pointers): DeepCopy methods of both kinds for all values, the Amino pair for pointers; errors panic. Refuted for the pair on values that are not pointers, behind double pointers, and in slices and maps."],
"C68": ["partial", "Acceptance (every message described by the specification is read, with the described value; struct types at top level) and uniqueness are proved without restriction. That nothing else is read is proved for bytes without superfluous varint digits and for types without times, lists with one entry per element outside of fields, and interface implementations that are not structs; there it is false or not covered."],
"C69": ["proved", "The reader form may also fail while reading, before the target matters."],
"C70": ["proved", "Reading back is for the sets of types of C11_supported_partial."],
"C71": ["proved", "Type.Name() and Type.Size() are inputs."],
"C72": ["proved", "Numbers are shown modulo 2^32 (C72_number_refuted) and bytes are taken from the first argument even if it is a flag (C72_argument_refuted); the statement holds with these."],
"C73": ["partial", "Proved for every value that 'lasts' (C73_lasting_partial; independent predicate in SpecReencode.v) and for every value of supported types whose times are never part of something left out (C73_steady_partial). Refuted for nil pointers to times and for structs holding only the Unix epoch. Types outside of 'supported' are missing."],
"C74": ["partial", "Acceptance is proved without restriction (C74_accepts, against the independent predicate writable). Returning without panic is proved for sturdy types and firm values (C74_returns_partial); it is refuted for nil pointers in interfaces, nil write_empty pointers and the endless type T []T."],
"C75": ["partial", "Proved for every value that 'lasts' (C75_same_text_partial; independent predicate in SpecJsonAgain.v), and for every value without empty non-nil slices of supported types where omitempty is on no structs, arrays or types with methods and methods give values back (C75_steady_partial). Refuted for empty lists and for structs under omitempty whose only nonzero fields are not written. Map members are written in the order in which reflection lists the keys, which Go leaves open: the model keeps the order of its list, so for maps with two or more entries the theorems speak of runs that list them in the same order (C75_map_order_refuted). Floats cannot be read from JSON at all (C49)."],
"C76": ["partial", "C76_accepts is unrestricted. That MarshalJSON returns is for types whose methods do not panic and whose MarshalAmino chains end, lists of byte kinds have element byte, no nil pointers in interfaces; refuted otherwise."],
"C77": ["proved", "C77_admits and C77_order, with no restriction on the environment. With uses of the codec in between the order does matter (C77_used_first_refuted), as the statement says."],
"C78": ["partial", "Proved for added types that are not the one written or read itself and, in binary, whose prefixes do not collide with those of old types within an old interface (C78_binary_partial, C78_json_partial); refuted otherwise."],
"C79": ["partial", "Proved (C79_same_bytes_partial) for supported types without maps, negative zeros, pointer fields under write_empty or pointers to arrays under omitempty; refuted for negative zeros and for pointer fields under write_empty."],
"C80": ["partial", "Proved (C80_can_write_partial, C80_targets_partial) for sturdy types without empty_elements and with floats only under unsafe, whose MarshalAmino accepts every value; targets not pointer variables. Refuted for arrays of struct pointers under empty_elements and for arrays of floats without unsafe."],
"C81": ["partial", "Proved (C81_members_partial, C81_field_by_field) for texts that agree member by member, with equal results unless the model runs out of fuel. Not covered: text for UnmarshalJSON methods, the order of map entries. Refuted for null under omitempty and for the order of members of one name."],
"C82": ["proved", "Proved for all messages, cuts, continuations and chunkings. C82_stream_partial inherits the limits of C21_stream_partial. C82_bare_refuted and C82_eof_refuted: the bare form has no such protection, and the error alone does not tell a cut from the end."],
"C83": ["proved", "C83_reads is an equivalence, for texts without white space around them and targets of the right type; C83_one_value and C83_fuel follow. C83_written_partial inherits the limits of C49 and C50. C83_one_text_refuted: the converse, one text per value, is false."],
"C84": ["proved", "C84_size_bounded for all inputs, given different JSON names in each struct; C84_same_name_refuted: without that there is no bound, the growth is exponential."],
"C85": ["partial", "C85_can_write_partial for sets of types closed under jsturdy and jechoes, pointer targets included; C85_targets_partial: new and re-used variables qualify. C85_floats_refuted and C85_map_keys_refuted: two of the kinds of types left out."],
"C86": ["proved", "Assumes MarshalAmino and MarshalJSON methods that do not blow up their receiver (repr_nogrow, json_short); in JSON, names of at most n characters (any n)."],
"C87": ["partial", "Proved (C87_relay_partial, C87_relay_length_prefixed_partial, C87_hops_partial) for the lean types of SpecLean.v and messages that are structs or lists of structs. Refuted for absent floats, arrays, pointers to times and write_empty fields, for lists of byte slices cut after a key, and for AlwaysDisambiguate."],
"C88": ["partial", "Proved (C88_json_injective_partial, C88_one_text_partial) for the supported types and values of C49. Refuted for strings that are not UTF-8 and for nil against empty maps."],
"C89": ["proved", "Registration, Marshal and Unmarshal (bare and length-prefixed) give equal results, errors and panics included (C89_registry, C89_marshal, C89_unmarshal). C89_json_refuted and C89_hidden_refuted show what the exclusion of JSON and of hiding tags is for."],
"C90": ["proved", "Registration, MarshalJSON, MarshalJSONIndent and UnmarshalJSON give equal results, errors and panics included (C90_registry, C90_marshal_json, C90_unmarshal_json). C90_binary_refuted and C90_unsafe_refuted show what the exclusion of the binary format and of unsafe is for."],
"C91": ["partial", "Writing is proved for all types (C91_structs, C91_slices: any unregistered struct type without methods). Reading back is proved for the supported types of C11. Messages in the wrong order and messages of registered types are refused: see the refuted theorems."],
"C92": ["partial", "Registration and Marshal are equal for all programs and values (C92_registry, C92_marshal), Unmarshal for int/int64 and uint/uint64 (C92_unmarshal). Reading with other widths is proved for the supported types of C11 (C92_read_partial). The refuted theorems show where the claim ends."],
"C93": ["partial", "Registration, MarshalJSON and MarshalJSONIndent are equal for all programs and values (C93_registry, C93_marshal_json), UnmarshalJSON for int/int64 and uint/uint64 (C93_unmarshal_json). Reading with other widths is proved for the supported types of C49 (C93_read_partial). The refuted theorems show where the claim ends."],
"C94": ["proved", "For all such programs and inputs. The refuted theorems show where the claim ends: MarshalJSON methods, and registered types outside of fields."],
"C95": ["partial", "Written bytes and JSON texts agree for all types and contents (C95_lists, C95_structs, C95_json). Reading the other's messages is proved for the supported types of C11 (C95_read_partial). The refuted theorems show where the claim ends."],
"C96": ["partial", "Written bytes agree for all types and contents (C96_pointers). Reading the other's messages is proved for the supported types of C11 (C96_read_partial). The refuted theorems show where the claim ends."],
"C97": ["partial", "Written bytes agree for all such types and values (C97_only_field). Reading as a struct, and reading the struct's message as a list of structs alone, is proved for the supported types of C11 (C97_read_partial, C97_read_alone_partial). Lists of strings, of lists and of pointers are left out; for strings it is false (C97_strings_refuted)."],
"C98": ["proved", "Types with methods are not covered; C98_prefix and C98_name cover a registered type and one that is not."],
"C99": ["partial", "Written texts agree for all types and contents (C99_pointers). Reading them with pointers is proved for the supported types of C49 (C99_read_partial). The refuted theorems show where the claim ends: the converse, pointer receivers and omitempty."]
}
