{
 "claims": [
  {
   "property": "C01",
   "status": "proved",
   "theorems": [
    "C01_uvarint_roundtrip"
   ],
   "note": ""
  },
  {
   "property": "C02",
   "status": "proved",
   "theorems": [
    "C02_varint_roundtrip"
   ],
   "note": ""
  },
  {
   "property": "C03",
   "status": "proved",
   "theorems": [
    "C03_narrow_never_truncates",
    "C03_narrow_roundtrip"
   ],
   "note": ""
  },
  {
   "property": "C04",
   "status": "proved",
   "theorems": [
    "C04_fixed_width",
    "C04_fixed_width_decode"
   ],
   "note": ""
  },
  {
   "property": "C05",
   "status": "proved",
   "theorems": [
    "C05_bool_strict"
   ],
   "note": ""
  },
  {
   "property": "C06",
   "status": "proved",
   "theorems": [
    "C06_byte_slice_framing",
    "C06_byte_slice_bounded"
   ],
   "note": ""
  },
  {
   "property": "C07",
   "status": "proved",
   "theorems": [
    "C07_time_roundtrip",
    "C07_time_decode_range",
    "C07_time_encoding_injective"
   ],
   "note": ""
  },
  {
   "property": "C08",
   "status": "proved",
   "theorems": [
    "C08_primitive_decoders_well_behaved",
    "C08_decode_time_total",
    "C08_decode_time_extension_refuted"
   ],
   "note": ""
  },
  {
   "property": "C09",
   "status": "proved",
   "theorems": [
    "C09_uvarint_shortest",
    "C09_uvarint_accepts_all",
    "C09_canonical_refuted",
    "C09_go112_uvarint_agrees"
   ],
   "note": "The encoder emits the unique shortest form; the decoder accepts every form of up to ten bytes, so byte-level canonicity is refuted."
  },
  {
   "property": "C10",
   "status": "proved",
   "theorems": [
    "C10_field_key_roundtrip",
    "C10_field_key_injective",
    "C10_field_key_decode",
    "C10_field_key_bad"
   ],
   "note": ""
  },
  {
   "property": "C11",
   "status": "partial",
   "theorems": [
    "C11_normal_form_partial",
    "C11_supported_partial",
    "C11_identity_partial",
    "C11_iface_nonstruct_refuted"
   ],
   "note": "Refuted as stated: an interface field numbered 1 holding a registered non-struct loses its key. Proved for every supported type (the class is spelled out in SpecSupported.v) and every value that has a normal form; values that are their own normal form come back identical."
  },
  {
   "property": "C12",
   "status": "proved",
   "theorems": [
    "C12_injective"
   ],
   "note": "For values that have a normal form, which every value of a supported type has."
  },
  {
   "property": "C13",
   "status": "partial",
   "theorems": [
    "C13_struct_partial",
    "C13_method_refuted",
    "C13_list_pointer_refuted",
    "C13_integers_partial"
   ],
   "note": "Proved for regular types; refuted for MarshalAmino types whose representation has another wire type, and for pointers to lists of lists."
  },
  {
   "property": "C14",
   "status": "partial",
   "theorems": [
    "C14_parse_partial",
    "C14_unreadable_refuted"
   ],
   "note": "As C13: proved for regular types, refuted otherwise."
  },
  {
   "property": "C15",
   "status": "partial",
   "theorems": [
    "C15_only_assign_panic_partial",
    "C15_no_panic_partial",
    "C15_foreign_disfix_refuted",
    "C15_list_pointer_refuted"
   ],
   "note": "Refuted as stated: naming the disfix of a registered type that does not implement the decoded interface makes Unmarshal panic, and so does a target pointing to a list. Proved: for supported types that assignment is the only panic on any bytes, so there is none when every registered type implements every registered interface."
  },
  {
   "property": "C16",
   "status": "partial",
   "theorems": [
    "C16_terminates_partial",
    "C16_terminates_length_prefixed_partial",
    "C16_repr_cycle_refuted"
   ],
   "note": "Proved for every codec history, type, target and byte string when the UnmarshalAmino representation types do not loop back to a struct through its own list field; for such a loop the decoder recurses forever (refuted)."
  },
  {
   "property": "C17",
   "status": "proved",
   "theorems": [
    "C17_size_bounded",
    "C17_fresh_size"
   ],
   "note": "UnmarshalAmino methods are assumed not to produce more than their argument holds."
  },
  {
   "property": "C18",
   "status": "proved",
   "theorems": [
    "C18_count_within_input",
    "C18_no_impossible_slide"
   ],
   "note": ""
  },
  {
   "property": "C19",
   "status": "partial",
   "theorems": [
    "C19_frame_partial",
    "C19_minimal_partial",
    "C19_superfluous_digit_refuted",
    "C19_time_refuted",
    "C19_list_pointer_refuted"
   ],
   "note": "Proved for structs, interfaces and packed lists: the decoded value is determined by the frame alone and, with a minimally written length, exactly the frame is consumed. False for lengths with superfluous digits, times and lists behind pointers (refuted)."
  },
  {
   "property": "C20",
   "status": "proved",
   "theorems": [
    "C20_marshal_frame",
    "C20_unmarshal_frame"
   ],
   "note": ""
  },
  {
   "property": "C21",
   "status": "partial",
   "theorems": [
    "C21_one_message_partial",
    "C21_written",
    "C21_stream_partial",
    "C21_empty_read_refuted",
    "C21_eof_with_data_refuted"
   ],
   "note": "Every chunking with non-empty Reads, messages of the types supported in C11. Refuted for a Read returning (0, nil), which is taken for a zero byte, and for io.EOF delivered together with the last byte of a message without a body."
  },
  {
   "property": "C22",
   "status": "partial",
   "theorems": [
    "C22_length_bound",
    "C22_nothing_larger",
    "C22_accepts",
    "C22_taken_partial",
    "C22_taken_refuted"
   ],
   "note": "Allocation, decoding and acceptance bounds proved for every reader. Refuted: with maxSize below 10 up to ten prefix bytes are taken, because the overflow error is overwritten by the next Read; proved bound: max(10, maxSize)."
  },
  {
   "property": "C23",
   "status": "partial",
   "theorems": [
    "C23_short_prefix_partial",
    "C23_small_limit_partial",
    "C23_unterminated_partial",
    "C23_no_panic_partial",
    "C23_unterminated_refuted",
    "C23_overflow_refuted",
    "C23_negative_length_refuted"
   ],
   "note": "Proved for prefixes shorter than ten bytes, for maxSize 1 to 9, for unterminated prefixes with maxSize up to 10, and no panic for any positive maxSize. Refuted: with a larger maxSize ten continuation bytes, or an overflowing prefix, pass for length 0; a length of 2^63 or more panics without a limit."
  },
  {
   "property": "C24",
   "status": "proved",
   "theorems": [
    "C24_marshal_prefix",
    "C24_unmarshal_needs_prefix",
    "C24_rest_as_unregistered"
   ],
   "note": ""
  },
  {
   "property": "C25",
   "status": "partial",
   "theorems": [
    "C25_nested_partial",
    "C25_top_partial",
    "C25_nonstruct_field_refuted"
   ],
   "note": "Refuted as stated: a registered non-struct in an interface field numbered 1 or a list element does not decode. Proved for registered structs and for the nested positions where encoder and decoder agree."
  },
  {
   "property": "C26",
   "status": "proved",
   "theorems": [
    "C26_disfix_exact",
    "C26_disfix_decodes",
    "C26_forms_disjoint"
   ],
   "note": "NameToDisfix panics when the hash has too many zero bytes; seven non-zero bytes suffice."
  },
  {
   "property": "C27",
   "status": "proved",
   "theorems": [
    "C27_unique_registrations"
   ],
   "note": ""
  },
  {
   "property": "C28",
   "status": "proved",
   "theorems": [
    "C28_implementers_complete",
    "C28_order_independent"
   ],
   "note": ""
  },
  {
   "property": "C29",
   "status": "proved",
   "theorems": [
    "C29_conflicts_disambiguated"
   ],
   "note": ""
  },
  {
   "property": "C30",
   "status": "proved",
   "theorems": [
    "C30_json",
    "C30_sealed_forever",
    "C30_seal"
   ],
   "note": ""
  },
  {
   "property": "C31",
   "status": "partial",
   "theorems": [
    "C31_refuted",
    "C31_later_partial",
    "C31_quiet_partial"
   ],
   "note": "False as stated (C31_refuted): the sealed check and the registration take the mutex separately. Proved: after Seal has returned only registrations in progress at that time can succeed, one per goroutine, and if there is none nothing registered changes."
  },
  {
   "property": "C32",
   "status": "partial",
   "theorems": [
    "C32_rejected_registration_refuted",
    "C32_interface_atomic_partial",
    "C32_concrete_atomic_partial"
   ],
   "note": "Refuted as stated: a RegisterConcrete rejected with 'TypeInfo already exists' stays in the implementer tables. Proved: RegisterInterface is atomic; RegisterConcrete is atomic when no registered interface is implemented and the type is known or its name and disfix are new."
  },
  {
   "property": "C33",
   "status": "proved",
   "theorems": [
    "C33_json",
    "C33_use_transparent",
    "C33_interleaved_uses"
   ],
   "note": ""
  },
  {
   "property": "C34",
   "status": "partial",
   "theorems": [
    "C34_refuted",
    "C34_no_leak_partial",
    "C34_progress_partial",
    "C34_alone_partial"
   ],
   "note": "False as stated (C34_refuted): a panic in getTypeInfoWlock leaves the mutex locked for good. Proved: that is the only way, read locks are never left, no deadlock otherwise, and a call that finds the mutex free returns."
  },
  {
   "property": "C35",
   "status": "partial",
   "theorems": [
    "C35_nested_partial",
    "C35_nested_supported_partial",
    "C35_old_bytes_partial",
    "C35_supported_partial"
   ],
   "note": "Struct types that grow, at top level (C35_old_bytes, C35_supported) and anywhere inside a message: in lists, pointers, interfaces, representations (C35_nested), for values that have a normal form (always, for supported types). Missing: values without a normal form, which the old version itself cannot read."
  },
  {
   "property": "C36",
   "status": "partial",
   "theorems": [
    "C36_nested_partial",
    "C36_nested_supported_partial",
    "C36_new_bytes_partial",
    "C36_supported_partial",
    "C36_repeated_refuted"
   ],
   "note": "At top level, holds when no unknown repeated field has two or more entries (the other case is refuted); anywhere inside a message (C36_nested), holds when no unknown field is a list written as entries. For regular types and values that have a normal form."
  },
  {
   "property": "C37",
   "status": "partial",
   "theorems": [
    "C37_struct_partial",
    "C37_nested_partial",
    "C37_unmarshal_partial",
    "C37_superfluous_digit_refuted",
    "C37_time_refuted"
   ],
   "note": "Proved for struct decoding from entries with minimal lengths, for fields other than times and those read through UnmarshalAmino. False with superfluous length digits and with time fields (refuted)."
  },
  {
   "property": "C38",
   "status": "partial",
   "theorems": [
    "C38_encoding_ignores_hidden",
    "C38_unmarshal_keeps_hidden_partial",
    "C38_own_fields_kept",
    "C38_absent_struct_refuted"
   ],
   "note": "Encoding never depends on hidden fields (MarshalAmino methods assumed to ignore them). Unmarshal leaves the hidden fields of the target struct untouched for all bytes, also on error; hidden fields of nested structs are kept too unless that field is reset as a whole, which happens when it is absent from the bytes (refuted with a witness)."
  },
  {
   "property": "C39",
   "status": "partial",
   "theorems": [
    "C39_same_encoding",
    "C39_parts",
    "C39_default_is_blank",
    "C39_pointer_not_blank",
    "C39_all_default",
    "C39_write_empty_refuted",
    "C39_bool_refuted",
    "C39_zero_refuted"
   ],
   "note": "Integers, strings, slices and pointers to these; refuted for write_empty pointers, pointers to false, and zero floats and byte arrays."
  },
  {
   "property": "C40",
   "status": "partial",
   "theorems": [
    "C40_marshal_through",
    "C40_unmarshal_through_partial",
    "C40_list_pointer_refuted",
    "C40_iface_pointer_refuted"
   ],
   "note": "Marshalling is proved. Unmarshalling is proved for bases that are not lists or interfaces; for those the decoder panics or mismatches (refuted)."
  },
  {
   "property": "C41",
   "status": "partial",
   "theorems": [
    "C41_used_target_partial",
    "C41_fresh_target",
    "C41_set_interface",
    "C41_method_refuted",
    "C41_list_pointer_refuted"
   ],
   "note": "Two targets of the same type without set interfaces give the same outcome. Refuted for UnmarshalAmino methods that read their receiver and for pointers to non-nil lists (panic), which the theorem excludes."
  },
  {
   "property": "C42",
   "status": "partial",
   "theorems": [
    "C42_one_piece_partial",
    "C42_prefix_partial",
    "C42_frame_partial",
    "C42_unchanged_refuted"
   ],
   "note": "Refuted for structs (fields are filled one by one) and for left-over bytes; proved for types decoded in one piece, and for prefix and framing errors."
  },
  {
   "property": "C43",
   "status": "proved",
   "theorems": [
    "C43_direct_fields_panic",
    "C43_write_is_error",
    "C43_read_is_error",
    "C43_unsafe_exact"
   ],
   "note": ""
  },
  {
   "property": "C44",
   "status": "partial",
   "theorems": [
    "C44_value_is_denoted_partial",
    "C44_out_of_range_partial",
    "C44_uint32_refuted"
   ],
   "note": "Refuted for uint32 without fixed32 (varint is truncated); proved for all other integer kinds."
  },
  {
   "property": "C45",
   "status": "partial",
   "theorems": [
    "C45_encode_partial",
    "C45_decode_partial",
    "C45_round_trip_partial",
    "C45_top_level_key_refuted",
    "C45_list_field_refuted"
   ],
   "note": "Refuted for top-level values (key of the declared type) and for list types used as fields (MarshalAmino bypassed); proved at every other position."
  },
  {
   "property": "C46",
   "status": "partial",
   "theorems": [
    "C46_flat_partial",
    "C46_empty_slice_partial",
    "C46_zero_refuted",
    "C46_strings_refuted"
   ],
   "note": "Refuted as stated: top-level zero numbers and lists of strings do not decode. Proved for non-zero numbers, strings, byte slices and lists of numbers, and for empty slices."
  },
  {
   "property": "C47",
   "status": "partial",
   "theorems": [
    "C47_present_partial",
    "C47_alone_refuted",
    "C47_pointer_refuted"
   ],
   "note": "Regular types; refuted for lists of byte lists outside fields."
  },
  {
   "property": "C48",
   "status": "proved",
   "theorems": [
    "C48_must_json",
    "C48_must_marshal",
    "C48_must_unmarshal"
   ],
   "note": ""
  },
  {
   "property": "C49",
   "status": "partial",
   "theorems": [
    "C49_normal_form_partial",
    "C49_supported_partial",
    "C49_float_refuted",
    "C49_invalid_utf8_refuted",
    "C49_nil_map_refuted",
    "C49_same_name_refuted",
    "C49_pointer_method_refuted"
   ],
   "note": "Proved for every value with a JSON normal form (explicit function jnorm), and for every value MarshalJSON accepts whose types are in a supported set. Refuted for floats, strings that are not UTF-8, nil maps, repeated field names and MarshalJSON on the pointer receiver. The text of times and floats is an assumption about the standard library."
  },
  {
   "property": "C50",
   "status": "partial",
   "theorems": [
    "C50_valid_partial",
    "C50_name_refuted"
   ],
   "note": "Proved when registered names need no escapes; refuted for names that do (they are written as they are). Text written by time.Time, by floats and by MarshalJSON methods is assumed to be JSON (jenv_ok)."
  },
  {
   "property": "C51",
   "status": "proved",
   "theorems": [
    "C51_written",
    "C51_read",
    "C51_unquoted"
   ],
   "note": "For all four types, declared types over them (without methods), at any depth and behind any pointers."
  },
  {
   "property": "C52",
   "status": "partial",
   "theorems": [
    "C52_written",
    "C52_read",
    "C52_resolves_partial",
    "C52_unknown",
    "C52_top_written",
    "C52_top_read",
    "C52_name_refuted"
   ],
   "note": "Written and read sides proved for all inputs; that a written name is resolved again needs a name without escapes (refuted otherwise)."
  },
  {
   "property": "C53",
   "status": "partial",
   "theorems": [
    "C53_equal_partial",
    "C53_excluded_refuted"
   ],
   "note": "Proved for every finite object (any depth, sharing allowed) of types without methods for copying, without non-nil functions or channels and without a pointer to a nil pointer, interface or map; the excluded objects panic, change a nil map into an empty one, or never return (refuted)."
  },
  {
   "property": "C54",
   "status": "partial",
   "theorems": [
    "C54_separate_partial",
    "C54_writes_partial",
    "C54_slices_refuted",
    "C54_maps_refuted",
    "C54_shared_write_refuted"
   ],
   "note": "Proved for objects reached without slices and maps of references and without methods for copying: original and copy reach disjoint cells, and later writes to one never change how the other looks. False for slices (dst.Set(src) shares the array) and for map values, refuted with universal statements and concrete writes."
  },
  {
   "property": "C55",
   "status": "partial",
   "theorems": [
    "C55_parts",
    "C55_terminates_partial",
    "C55_endless_only_partial",
    "C55_endless_refuted",
    "C55_panic_refuted"
   ],
   "note": "Parts concatenate to the consumed prefix: proved for every input. Termination: proved for inputs whose last byte has no continuation bit; refuted for a rest such as 0x80, on which the scanner loops for ever. Panics shown."
  },
  {
   "property": "C56",
   "status": "proved",
   "theorems": [
    "C56_encoders",
    "C56_marshal_writer",
    "C56_contract_needed"
   ],
   "note": "For every writer keeping to the io.Writer contract (an error whenever n < len(p)); C56_contract_needed shows that a short write without an error is not noticed. Panics of the writer are not modelled."
  },
  {
   "property": "C58",
   "status": "partial",
   "theorems": [
    "C58_refuted",
    "C58_serial_partial",
    "C58_replay_partial"
   ],
   "note": "False with Seal (C58_refuted, following from C31). Proved without Seal, and with Seal up to registrations in progress; the unlocked read of C59 is not explained."
  },
  {
   "property": "C59",
   "status": "partial",
   "theorems": [
    "C59_refuted",
    "C59_lock_partial"
   ],
   "note": "False (C59_refuted): Implementers is read without lock. Proved that this is the only unprotected access."
  },
  {
   "property": "C60",
   "status": "proved",
   "theorems": [
    "C60_lookups",
    "C60_types"
   ],
   "note": ""
  },
  {
   "property": "C57",
   "status": "proved",
   "theorems": [
    "C57_fields",
    "C57_options"
   ],
   "note": "Field descriptions of every struct type against an independent reading of the tag strings."
  },
  {
   "property": "C61",
   "status": "proved",
   "theorems": [
    "C61_shown",
    "C61_only",
    "C61_unique"
   ],
   "note": "For every input: what is shown for a well-formed message is its listing, nothing else is shown as one, and the listing is unique."
  },
  {
   "property": "C62",
   "status": "proved",
   "theorems": [
    "C62_layout",
    "C62_any",
    "C62_same_text",
    "C62_round_trip"
   ],
   "note": "Layout exact for every prefix and indentation; same text and same reading for white space ones, given that UnmarshalJSON methods of the program do not depend on white space."
  },
  {
   "property": "C63",
   "status": "partial",
   "theorems": [
    "C63_layout_partial",
    "C63_outer_space_refuted"
   ],
   "note": "Proved for white space between tokens. Refuted for white space before or after the whole text (quoted integers, times and null are recognised by their bytes)."
  },
  {
   "property": "C64",
   "status": "partial",
   "theorems": [
    "C64_only_assign_panic_partial",
    "C64_returns_partial",
    "C64_quote_refuted",
    "C64_foreign_name_refuted",
    "C64_types_refuted",
    "C64_named_bytes_refuted"
   ],
   "note": "Proved for every byte string except a lone quotation mark, every registration history in which the registered types implement the registered interfaces, and every target whose type is in a closed set without the types UnmarshalJSON cannot set; without the assumption on interfaces the only panic left is reflect.Set. Refuted by a lone quotation mark, a foreign registered name, and the excluded types. The program's own methods and the library's time and float readers are assumed to return."
  },
  {
   "property": "C65",
   "status": "partial",
   "theorems": [
    "C65_accepted_partial",
    "C65_quoted_refuted"
   ],
   "note": "Proved, given that time.Time and the program's UnmarshalJSON methods accept only JSON, except for white space inside the quotation marks of a number, which is accepted (refuted by a newline there)."
  },
  {
   "property": "C66",
   "status": "partial",
   "theorems": [
    "C66_kept_partial",
    "C66_overwritten_partial",
    "C66_kept_refuted"
   ],
   "note": "Proved for any two targets that agree on what is kept (hidden, left out and omitempty fields, slices of bytes, parts with methods), and so for all types without such parts. Refuted for omitempty fields, hidden fields and null in lists of bytes. Contents after an error are not modelled."
  },
  {
   "property": "C67",
   "status": "partial",
   "theorems": [
    "C67_copy_partial",
    "C67_copy_elem_partial",
    "C67_pair_partial",
    "C67_error_panics",
    "C67_anything_refuted"
   ],
   "note": "Proved for everything met through interfaces, arrays, exported fields and pointers to structs or arrays (not slices, maps or pointers to pointers): DeepCopy methods of both kinds for all values, the Amino pair for pointers; errors panic. Refuted for the pair on values that are not pointers, behind double pointers, and in slices and maps."
  },
  {
   "property": "C68",
   "status": "partial",
   "theorems": [
    "C68_accepts",
    "C68_deterministic",
    "C68_exact_partial",
    "C68_wellformed_refuted"
   ],
   "note": "Acceptance (every message described by the specification is read, with the described value; struct types at top level) and uniqueness are proved without restriction. That nothing else is read is proved for bytes without superfluous varint digits and for types without times, lists with one entry per element outside of fields, and interface implementations that are not structs; there it is false or not covered."
  },
  {
   "property": "C69",
   "status": "proved",
   "theorems": [
    "C69_no_variable",
    "C69_variable",
    "C69_marshal_nil",
    "C69_writer",
    "C69_register"
   ],
   "note": "The reader form may also fail while reading, before the target matters."
  },
  {
   "property": "C70",
   "status": "proved",
   "theorems": [
    "C70_stateless",
    "C70_must",
    "C70_round_trip",
    "C70_no_interfaces"
   ],
   "note": "Reading back is for the sets of types of C11_supported_partial."
  },
  {
   "property": "C71",
   "status": "proved",
   "theorems": [
    "C71_table",
    "C71_unique"
   ],
   "note": "Type.Name() and Type.Size() are inputs."
  },
  {
   "property": "C72",
   "status": "proved",
   "theorems": [
    "C72_same",
    "C72_hex",
    "C72_all_bytes",
    "C72_report",
    "C72_color",
    "C72_name",
    "C72_number_refuted",
    "C72_argument_refuted"
   ],
   "note": "Numbers are shown modulo 2^32 (C72_number_refuted) and bytes are taken from the first argument even if it is a flag (C72_argument_refuted); the statement holds with these."
  },
  {
   "property": "C73",
   "status": "partial",
   "theorems": [
    "C73_lasting_partial",
    "C73_steady_partial",
    "C73_nil_time_refuted",
    "C73_epoch_refuted"
   ],
   "note": "Proved for every value that 'lasts' (C73_lasting_partial; independent predicate in SpecReencode.v) and for every value of supported types whose times are never part of something left out (C73_steady_partial). Refuted for nil pointers to times and for structs holding only the Unix epoch. Types outside of 'supported' are missing."
  },
  {
   "property": "C74",
   "status": "partial",
   "theorems": [
    "C74_accepts",
    "C74_returns_partial",
    "C74_nil_pointer_refuted",
    "C74_write_empty_refuted",
    "C74_endless_refuted"
   ],
   "note": "Acceptance is proved without restriction (C74_accepts, against the independent predicate writable). Returning without panic is proved for sturdy types and firm values (C74_returns_partial); it is refuted for nil pointers in interfaces, nil write_empty pointers and the endless type T []T."
  },
  {
   "property": "C75",
   "status": "partial",
   "theorems": [
    "C75_same_text_partial",
    "C75_steady_partial",
    "C75_empty_list_refuted",
    "C75_map_order_refuted",
    "C75_skipped_field_refuted",
    "C75_three_texts_refuted"
   ],
   "note": "Proved for every value that 'lasts' (C75_same_text_partial; independent predicate in SpecJsonAgain.v), and for every value without empty non-nil slices of supported types where omitempty is on no structs, arrays or types with methods and methods give values back (C75_steady_partial). Refuted for empty lists and for structs under omitempty whose only nonzero fields are not written. Map members are written in the order in which reflection lists the keys, which Go leaves open: the model keeps the order of its list, so for maps with two or more entries the theorems speak of runs that list them in the same order (C75_map_order_refuted). Floats cannot be read from JSON at all (C49)."
  },
  {
   "property": "C76",
   "status": "partial",
   "theorems": [
    "C76_accepts",
    "C76_returns_partial",
    "C76_nil_pointer_refuted",
    "C76_byte_array_refuted",
    "C76_endless_refuted"
   ],
   "note": "C76_accepts is unrestricted. That MarshalJSON returns is for types whose methods do not panic and whose MarshalAmino chains end, lists of byte kinds have element byte, no nil pointers in interfaces; refuted otherwise."
  },
  {
   "property": "C77",
   "status": "proved",
   "theorems": [
    "C77_admits",
    "C77_order",
    "C77_used_first_refuted"
   ],
   "note": "C77_admits and C77_order, with no restriction on the environment. With uses of the codec in between the order does matter (C77_used_first_refuted), as the statement says."
  },
  {
   "property": "C78",
   "status": "partial",
   "theorems": [
    "C78_binary_partial",
    "C78_json_partial",
    "C78_conflict_refuted",
    "C78_registered_refuted"
   ],
   "note": "Proved for added types that are not the one written or read itself and, in binary, whose prefixes do not collide with those of old types within an old interface (C78_binary_partial, C78_json_partial); refuted otherwise."
  },
  {
   "property": "C79",
   "status": "partial",
   "theorems": [
    "C79_same_bytes_partial",
    "C79_negative_zero_refuted",
    "C79_nil_list_refuted",
    "C79_through_binary_refuted"
   ],
   "note": "Proved (C79_same_bytes_partial) for supported types without maps, negative zeros, pointer fields under write_empty or pointers to arrays under omitempty; refuted for negative zeros and for pointer fields under write_empty."
  },
  {
   "property": "C80",
   "status": "partial",
   "theorems": [
    "C80_can_write_partial",
    "C80_targets_partial",
    "C80_empty_elements_refuted",
    "C80_floats_refuted"
   ],
   "note": "Proved (C80_can_write_partial, C80_targets_partial) for sturdy types without empty_elements and with floats only under unsafe, whose MarshalAmino accepts every value; targets not pointer variables. Refuted for arrays of struct pointers under empty_elements and for arrays of floats without unsafe."
  },
  {
   "property": "C81",
   "status": "partial",
   "theorems": [
    "C81_members_partial",
    "C81_field_by_field",
    "C81_omitempty_refuted",
    "C81_order_refuted"
   ],
   "note": "Proved (C81_members_partial, C81_field_by_field) for texts that agree member by member, with equal results unless the model runs out of fuel. Not covered: text for UnmarshalJSON methods, the order of map entries. Refuted for null under omitempty and for the order of members of one name."
  },
  {
   "property": "C82",
   "status": "proved",
   "theorems": [
    "C82_cut",
    "C82_more",
    "C82_boundaries",
    "C82_reader_cut",
    "C82_stream_partial",
    "C82_bare_refuted",
    "C82_eof_refuted"
   ],
   "note": "Proved for all messages, cuts, continuations and chunkings. C82_stream_partial inherits the limits of C21_stream_partial. C82_bare_refuted and C82_eof_refuted: the bare form has no such protection, and the error alone does not tell a cut from the end."
  },
  {
   "property": "C83",
   "status": "proved",
   "theorems": [
    "C83_reads",
    "C83_one_value",
    "C83_fuel",
    "C83_no_floats",
    "C83_written_partial",
    "C83_one_text_refuted"
   ],
   "note": "C83_reads is an equivalence, for texts without white space around them and targets of the right type; C83_one_value and C83_fuel follow. C83_written_partial inherits the limits of C49 and C50. C83_one_text_refuted: the converse, one text per value, is false."
  },
  {
   "property": "C84",
   "status": "proved",
   "theorems": [
    "C84_size_bounded",
    "C84_fresh_size",
    "C84_same_name_refuted"
   ],
   "note": "C84_size_bounded for all inputs, given different JSON names in each struct; C84_same_name_refuted: without that there is no bound, the growth is exponential."
  },
  {
   "property": "C85",
   "status": "partial",
   "theorems": [
    "C85_can_write_partial",
    "C85_targets_partial",
    "C85_floats_refuted",
    "C85_map_keys_refuted"
   ],
   "note": "C85_can_write_partial for sets of types closed under jsturdy and jechoes, pointer targets included; C85_targets_partial: new and re-used variables qualify. C85_floats_refuted and C85_map_keys_refuted: two of the kinds of types left out."
  },
  {
   "property": "C86",
   "status": "proved",
   "theorems": [
    "C86_marshal_size",
    "C86_json_size"
   ],
   "note": "Assumes MarshalAmino and MarshalJSON methods that do not blow up their receiver (repr_nogrow, json_short); in JSON, names of at most n characters (any n)."
  },
  {
   "property": "C87",
   "status": "partial",
   "theorems": [
    "C87_relay_partial",
    "C87_relay_length_prefixed_partial",
    "C87_hops_partial",
    "C87_absent_refuted",
    "C87_cut_entry_refuted",
    "C87_disambiguate_refuted"
   ],
   "note": "Proved (C87_relay_partial, C87_relay_length_prefixed_partial, C87_hops_partial) for the lean types of SpecLean.v and messages that are structs or lists of structs. Refuted for absent floats, arrays, pointers to times and write_empty fields, for lists of byte slices cut after a key, and for AlwaysDisambiguate."
  },
  {
   "property": "C88",
   "status": "partial",
   "theorems": [
    "C88_json_injective_partial",
    "C88_one_text_partial",
    "C88_invalid_utf8_refuted",
    "C88_nil_map_refuted"
   ],
   "note": "Proved (C88_json_injective_partial, C88_one_text_partial) for the supported types and values of C49. Refuted for strings that are not UTF-8 and for nil against empty maps."
  },
  {
   "property": "C89",
   "status": "proved",
   "theorems": [
    "C89_registry",
    "C89_marshal",
    "C89_unmarshal",
    "C89_json_refuted",
    "C89_hidden_refuted"
   ],
   "note": "Registration, Marshal and Unmarshal (bare and length-prefixed) give equal results, errors and panics included (C89_registry, C89_marshal, C89_unmarshal). C89_json_refuted and C89_hidden_refuted show what the exclusion of JSON and of hiding tags is for."
  },
  {
   "property": "C90",
   "status": "proved",
   "theorems": [
    "C90_registry",
    "C90_marshal_json",
    "C90_unmarshal_json",
    "C90_binary_refuted",
    "C90_unsafe_refuted"
   ],
   "note": "Registration, MarshalJSON, MarshalJSONIndent and UnmarshalJSON give equal results, errors and panics included (C90_registry, C90_marshal_json, C90_unmarshal_json). C90_binary_refuted and C90_unsafe_refuted show what the exclusion of the binary format and of unsafe is for."
  },
  {
   "property": "C91",
   "status": "partial",
   "theorems": [
    "C91_structs",
    "C91_slices",
    "C91_read_partial",
    "C91_order_refuted",
    "C91_registered_refuted"
   ],
   "note": "Writing is proved for all types (C91_structs, C91_slices: any unregistered struct type without methods). Reading back is proved for the supported types of C11. Messages in the wrong order and messages of registered types are refused: see the refuted theorems."
  },
  {
   "property": "C92",
   "status": "partial",
   "theorems": [
    "C92_registry",
    "C92_marshal",
    "C92_unmarshal",
    "C92_read_partial",
    "C92_int16_refuted",
    "C92_narrow_refuted"
   ],
   "note": "Registration and Marshal are equal for all programs and values (C92_registry, C92_marshal), Unmarshal for int/int64 and uint/uint64 (C92_unmarshal). Reading with other widths is proved for the supported types of C11 (C92_read_partial). The refuted theorems show where the claim ends."
  },
  {
   "property": "C93",
   "status": "partial",
   "theorems": [
    "C93_registry",
    "C93_marshal_json",
    "C93_unmarshal_json",
    "C93_read_partial",
    "C93_int32_refuted",
    "C93_narrow_refuted"
   ],
   "note": "Registration, MarshalJSON and MarshalJSONIndent are equal for all programs and values (C93_registry, C93_marshal_json), UnmarshalJSON for int/int64 and uint/uint64 (C93_unmarshal_json). Reading with other widths is proved for the supported types of C49 (C93_read_partial). The refuted theorems show where the claim ends."
  },
  {
   "property": "C94",
   "status": "proved",
   "theorems": [
    "C94_registry",
    "C94_marshal",
    "C94_unmarshal",
    "C94_marshal_json",
    "C94_unmarshal_json",
    "C94_json_method_refuted",
    "C94_registered_refuted"
   ],
   "note": "For all such programs and inputs. The refuted theorems show where the claim ends: MarshalJSON methods, and registered types outside of fields."
  },
  {
   "property": "C95",
   "status": "partial",
   "theorems": [
    "C95_lists",
    "C95_structs",
    "C95_read_partial",
    "C95_json",
    "C95_length_refuted",
    "C95_json_value_refuted"
   ],
   "note": "Written bytes and JSON texts agree for all types and contents (C95_lists, C95_structs, C95_json). Reading the other's messages is proved for the supported types of C11 (C95_read_partial). The refuted theorems show where the claim ends."
  },
  {
   "property": "C96",
   "status": "partial",
   "theorems": [
    "C96_pointers",
    "C96_read_partial",
    "C96_blank_refuted",
    "C96_list_refuted"
   ],
   "note": "Written bytes agree for all types and contents (C96_pointers). Reading the other's messages is proved for the supported types of C11 (C96_read_partial). The refuted theorems show where the claim ends."
  },
  {
   "property": "C97",
   "status": "partial",
   "theorems": [
    "C97_only_field",
    "C97_read_partial",
    "C97_read_alone_partial",
    "C97_strings_refuted"
   ],
   "note": "Written bytes agree for all such types and values (C97_only_field). Reading as a struct, and reading the struct's message as a list of structs alone, is proved for the supported types of C11 (C97_read_partial, C97_read_alone_partial). Lists of strings, of lists and of pointers are left out; for strings it is false (C97_strings_refuted)."
  },
  {
   "property": "C98",
   "status": "proved",
   "theorems": [
    "C98_marshal",
    "C98_unmarshal",
    "C98_length_prefixed",
    "C98_json",
    "C98_prefix",
    "C98_name",
    "C98_registered_refuted"
   ],
   "note": "Types with methods are not covered; C98_prefix and C98_name cover a registered type and one that is not."
  },
  {
   "property": "C99",
   "status": "partial",
   "theorems": [
    "C99_pointers",
    "C99_argument",
    "C99_read_partial",
    "C99_converse_refuted",
    "C99_receiver_refuted",
    "C99_omitempty_refuted"
   ],
   "note": "Written texts agree for all types and contents (C99_pointers). Reading them with pointers is proved for the supported types of C49 (C99_read_partial). The refuted theorems show where the claim ends: the converse, pointer receivers and omitempty."
  },
  {
   "property": "C100",
   "status": "proved",
   "theorems": [
    "C100_pointer",
    "C100_not_null",
    "C100_null",
    "C100_interface_refuted"
   ],
   "note": "Pointers to interfaces are excluded: UnmarshalJSON panics on them (C100_interface_refuted)."
  }
 ]
}