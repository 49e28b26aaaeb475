{
 "claims": [
  {
   "property": "C01",
   "status": "proved",
   "theorems": [
    "C01_zera_round_trip"
   ],
   "note": "Byte-level writer and reader, all Reader observations at every depth, every value within the format limits."
  },
  {
   "property": "C02",
   "status": "proved",
   "theorems": [
    "C02_zera_fails_exactly_on_limits"
   ],
   "note": "Exact size functions env_size_of / arena_size_of. A container with 2^58 or more elements may throw length_error from vector::reserve instead of SerializationError."
  },
  {
   "property": "C03",
   "status": "partial",
   "theorems": [
    "C03_zera_histories",
    "C03_zera_accepts_only_values",
    "C03_zera_accepts_all_values",
    "C03_caught_calls_lost_refuted"
   ],
   "note": "Proved: every history agrees with the stack machine of ZeraSpec.v; histories without exceptions are exactly the calls of one value. Refuted: after a caught exception accepted calls can be dropped from the message."
  },
  {
   "property": "C04",
   "status": "proved",
   "theorems": [
    "C04_zera_layout",
    "C04_zera_sizes"
   ],
   "note": ""
  },
  {
   "property": "C05",
   "status": "proved",
   "theorems": [
    "C05_zera_blobs_aligned"
   ],
   "note": "For every history, every reachable blob view."
  },
  {
   "property": "C06",
   "status": "partial",
   "theorems": [
    "C06_zera_reader_safe_partial",
    "C06_zera_key_iteration_safe_partial",
    "C06_zera_key_iteration_refuted",
    "C06_zera_big_buffer_refuted"
   ],
   "note": "Proved for buffers below 2^32-20 bytes, key iteration with 2 bytes of slack after the envelope; the remaining cases are false, with witnesses."
  },
  {
   "property": "C07",
   "status": "partial",
   "theorems": [
    "C07_zera_iteration_bounded",
    "C06_zera_reader_safe_partial",
    "C07_translate_cyclic_refuted"
   ],
   "note": "Reader operations terminate. translate refuted: a 48-byte cyclic buffer makes it recurse without bound."
  },
  {
   "property": "C08",
   "status": "partial",
   "theorems": [
    "C08_zera_accepts_valid_headers",
    "C08_zera_rejects_invalid_headers_partial",
    "C08_zera_tiny_envelope_refuted"
   ],
   "note": "env_size < 16 is accepted by the constructor (every accessor then throws)."
  },
  {
   "property": "C09",
   "status": "partial",
   "theorems": [
    "C09_zera_lookups_agree",
    "C09_zera_contains_and_subscript_partial",
    "C09_zera_contains_without_value_refuted",
    "C01_zera_round_trip"
   ],
   "note": "Full agreement for written messages and for every buffer whose key iteration completes; contains can be true where operator[] throws on a malformed buffer."
  },
  {
   "property": "C10",
   "status": "proved",
   "theorems": [
    "C10_zera_index_agrees",
    "C10_zera_index_aliases_refuted"
   ],
   "note": "The second theorem shows aliasing when arraySize() itself throws, which the property does not cover."
  },
  {
   "property": "C11",
   "status": "proved",
   "theorems": [
    "C11_zera_integers"
   ],
   "note": "Every buffer below 2^32-20 bytes."
  },
  {
   "property": "C12",
   "status": "proved",
   "theorems": [
    "C12_zera_threshold",
    "C12_zera_threshold_setter"
   ],
   "note": ""
  },
  {
   "property": "C13",
   "status": "partial",
   "theorems": [
    "C13_msgpack_round_trip_partial",
    "C13_msgpack_own_sign_exact",
    "C13_msgpack_round_trip_refuted"
   ],
   "note": "Proved for strings, blobs and keys shorter than 2^32-5 bytes and fewer than 2^32 elements; refuted for a string of 2^32-5 bytes inside an array (uint32 wrap in mp_skip)."
  },
  {
   "property": "C14",
   "status": "partial",
   "theorems": [
    "C14_msgpack_skip_exact_partial",
    "C14_msgpack_index_exact_partial",
    "C14_msgpack_key_exact_partial",
    "C14_msgpack_skip_exact_refuted"
   ],
   "note": "Proved for every well-formed object in every format, position and view, except str32/bin32 of 2^32-5 bytes and more, for which it is refuted."
  },
  {
   "property": "C15",
   "status": "partial",
   "theorems": [
    "C15_msgpack_ints_partial",
    "C15_msgpack_ints_refuted"
   ],
   "note": "Complete description of all accessors on all integer encodings; the claim is refuted for asInt* of values >= 2^63 and asUInt* of negative values, which wrap."
  },
  {
   "property": "C16",
   "status": "partial",
   "theorems": [
    "C16_msgpack_scalars_safe",
    "C16_msgpack_message_safe_partial",
    "C16_msgpack_element_safe_partial",
    "C16_msgpack_skippable_safe_partial",
    "C16_msgpack_safety_refuted"
   ],
   "note": "Refuted for string, blob and container operations on truncated input; proved for scalars everywhere, for well-formed messages, and for everything behind one successful operator[]."
  },
  {
   "property": "C17",
   "status": "partial",
   "theorems": [
    "C17_msgpack_skip_terminates",
    "C17_msgpack_skip_advances_partial",
    "C17_msgpack_skip_advances_refuted"
   ],
   "note": "Termination proved for all inputs; progress proved except for str32/bin32 with length 0xfffffffb, for which it is refuted."
  },
  {
   "property": "C18",
   "status": "partial",
   "theorems": [
    "C18_cbor_round_trip_partial",
    "C18_cbor_fails_exactly_on_limits",
    "C18_cbor_own_sign_exact",
    "C18_cbor_round_trip_refuted"
   ],
   "note": "Round trip proved for every value whose texts are UTF-8 and whose depth is at most 1024 (the jsoncons limits); the writer throws exactly outside. Integers observed through the accessor of the other sign wrap from 2^63 on (C23). Refuted: empty trailing strings on hardened builds, non-UTF-8 text, depth > 1024."
  },
  {
   "property": "C19",
   "status": "partial",
   "theorems": [
    "C19_cbor_skip_exact_partial",
    "C19_cbor_iterator_skip_exact",
    "C19_cbor_index_exact",
    "C19_cbor_key_exact",
    "C19_cbor_size_exact",
    "C19_cbor_skip_exact_refuted"
   ],
   "note": "Exact for every well-formed item except one-byte simple values (0xf8 n) in the member skip, which are refuted; the key iterator's skip is exact on all."
  },
  {
   "property": "C20",
   "status": "partial",
   "theorems": [
    "C20_cbor_scalars_safe",
    "C20_cbor_no_oob_partial",
    "C20_cbor_safe_partial",
    "C20_cbor_asDouble_exact",
    "C20_cbor_reader_unsafe_refuted",
    "C20_cbor_blob_vector_partial",
    "C20_cbor_blob_vector_refuted"
   ],
   "note": "Type tests, bool and integer accessors are safe on all bytes; asString, arraySize and operator[] never read out of bounds; asDouble is safe exactly when its payload is in the buffer. asDouble, asStringView, asBlob, contains and mapKeys are refuted on hostile buffers."
  },
  {
   "property": "C21",
   "status": "partial",
   "theorems": [
    "C21_cbor_terminates_partial",
    "C21_cbor_skip_advances_partial",
    "C21_cbor_terminates_refuted"
   ],
   "note": "Terminates on every buffer without a 64-bit string length of 2^63 or more; refuted with one."
  },
  {
   "property": "C22",
   "status": "partial",
   "theorems": [
    "C22_cbor_definite_keys_partial",
    "C22_cbor_contains_keys",
    "C22_cbor_indefinite_keys_refuted"
   ],
   "note": "mapKeys is exact on definite maps; on every indefinite map it throws. contains is exact on both."
  },
  {
   "property": "C23",
   "status": "partial",
   "theorems": [
    "C23_cbor_ints_partial",
    "C23_cbor_ints_refuted"
   ],
   "note": "All integer items and accessors except asInt of unsigned values from 2^63 on, which wrap (refuted)."
  },
  {
   "property": "C24",
   "status": "proved",
   "theorems": [
    "C24_cbor_half_exact"
   ],
   "note": ""
  },
  {
   "property": "C25",
   "status": "proved",
   "theorems": [
    "C25_base64_round_trip"
   ],
   "note": ""
  },
  {
   "property": "C26",
   "status": "proved",
   "theorems": [
    "C26_base64_is_rfc4648"
   ],
   "note": ""
  },
  {
   "property": "C27",
   "status": "proved",
   "theorems": [
    "C27_base64_decode"
   ],
   "note": "Also gives the decoded bytes exactly."
  },
  {
   "property": "C28",
   "status": "partial",
   "theorems": [
    "C28_json_round_trip_partial",
    "C28_json_outcome",
    "C28_json_any_text",
    "C28_json_round_trip_refuted"
   ],
   "note": "Round trip for all trees with finite doubles, UTF-8 texts and non-empty NUL-free keys; exact error for all others. The full claim is false: empty keys cannot be written and release builds cut keys at NUL."
  },
  {
   "property": "C29",
   "status": "partial",
   "theorems": [
    "C29_json_unambiguous_partial",
    "C29_json_isBlob_partial",
    "C29_json_isBlob_exact",
    "C29_json_unambiguous_refuted"
   ],
   "note": "Unambiguous on trees in which no array has the blob form; refuted by [\"~b\",\"\",\"base64\"]."
  },
  {
   "property": "C30",
   "status": "partial",
   "theorems": [
    "C30_json_ints_partial",
    "C30_json_ints_refuted"
   ],
   "note": "Exact when the integer fits the accessor's type; narrow accessors truncate and asInt64 wraps from 2^63 on (refuted)."
  },
  {
   "property": "C31",
   "status": "partial",
   "theorems": [
    "C31_json_values_accepted",
    "C31_json_accepted_are_prefixes_partial",
    "C31_json_finish_closes_partial",
    "C31_json_misuse_has_no_effect",
    "C31_json_misuse_reported_refuted"
   ],
   "note": "Every accepted sequence is a prefix of a well-formed one and misuse has no effect; finish() does not report open containers or dangling keys, key(\"\") counts as no key (refuted)."
  },
  {
   "property": "C32",
   "status": "proved",
   "theorems": [
    "C32_flex_lookup"
   ],
   "note": ""
  },
  {
   "property": "C33",
   "status": "proved",
   "theorems": [
    "C33_flex_round_trip",
    "C33_flex_serialize",
    "C33_in_key_order",
    "C33_flex_duplicate_keys_refuted"
   ],
   "note": "for every sorting function; the refuted theorem shows the key condition is needed; typed by flex_table (narrow accessors truncate, see C55)"
  },
  {
   "property": "C34",
   "status": "partial",
   "theorems": [
    "C34_translate_preserves_partial",
    "C34_translate_reserializes",
    "C34_json_array_refuted"
   ],
   "note": "All 25 pairs. Missing: CBOR and JSON sources with integers from 2^63 on, JSON sources with arrays shaped like an encoded blob; both refuted. C34_translate_reserializes covers arbitrary views and writers."
  },
  {
   "property": "C35",
   "status": "partial",
   "theorems": [
    "C35_translate_uint64_partial",
    "C35_cbor_json_uint64_refuted"
   ],
   "note": "Proved for ZERA, MessagePack and FlexBuffers sources into every destination; refuted for CBOR and JSON sources (every value from 2^63 on arrives negative)."
  },
  {
   "property": "C36",
   "status": "partial",
   "theorems": [
    "C36_translate_first_wins_partial",
    "C36_translate_repeated_keys_refuted"
   ],
   "note": "Refuted as stated: later values of a repeated key are replaced by the first one. Proved: all entries survive in order, each with the value of the first occurrence of its key."
  },
  {
   "property": "C37",
   "status": "proved",
   "theorems": [
    "C37_builders_emit_value",
    "C37_every_expression_has_value",
    "C37_build_round_trip",
    "C37_float_exact"
   ],
   "note": "Exceptions included: the writer state at the first throw is the one after the same prefix of calls. A user-defined overload must emit exactly one value; a char* must be terminated."
  },
  {
   "property": "C38",
   "status": "partial",
   "theorems": [
    "C38_dynamic_as_static",
    "C38_dynamic_calls",
    "C38_proxy_transparent",
    "C38_value_constructors_partial",
    "C38_unsigned_char_refuted"
   ],
   "note": "dyn::Value trees and the proxy: proved for every writer. Missing: construction of dyn::Value from plain char on platforms where char is unsigned, refuted."
  },
  {
   "property": "C39",
   "status": "partial",
   "theorems": [
    "C39_empty_is_null_partial",
    "C39_msgpack_empty_refuted"
   ],
   "note": "Refuted for MessagePack (empty buffer); proved for ZERA, CBOR, JSON, FlexBuffers."
  },
  {
   "property": "C40",
   "status": "partial",
   "theorems": [
    "C40_xtensor_round_trip_partial",
    "C40_fits",
    "C40_nested_partial",
    "C40_column_major_refuted",
    "C40_strided_view_refuted",
    "C40_hollow_refuted"
   ],
   "note": "Row-major containers, all protocols, top level and nested. Full statement is false for column-major containers, strided views and some tensors without elements (refuted)."
  },
  {
   "property": "C41",
   "status": "partial",
   "theorems": [
    "C41_owning_tensors",
    "C41_owning_matrices",
    "C41_tensor_views_partial",
    "C41_matrix_views_partial",
    "C41_views_refuted"
   ],
   "note": "Full for owning results. Views: product below 2^64; beyond that refuted by a 15-byte message."
  },
  {
   "property": "C42",
   "status": "proved",
   "theorems": [
    "C42_tensor_zero_copy",
    "C42_matrix_zero_copy"
   ],
   "note": ""
  },
  {
   "property": "C43",
   "status": "partial",
   "theorems": [
    "C43_tensor_shape_partial",
    "C43_matrix_shape",
    "C43_wide_shape_refuted"
   ],
   "note": "xtensor: exactly when all dimensions are below 2^32 (iff). Eigen: always."
  },
  {
   "property": "C44",
   "status": "partial",
   "theorems": [
    "C44_eigen_round_trip_partial",
    "C44_storage_order_refuted",
    "C44_xtensor_as_eigen_refuted"
   ],
   "note": "Same storage order on both sides; false otherwise (refuted)."
  },
  {
   "property": "C45",
   "status": "proved",
   "theorems": [
    "C45_released_exactly_once",
    "C45_nothing_leaks"
   ],
   "note": "Every history of constructions, moves, assignments (self-assignment included) and destructions over any number of buffers. Preconditions on the caller: a deleter comes with every non-null pointer, and a pointer still held by a buffer is not handed over again."
  },
  {
   "property": "C46",
   "status": "partial",
   "theorems": [
    "C46_contents_partial",
    "C46_moved_from_refuted"
   ],
   "note": "Proved for every history and every buffer not moved from: exactly the bytes given, readable through data()/size(). The full statement is false: a moved-from buffer that had adopted a pointer keeps its size with a null data()."
  },
  {
   "property": "C47",
   "status": "partial",
   "theorems": [
    "C47_null_pointer_partial",
    "C47_null_no_deleter_partial",
    "C47_valid_accepted",
    "C47_empty_deleter_refuted",
    "C47_wrapped_deleter_refuted"
   ],
   "note": "Null pointer with non-zero size is always rejected, valid constructions never. False for empty deleters: with a non-null uint8_t* the program terminates, with char*/void* the buffer is accepted and its destruction terminates."
  },
  {
   "property": "C48",
   "status": "proved",
   "theorems": [
    "C48_copies_faithful",
    "C48_copy_of_null",
    "C48_empty_iff"
   ],
   "note": "to_vector_copy and to_debug_string share one definition (they differ in the container type only)."
  },
  {
   "property": "C49",
   "status": "partial",
   "theorems": [
    "C49_hexdump_rows_partial",
    "C49_hexdump_empty",
    "C49_width_0_refuted"
   ],
   "note": "Every buffer and every non-zero width: ceil(size/width) rows, each with its offset, bytes and characters. Width 0 on a non-empty buffer never terminates (refuted)."
  },
  {
   "property": "C50",
   "status": "partial",
   "theorems": [
    "C50_moved_readers_partial",
    "C50_one_owner",
    "C50_nothing_leaks",
    "C50_dangling_iff",
    "C50_callers_bytes_kept",
    "C50_copy_refuted",
    "C50_own_element_refuted",
    "C50_self_move_refuted"
   ],
   "note": "Moving is safe in every history; no double free or leak; exact condition for dangling. False for copies of vector-based owners (the copy reads the source's bytes), for r = r[key], and for self-move-assignment."
  },
  {
   "property": "C51",
   "status": "partial",
   "theorems": [
    "C51_copying_protocols",
    "C51_json_reads_at_finish",
    "C51_json_partial",
    "C51_json_refuted"
   ],
   "note": "True of Zera, MessagePack, CBOR, FlexBuffers. JSON reads string() arguments in finish(): true only if they are left alone until then; refuted for changed, freed and null strings."
  },
  {
   "property": "C52",
   "status": "partial",
   "theorems": [
    "C52_base64_structure_refuted",
    "C52_base64_structure_partial"
   ],
   "note": "The rejection half is false of the code: truncated and non-canonical texts are accepted (\"Q\", \"QR==\"). The acceptance half is proved."
  },
  {
   "property": "C53",
   "status": "proved",
   "theorems": [
    "C53_msgpack_skip_sound"
   ],
   "note": ""
  },
  {
   "property": "C54",
   "status": "proved",
   "theorems": [
    "C54_cbor_single_exact"
   ],
   "note": ""
  },
  {
   "property": "C55",
   "status": "partial",
   "theorems": [
    "C55_flex_ints_partial",
    "C55_flex_ints_refuted"
   ],
   "note": "narrow accessors truncate"
  },
  {
   "property": "C56",
   "status": "partial",
   "theorems": [
    "C56_flex_misuse_partial",
    "C56_flex_misuse_refuted"
   ],
   "note": "unterminated containers and keys outside maps are accepted; UB with NDEBUG"
  },
  {
   "property": "C57",
   "status": "partial",
   "theorems": [
    "C57_flex_arrays_partial",
    "C57_flex_arrays_refuted"
   ],
   "note": "typed vectors read as empty arrays"
  },
  {
   "property": "C58",
   "status": "partial",
   "theorems": [
    "C58_element_type_partial",
    "C58_unsupported_types_refuted",
    "C58_json_codes_refuted",
    "C58_isTensor_throws_refuted"
   ],
   "note": "Types in the table; other types share one code, JSON truncates codes, isTensor may throw (refuted)."
  },
  {
   "property": "C59",
   "status": "partial",
   "theorems": [
    "C59_tensor_translates_partial",
    "C59_matrix_translates_partial",
    "C40_fits"
   ],
   "note": "All protocol pairs; same restrictions as C40 and C44."
  },
  {
   "property": "C60",
   "status": "partial",
   "theorems": [
    "C60_tensor_layer_safe",
    "C60_zera_steady_partial",
    "C60_json_steady",
    "C60_msgpack_steady_partial",
    "C60_cbor_steady_partial",
    "C60_flex_message_partial",
    "C60_flex_bytes_refuted"
   ],
   "note": "The tensor layer is safe over any reader; the readers are as safe as C06, C16 and C20 say. FlexBuffers: safe on bytes laid out as the format says, whoever wrote them; refuted on other bytes (offset out of the buffer)."
  },
  {
   "property": "C61",
   "status": "partial",
   "theorems": [
    "C61_variables",
    "C61_direct",
    "C61_stored_partial",
    "C61_stored_refuted",
    "C61_later_change_refuted"
   ],
   "note": "Direct use proved. Stored builders with living named arguments show their current values; stored builders with temporaries or dead arguments are UB (proved for all of them), and later changes are seen."
  },
  {
   "property": "C62",
   "status": "partial",
   "theorems": [
    "C62_json_released_iff_partial",
    "C62_json_leak_refuted"
   ],
   "note": "The document is released exactly when no call throws; a throwing call leaks it."
  },
  {
   "property": "C63",
   "status": "partial",
   "theorems": [
    "C63_msgpack_text",
    "C63_flex_text",
    "C63_zera_text",
    "C63_cbor_text_partial",
    "C63_cbor_map_with_array_refuted",
    "C63_cbor_text_refuted",
    "C63_escape_round_trip",
    "C63_msgpack_text_identifies_partial",
    "C63_flex_text_identifies_partial",
    "C63_blob_contents_refuted",
    "C63_json_text",
    "C63_flex_message_text",
    "C63_flex_bytes_text",
    "C63_flex_bytes_identify_partial"
   ],
   "note": "MessagePack, Flex and ZERA texts proved; CBOR only without nested arrays of other lengths, arrays below a map root and empty maps, refuted otherwise. Identification of the value proved for MessagePack and Flex without doubles. JSON: to_string of every node of every accepted document, compact and pretty, is a JSON text for that node (digits of doubles as in C84). FlexBuffers bytes: messages without doubles that print the same text hold alike values."
  },
  {
   "property": "C64",
   "status": "partial",
   "theorems": [
    "C64_zera_to_string_safe_partial",
    "C64_msgpack_to_string_safe_partial",
    "C64_cbor_to_string_safe_partial",
    "C64_to_string_overread_refuted",
    "C64_cbor_trailing_refuted",
    "C64_flex_partial",
    "C64_flex_refuted"
   ],
   "note": "Proved for every view of: ZERA buffers below 2^32-20 bytes; MessagePack messages that skip() accepts (no str32/bin32 of 2^32-5 bytes or more); CBOR messages that are one well-formed item (no library assertions). Refuted: malformed MessagePack and CBOR is read past the end, and so is well-formed CBOR with a byte after the item. FlexBuffers: proved for every value in bytes laid out as the format says without typed vectors; refuted for other bytes (read out of bounds; an array that contains itself is printed without end). JSON: to_string works on the document yyjson has accepted."
  },
  {
   "property": "C65",
   "status": "partial",
   "theorems": [
    "C65_zera_finish_again",
    "C65_zera_no_second_message",
    "C65_json_finish_again",
    "C65_msgpack_second_value_partial",
    "C65_cbor_second_value_partial",
    "C65_finish_again_empty_refuted",
    "C65_flex_second_value_refuted"
   ],
   "note": "Full for ZERA and JSON; second values for MessagePack and CBOR. Refuted: a second finish() of MessagePack, CBOR and Flex returns an empty buffer; Flex loses a second scalar."
  },
  {
   "property": "C66",
   "status": "proved",
   "theorems": [
    "C66_asFloat_everywhere",
    "C66_narrow_nearest",
    "C66_nearest_unique",
    "C66_narrow_infinite",
    "C66_narrow_nan",
    "C66_floats_round_trip",
    "C66_nans_round_trip"
   ],
   "note": "The conversion is the IEEE one in the default rounding mode (NarrowModel.v); values too large for a float, undefined behaviour in ISO C++, become infinite."
  },
  {
   "property": "C67",
   "status": "proved",
   "theorems": [
    "C67_zera_tensor_views",
    "C67_zera_matrix_views",
    "C67_sixteen",
    "C67_tensor_round_trip",
    "C67_matrix_round_trip"
   ],
   "note": "ZERA only (the README promises it for ZERA). Any history of writer calls, also after caught exceptions; any reachable view. The message base address is a parameter; alignment of the base is a hypothesis because the buffer is a std::vector<uint8_t>."
  },
  {
   "property": "C68",
   "status": "partial",
   "theorems": [
    "C68_zera",
    "C68_cbor",
    "C68_flex",
    "C68_msgpack_partial",
    "C68_json_partial",
    "C68_msgpack_empty_refuted",
    "C68_json_blob_refuted"
   ],
   "note": "Proved for all views of ZERA, CBOR, Flex and for non-empty MessagePack views and all JSON views. Full claim is false: on an empty MessagePack view asString, asBlob and arraySize read the first byte (refuted); a JSON blob is also an array (refuted, and shown to be the only overlap)."
  },
  {
   "property": "C69",
   "status": "partial",
   "theorems": [
    "C69_own_test_partial",
    "C69_msgpack_signed_refuted"
   ],
   "note": "All five protocols, every position. Full claim is false: MessagePack answers isInt() == false on every signed integer of 128 or more (refuted for all of them)."
  },
  {
   "property": "C70",
   "status": "partial",
   "theorems": [
    "C70_json",
    "C70_zera",
    "C70_msgpack_any_partial",
    "C70_msgpack_partial",
    "C70_cbor_partial",
    "C70_flex_any_partial",
    "C70_flex_ordered_partial",
    "C70_msgpack_truncated_refuted",
    "C70_cbor_simple_refuted",
    "C70_cbor_truncated_refuted",
    "C70_flex_unordered_refuted",
    "C70_flex_message_partial",
    "C70_flex_bytes_refuted"
   ],
   "note": "Exact for JSON and ZERA, for every view of MessagePack and CBOR messages that skip() accepts (CBOR: without byte 0xf8), and for FlexBuffers with ordered keys. Refuted: truncated MessagePack and CBOR values, CBOR two-byte simple values, FlexBuffers with unordered keys. FlexBuffers bytes: exact at every view of bytes laid out as the format says; refuted on bytes with unordered keys."
  },
  {
   "property": "C71",
   "status": "partial",
   "theorems": [
    "C71_json",
    "C71_flex",
    "C71_zera",
    "C71_msgpack_partial",
    "C71_cbor_partial",
    "C71_msgpack_above",
    "C71_cbor_above",
    "C71_msgpack_announced_refuted",
    "C71_cbor_announced_refuted",
    "C71_msgpack_truncated_refuted",
    "C71_flex_message_partial",
    "C71_flex_above",
    "C71_flex_announced_refuted"
   ],
   "note": "Exact for JSON, FlexBuffers, ZERA, and for every view of MessagePack and CBOR messages that skip() accepts; no index at or above arraySize() is accepted on any bytes. Refuted for messages that announce more elements than they hold and for truncated elements. FlexBuffers bytes: exact at every view of bytes laid out as the format says; refuted for announced sizes."
  },
  {
   "property": "C72",
   "status": "partial",
   "theorems": [
    "C72_zera",
    "C72_zera_thresholds",
    "C72_zera_histories",
    "C72_cbor",
    "C72_msgpack_partial",
    "C72_msgpack_refuted",
    "C72_json_partial",
    "C72_flex_partial"
   ],
   "note": "Full for ZERA and CBOR; MessagePack with strings, blobs and counts below 2^32. Refuted for MessagePack above: two values with strings of 4 GiB share one message. JSON: equal texts (not prefixes) come from values equal up to the signedness of non-negative integers, for values without arrays shaped like blobs. FlexBuffers: C72_flex_partial (values with room v < 2^61; bytes in front instead of after)."
  },
  {
   "property": "C73",
   "status": "partial",
   "theorems": [
    "C73_zera",
    "C73_msgpack_partial",
    "C73_cbor",
    "C73_json_white_space",
    "C73_json_partial",
    "C73_json_refuted",
    "C73_flex_refuted"
   ],
   "note": "Full for ZERA and CBOR; MessagePack with strings and blobs below 2^32-5 bytes (the bound of C13, refuted above it there). JSON: trailing white space does not matter; other bytes make the reader reject (witnesses proved), so the full statement is false there; after a number they may change it. FlexBuffers: refuted (the root is found from the end)."
  },
  {
   "property": "C74",
   "status": "partial",
   "theorems": [
    "C74_zera",
    "C74_msgpack_partial",
    "C74_cbor",
    "C74_zera_written",
    "C74_msgpack_written_partial",
    "C74_cbor_written",
    "C74_msgpack_refuted",
    "C74_json_partial",
    "C74_json_number_refuted",
    "C74_flex_refuted"
   ],
   "note": "Full for ZERA and CBOR; MessagePack when at least one byte arrived. Refuted for the empty prefix of MessagePack: type tests of an empty view answer false. Reads outside the buffer (UB) are the subject of C06, C16 and C20, not of this claim. JSON: every text cut short is rejected, except that a number cut short is another number (witness 12 read as 1). FlexBuffers: refuted (the root is found from the end)."
  },
  {
   "property": "C75",
   "status": "partial",
   "theorems": [
    "C75_json",
    "C75_msgpack",
    "C75_cbor_text_keys",
    "C75_cbor_written",
    "C75_cbor_partial",
    "C75_zera_partial",
    "C75_flex_partial",
    "C75_zera_refuted",
    "C75_flex_refuted",
    "C75_cbor_refuted"
   ],
   "note": "Full for JSON and MessagePack, and for CBOR maps whose keys are text strings of definite length (all written messages). Refuted otherwise, each with a short program: ZERA iterators point to the view mapKeys() was called on (range-for over rd[\"m\"].mapKeys() reads a destroyed view); FlexBuffers iterators point into the range object; CBOR string_views of chunked keys point into the iterator. With the corresponding rule (view, range kept alive; string_view read at once) proved for all programs."
  },
  {
   "property": "C76",
   "status": "proved",
   "theorems": [
    "C76_translate_says",
    "C76_says_one_thing",
    "C76_translate_copies",
    "C76_translate_shows"
   ],
   "note": "Any reader and writer for the first two; the third and fourth for the library's readers on arbitrary input (their results are proved to be in the range of their C++ types). 'The destination shows that value' has the destination's documented limits as hypothesis (p_ok), as in C34. JSON and FlexBuffers sources are covered as trees and as arbitrary bytes."
  },
  {
   "property": "C77",
   "status": "partial",
   "theorems": [
    "C77_msgpack_finishes",
    "C77_json_finishes",
    "C77_flex_finishes",
    "C77_cbor_finishes_partial",
    "C77_cbor_keys_refuted",
    "C77_zera_finishes_partial",
    "C77_zera_into_cbor_finishes",
    "C77_flex_cyclic_refuted",
    "C77_json_text_finishes"
   ],
   "note": "Full for MessagePack, JSON and FlexBuffers sources. CBOR: proved when no 64-bit argument has its top bit set; without that refuted by an 11-byte map on which the key iterator never advances. ZERA: proved when references point downhill and, into CBOR, for every message; in general refuted by C07_translate_cyclic_refuted. FlexBuffers bytes: refuted by a six-byte message that contains itself. JSON texts: proved for all bytes (C77_json_text_finishes)."
  },
  {
   "property": "C78",
   "status": "partial",
   "theorems": [
    "C78_into_cbor_bounded",
    "C78_msgpack_into_cbor_bounded",
    "C78_json_into_cbor_bounded",
    "C78_translate_depth_partial",
    "C78_msgpack_skip_partial",
    "C78_msgpack_depth_refuted",
    "C78_cbor_depth_refuted",
    "C78_json_depth_refuted"
   ],
   "note": "Into CBOR the bound is proved (1025, the encoder's own limit). Elsewhere the full statement is false: messages of d+1 bytes make mp_skip, cbor skip and translate nest d calls for every d. What is proved instead is the exact number of nested calls. JSON texts of 2d+4 bytes nest d calls as well."
  },
  {
   "property": "C79",
   "status": "partial",
   "theorems": [
    "C79_msgpack_nodes_partial",
    "C79_msgpack_weight_partial",
    "C79_cbor_weight_partial",
    "C79_msgpack_translate_partial",
    "C79_msgpack_repeated_keys_refuted",
    "C79_cbor_repeated_keys_refuted",
    "C79_zera_refuted",
    "C79_flex_written_partial",
    "C79_flex_keys_refuted",
    "C79_flex_shared_refuted",
    "C79_flex_endless_refuted",
    "C79_json_weight_partial",
    "C79_json_translate_partial",
    "C79_json_repeated_keys_refuted"
   ],
   "note": "Proved for MessagePack and CBOR messages without repeated keys. Otherwise the full statement is false: with repeated keys 6n+1 bytes copy to at least 2^n bytes, because translate looks every occurrence of a key up by name; a ZERA message of fewer than 36n+52 bytes copies to 2^(n+1)-1 bytes, because references may be shared. FlexBuffers: written messages are bigger than their value without the text of keys (equal keys are stored once, so with it the statement is false); other well-laid-out messages of 5n+8 bytes copy to 2^(n+2)-1 bytes, and six bytes describe an array that contains itself, whose copy never ends. JSON texts: at least as long as the value read is heavy if keys are distinct (C79_json_weight_partial); 15n+4 bytes with repeated keys copy to more than 2^n bytes."
  },
  {
   "property": "C80",
   "status": "partial",
   "theorems": [
    "C80_msgpack_read",
    "C80_msgpack_sound_partial",
    "C80_msgpack_widths",
    "C80_msgpack_truncated_refuted",
    "C80_zera",
    "C80_zera_unambiguous",
    "C80_zera_written",
    "C80_written",
    "C80_cbor_read_partial",
    "C80_cbor_widths_partial",
    "C80_cbor_large_refuted",
    "C80_cbor_chunked_refuted",
    "C80_cbor_indefinite_map_refuted",
    "C80_cbor_sound_refuted",
    "C80_cbor_sound_partial",
    "C80_cbor_repeated_key_refuted",
    "C80_cbor_large_length_refuted",
    "C80_json_partial",
    "C80_json_spellings_partial",
    "C80_json_large_refuted"
   ],
   "note": "Both directions for ZERA below 4 GiB. MessagePack: every encoding of the format is read correctly; conversely what is read is conforming if no map repeats a key (with repeated keys the full statement is false: a message whose last value is cut off is read as a value). CBOR: every encoding is read correctly except those for which this is false: integers from 2^63 on are read as negative ones, chunked strings and maps of indefinite length are not read, and the byte 0x1f, which is no item, is read as 0; items with one-byte simple values (0xf8) are left out (C19). Conversely what is read is what an item at the beginning of the message stands for, if no view reached is at a byte 0x1f or 0x3f, no key is repeated and no length is 2^63 or more; without each of these it is false (witnesses proved). JSON: both ways for all bytes against the RFC 8259 grammar, except texts with integers from 2^63 to 2^64-1, which are read as negative numbers (refuted for all of them). FlexBuffers: what the writer produces (C80_written) and what the format describes (C87_read_partial)."
  },
  {
   "property": "C81",
   "status": "partial",
   "theorems": [
    "C81_msgpack_calls_partial",
    "C81_cbor_calls",
    "C81_cbor_wrong_lengths_reported",
    "C81_misuse_unreported_refuted",
    "C81_long_lengths_refuted"
   ],
   "note": "The full statement is false of both writers. Proved instead: exactly which call sequences leave a buffer that is one MessagePack object (lengths below 2^32) or one CBOR item, and that the CBOR writer rejects every description of a value with a wrong length. Which misuse the CBOR encoder rejects is jsoncons' behaviour as modelled; C81_cbor_calls speaks of accepted sequences only."
  },
  {
   "property": "C82",
   "status": "partial",
   "theorems": [
    "C82_msgpack_shortest_partial",
    "C82_cbor_shortest_partial",
    "C82_msgpack_double_refuted",
    "C82_msgpack_repeated_key_refuted",
    "C82_cbor_refuted",
    "C82_cbor_nan_refuted",
    "C82_cbor_chunks_refuted"
   ],
   "note": "The full statement is false of both writers (narrow floats, repeated keys, indefinite lengths; witnesses proved). Proved for all values without those, against every encoding of the format."
  },
  {
   "property": "C83",
   "status": "partial",
   "theorems": [
    "C83_msgpack_string",
    "C83_msgpack_blob",
    "C83_msgpack_bool",
    "C83_msgpack_null",
    "C83_msgpack_double",
    "C83_msgpack_int_partial",
    "C83_msgpack_uint_partial",
    "C83_msgpack_numbers_refuted",
    "C83_cbor_string",
    "C83_cbor_string_view",
    "C83_cbor_blob",
    "C83_cbor_blob_vector",
    "C83_cbor_bool",
    "C83_cbor_null",
    "C83_cbor_double",
    "C83_cbor_int_partial",
    "C83_cbor_uint_partial",
    "C83_cbor_numbers_refuted",
    "C83_msgpack_inside_partial",
    "C83_msgpack_views_partial"
   ],
   "note": "Full equivalences for strings, blobs, booleans, null and doubles. For integers the full statement is false (64-bit wrap-around in both readers; CBOR takes the bytes 0x1f and 0x3f, which begin no item, for 0 and -1; witnesses proved); the equivalences proved list exactly those exceptions. MessagePack: equivalences for the message as a whole and, in messages below 4 GiB, for every view reached by operator[] (C83_msgpack_views_partial); above, for those views only that what is returned was found (C83_msgpack_inside_partial)."
  },
  {
   "property": "C84",
   "status": "partial",
   "theorems": [
    "C84_written_is_json",
    "C84_written_on_one_line",
    "C84_accepts_json",
    "C84_unambiguous",
    "C84_other_bytes_rejected",
    "C84_any_bytes",
    "C84_round_trip_partial"
   ],
   "note": "Grammar and parser proved equivalent for all byte strings. The digits yyjson prints for a double are a parameter: the theorems about written text assume that each double inside the value is printed as a number whose nearest double it is. yyjson itself is third-party code outside /repo: its documented behaviour is modelled. The round trip has the conditions of C28 (finite doubles, UTF-8, non-empty keys without NUL)."
  },
  {
   "property": "C85",
   "status": "proved",
   "theorems": [
    "C85_rounding_exists",
    "C85_rounding_unique",
    "C85_accepts_ieee_json",
    "C85_number_nearest",
    "C85_integer_exact",
    "C85_integer_nearest",
    "C85_doubles_spellable",
    "C85_written_is_ieee_json",
    "C85_round_trip_possible"
   ],
   "note": "Rounding stated over integers (units of 2^-1074), proved of SpecFloat's algorithms without real numbers. That yyjson's number reader is correctly rounding (its documented behaviour) is part of the model; which digits its writer chooses is a parameter, shown satisfiable for all finite doubles."
  },
  {
   "property": "C86",
   "status": "partial",
   "theorems": [
    "C86_histories_partial",
    "C86_outcomes",
    "C86_bytes",
    "C86_round_trip_partial",
    "C86_serialize_partial",
    "C86_size",
    "C86_size_value",
    "C86_translate_partial",
    "C86_arbitrary_bytes_refuted"
   ],
   "note": "Partial: messages of 2^62 bytes or more are not covered (C86_size bounds the size by the calls made). Builder and Reference of flatbuffers/flexbuffers.h (not in /repo) are modelled byte by byte after the published format and header. The last clause is the refuted theorem here and those of C73 and C74 for Flex."
  },
  {
   "property": "C87",
   "status": "partial",
   "theorems": [
    "C87_read_partial",
    "C87_written_partial",
    "C87_serialize_partial",
    "C87_one_value",
    "C87_typed_refuted"
   ],
   "note": "Partial: typed vectors are refuted (C87_typed_refuted); keys as values, vectors of strings or keys, fixed-length typed vectors and two-byte floats are not in the format description used (FlexBFormat.v); reading needs fewer than 2^63 bytes, writing fewer than 2^62."
  },
  {
   "property": "C88",
   "status": "partial",
   "theorems": [
    "C88_message_partial",
    "C88_serialize",
    "C88_identifies",
    "C88_far_refuted",
    "C88_typed_refuted",
    "C88_bytes_refuted"
   ],
   "note": "Partial: full for messages without out-of-line numbers and typed vectors, so for all messages of the Flex writer (room v < 2^61). Refuted otherwise: an out-of-line number is printed as <unknown>, a typed vector as empty. On an empty buffer it reads out of bounds; on an array that contains itself it does not end. The identification is for values without doubles."
  },
  {
   "property": "C89",
   "status": "partial",
   "theorems": [
    "C89_tensor_views_partial",
    "C89_tensors_partial",
    "C89_matrix_views_partial",
    "C89_matrices_partial",
    "C89_tensor_views_checked",
    "C89_tensors_checked",
    "C89_matrix_views_checked",
    "C89_matrices_checked",
    "C89_json_type_refuted",
    "C89_flex_type_refuted"
   ],
   "note": "Dimensions: all bytes in all five formats, exact. Element type: exact for MessagePack, CBOR and ZERA; JSON and FlexBuffers narrow without a check, so there it is the number in the message reduced to 32 bits (refuted for both by messages with 2^32 + 5). Stated through the 64-bit accessors; what they return for the bytes is C80 and C87."
  },
  {
   "property": "C90",
   "status": "partial",
   "theorems": [
    "C90_tensors_and_matrices_partial",
    "C90_views_partial",
    "C90_fixed_matrices_partial",
    "C90_fixed_views_partial",
    "C90_fixed_accepted_partial",
    "C90_column_major_refuted"
   ],
   "note": "Any reader. Acceptance, exceptions, dimensions, bytes and zero-copy information always; elements for row-major matrices and for single rows or columns. With column-major storage, the default of Eigen, the elements stand in the order of the bytes, hence at other places than in the tensor (refuted). Matrix types of fixed size: exceptions on messages asXTensor refuses are not compared, and a fixed matrix may be read where asXTensor fails to allocate."
  }
 ]
}
