{
 "claims": [
  {
   "property": "C01",
   "status": "proved",
   "theorems": [
    "C01_zigzag_lossless"
   ],
   "note": "32- and 64-bit; bijection and magnitude law."
  },
  {
   "property": "C02",
   "status": "proved",
   "theorems": [
    "C02_float_lossless"
   ],
   "note": ""
  },
  {
   "property": "C03",
   "status": "proved",
   "theorems": [
    "C03_interleave_transposes"
   ],
   "note": ""
  },
  {
   "property": "C04",
   "status": "proved",
   "theorems": [
    "C04_deinterleave_inverse",
    "C04_bad_sizes",
    "C04_bad_sizes_interleave"
   ],
   "note": ""
  },
  {
   "property": "C05",
   "status": "proved",
   "theorems": [
    "C05_interleave_panics_iff_empty",
    "C05_array_panics_iff_empty"
   ],
   "note": "The desired 'empty arrays are written' is false of the code; the exact panic condition is proved."
  },
  {
   "property": "C06",
   "status": "proved",
   "theorems": [
    "C06_value_roundtrip",
    "C06_stored_exact",
    "C06_stored_conditional"
   ],
   "note": ""
  },
  {
   "property": "C07",
   "status": "proved",
   "theorems": [
    "C07_value_size",
    "C07_array_size"
   ],
   "note": ""
  },
  {
   "property": "C08",
   "status": "proved",
   "theorems": [
    "C08_decode_total",
    "C08_decode_prefix_only"
   ],
   "note": ""
  },
  {
   "property": "C09",
   "status": "proved",
   "theorems": [
    "C09_truncation_rejected"
   ],
   "note": ""
  },
  {
   "property": "C10",
   "status": "proved",
   "theorems": [
    "C10_reference_roundtrip"
   ],
   "note": "Non-empty lists; the empty list panics (C05)."
  },
  {
   "property": "C11",
   "status": "proved",
   "theorems": [
    "C11_array_roundtrip"
   ],
   "note": "Non-empty arrays of non-optional type (see C05, C12)."
  },
  {
   "property": "C12",
   "status": "proved",
   "theorems": [
    "C12_optional_roundtrip",
    "C12_optional_interleaved_rejected",
    "C12_optional_interleaved_refuted"
   ],
   "note": "Holds for non-interleaved inner types; refuted for interleaved inner types."
  },
  {
   "property": "C13",
   "status": "proved",
   "theorems": [
    "C13_array_decode_cases",
    "C13_array_decode_panic_exact",
    "C13_other_types_never_panic"
   ],
   "note": "Never-panics is false for CFrame arrays; the exact panic condition is proved."
  },
  {
   "property": "C14",
   "status": "proved",
   "theorems": [
    "C14_payload_roundtrip"
   ],
   "note": "Property arrays: what C11/C12 store."
  },
  {
   "property": "C15",
   "status": "proved",
   "theorems": [
    "C15_framing_roundtrip",
    "C15_uncompressed_total"
   ],
   "note": "For any compressor satisfying `lossless`."
  },
  {
   "property": "C16",
   "status": "proved",
   "theorems": [
    "C16_file_roundtrip",
    "C16_encode_total"
   ],
   "note": "Decoder warnings equal encoder warnings."
  },
  {
   "property": "C17",
   "status": "proved",
   "theorems": [
    "C17_decode_total",
    "C17_every_byte_accounted"
   ],
   "note": "Includes the exact panic conditions."
  },
  {
   "property": "C18",
   "status": "proved",
   "theorems": [
    "C18_bad_header_rejected"
   ],
   "note": ""
  },
  {
   "property": "C19",
   "status": "proved",
   "theorems": [
    "C19_errored_chunk_kept",
    "C19_errored_chunk_contained"
   ],
   "note": ""
  },
  {
   "property": "C20",
   "status": "proved",
   "theorems": [
    "C20_decompress_layout",
    "C20_decompress_succeeds",
    "C20_decompress_decodes_same",
    "C20_decompress_idempotent"
   ],
   "note": "The 8 reserved header bytes are zeroed."
  },
  {
   "property": "C43",
   "status": "proved",
   "theorems": [
    "C43_stats",
    "C43_total_chunks_refuted",
    "C43_failed",
    "C43_decompress",
    "C43_decompress_failed",
    "C43_failed_witness"
   ],
   "note": "A failed decode leaves the header fields read so far and counts the chunks before the unreadable one. Chunks that fail to decode are not counted although the documentation says total."
  },
  {
   "property": "C41",
   "status": "proved",
   "theorems": [
    "C41_value_layout"
   ],
   "note": ""
  },
  {
   "property": "C42",
   "status": "proved",
   "theorems": [
    "C42_interleaved_layout",
    "C42_plain_layout",
    "C42_cframe_layout"
   ],
   "note": "Optional arrays are two such arrays in sequence (see C12)."
  },
  {
   "property": "C44",
   "status": "proved",
   "theorems": [
    "C44_payload_layout",
    "C44_signatures"
   ],
   "note": ""
  },
  {
   "property": "C45",
   "status": "proved",
   "theorems": [
    "C45_file_layout"
   ],
   "note": ""
  },
  {
   "property": "C31",
   "status": "proved",
   "theorems": [
    "C31_instance_copy",
    "C31_root_copy",
    "C31_disjoint",
    "C31_injective",
    "C31_metadata_always_dropped",
    "C31_cycle_hangs"
   ],
   "note": "Root.Copy drops Metadata; a font's CachedFaceId is not kept (C35). Hang only if the random source repeats itself."
  },
  {
   "property": "C32",
   "status": "proved",
   "theorems": [
    "C32_references",
    "C32_root_references",
    "C32_optional_refuted"
   ],
   "note": "False for references inside optional values (refuted)."
  },
  {
   "property": "C33",
   "status": "proved",
   "theorems": [
    "C33_references_unique",
    "C33_keeps",
    "C33_only_ref"
   ],
   "note": ""
  },
  {
   "property": "C34",
   "status": "proved",
   "theorems": [
    "C34_resolve",
    "C34_documentation_refuted"
   ],
   "note": "The documented result for empty references is wrong."
  },
  {
   "property": "C35",
   "status": "proved",
   "theorems": [
    "C35_copy_equal",
    "C35_font_refuted",
    "C35_copy_fresh"
   ],
   "note": "False exactly for fonts whose CachedFaceId differs from Family."
  },
  {
   "property": "C36",
   "status": "proved",
   "theorems": [
    "C36_type_names",
    "C36_new_value"
   ],
   "note": ""
  },
  {
   "property": "C37",
   "status": "proved",
   "theorems": [
    "C37_reference_text",
    "C37_reference_injective",
    "C37_random_bits",
    "C37_uniqueid_text",
    "C37_uniqueid_injective"
   ],
   "note": ""
  },
  {
   "property": "C38",
   "status": "proved",
   "theorems": [
    "C38_union",
    "C38_union_assoc",
    "C38_append_return",
    "C38_message",
    "C38_message_total",
    "C38_union_no_nil"
   ],
   "note": ""
  },
  {
   "property": "C24",
   "status": "proved",
   "theorems": [
    "C24_value_roundtrip",
    "C24_value_roundtrip_stored",
    "C24_not_convertible",
    "C24_type",
    "C24_well_formed",
    "C24_types",
    "C24_types_back",
    "C24_reencode"
   ],
   "note": "References, shared strings and optionals are handled by the tree level (C23)."
  },
  {
   "property": "C25",
   "status": "proved",
   "theorems": [
    "C25_table_is_rule",
    "C25_table_domain",
    "C25_entries_are_rotations",
    "C25_id_iff_rotation",
    "C25_lookups_agree",
    "C25_injective"
   ],
   "note": "Lookup ignores the signs of zeros."
  },
  {
   "property": "C46",
   "status": "proved",
   "theorems": [
    "C46_font_names"
   ],
   "note": ""
  },
  {
   "property": "C21",
   "status": "proved",
   "theorems": [
    "C21_numbering"
   ],
   "note": ""
  },
  {
   "property": "C22",
   "status": "proved",
   "theorems": [
    "C22_groups",
    "C22_order_independent",
    "C22_bytes_deterministic"
   ],
   "note": "The property and class order does not depend on map iteration; the META chunk's does (C27)."
  },
  {
   "property": "C23",
   "status": "proved",
   "theorems": [
    "C23_roundtrip",
    "C23_encode_total"
   ],
   "note": "For storable forests (those on which Encode does not panic, C47); references and shared strings inside optionals are lost; missing properties as in C28."
  },
  {
   "property": "C26",
   "status": "proved",
   "theorems": [
    "C26_shared_strings",
    "C26_index_decoded"
   ],
   "note": ""
  },
  {
   "property": "C27",
   "status": "proved",
   "theorems": [
    "C27_metadata_written",
    "C27_sorted_refuted",
    "C27_deterministic_refuted"
   ],
   "note": "Contents proved; sortedness and determinism refuted (comparator compares a key with a value)."
  },
  {
   "property": "C28",
   "status": "proved",
   "theorems": [
    "C28_missing",
    "C28_default_refuted"
   ],
   "note": "The desired default is refuted for references, shared strings and CFrames; what is written instead is proved."
  },
  {
   "property": "C39",
   "status": "proved",
   "theorems": [
    "C39_codec_warnings",
    "C39_warning_lost",
    "C39_encoder_silent"
   ],
   "note": "The codec reports every mixed-type property; Encoder.Encode drops the report (refuted)."
  },
  {
   "property": "C40",
   "status": "proved",
   "theorems": [
    "C40_no_unique_ids",
    "C40_place",
    "C40_optional_refuted"
   ],
   "note": "Refuted for optional UniqueId."
  },
  {
   "property": "C47",
   "status": "proved",
   "theorems": [
    "C47_encode_total",
    "C47_untyped_optional_panics",
    "C47_two_optionals_panic",
    "C47_nested_optional_panics",
    "C47_two_parents_panic",
    "C47_cycle_hangs",
    "C47_nil_child_panics"
   ],
   "note": "Refuted in general; total on storable forests."
  },
  {
   "property": "C29",
   "status": "proved",
   "theorems": [
    "C29_accepted",
    "C29_consistent_iff",
    "C29_panic_only",
    "C29_panic_refuted"
   ],
   "note": "Every file: accepted exactly when consistent; never-panics is refuted for optional columns with unreadable present cells, the only case."
  },
  {
   "property": "C30",
   "status": "proved",
   "theorems": [
    "C30_forest",
    "C30_cycle_refuted",
    "C30_forest_refuted",
    "C30_twice_refuted"
   ],
   "note": "Refuted in general (cycles and repeated children are accepted); a forest when each child has one link and none is its own ancestor."
  },
  {
   "property": "C48",
   "status": "proved",
   "theorems": [
    "C48_decoded"
   ],
   "note": ""
  },
  {
   "property": "C49",
   "status": "proved",
   "theorems": [
    "C49_encode_total",
    "C49_only_trees",
    "C49_nil_root_panics",
    "C49_cycle_never_ends"
   ],
   "note": "Total on storable forests; refuted for cycles and a nil root."
  },
  {
   "property": "C50",
   "status": "proved",
   "theorems": [
    "C50_roundtrip",
    "C50_kept"
   ],
   "note": "Assumes the contract of strconv (strconv_ok) and no hash collision among the shared strings of the tree."
  },
  {
   "property": "C51",
   "status": "proved",
   "theorems": [
    "C51_decode_total",
    "C51_no_font_no_panic",
    "C51_font_panics"
   ],
   "note": "Refuted for one shape of Font tag, the only case."
  },
  {
   "property": "C52",
   "status": "proved",
   "theorems": [
    "C52_text",
    "C53_cr_refuted"
   ],
   "note": "Exact condition; the general claim is refuted."
  },
  {
   "property": "C53",
   "status": "proved",
   "theorems": [
    "C53_kept",
    "C53_stable",
    "C53_double_refuted",
    "C53_range_refuted",
    "C53_ray_refuted",
    "C53_brickcolor_refuted",
    "C53_token_refuted",
    "C53_optional_refuted",
    "C53_font_refuted",
    "C53_injection_refuted"
   ],
   "note": "Stability of decimal text is for normal numbers."
  },
  {
   "property": "C54",
   "status": "proved",
   "theorems": [
    "C54_decode_forest"
   ],
   "note": ""
  },
  {
   "property": "C55",
   "status": "proved",
   "theorems": [
    "C55_discard",
    "C55_same_value",
    "C55_retained",
    "C55_component_refuted"
   ],
   "note": "The documented effect is refuted."
  },
  {
   "property": "C56",
   "status": "proved",
   "theorems": [
    "C56_map_order"
   ],
   "note": ""
  },
  {
   "property": "C57",
   "status": "proved",
   "theorems": [
    "C57_root",
    "C57_comment_refuted"
   ],
   "note": ""
  },
  {
   "property": "C58",
   "status": "proved",
   "theorems": [
    "C58_layout"
   ],
   "note": ""
  },
  {
   "property": "C59",
   "status": "proved",
   "theorems": [
    "C59_warnings"
   ],
   "note": ""
  },
  {
   "property": "C60",
   "status": "proved",
   "theorems": [
    "C60_file_warnings",
    "C60_decode_warnings",
    "C60_error_warnings"
   ],
   "note": ""
  },
  {
   "property": "C61",
   "status": "proved",
   "theorems": [
    "C61_decode_total",
    "C61_legacy"
   ],
   "note": ""
  },
  {
   "property": "C62",
   "status": "proved",
   "theorems": [
    "C62_values",
    "C62_round_trip",
    "C62_text"
   ],
   "note": "Instances without children; children are refuted (C63). Losses as stated."
  },
  {
   "property": "C63",
   "status": "proved",
   "theorems": [
    "C63_children",
    "C63_optional"
   ],
   "note": "The desired property is refuted."
  },
  {
   "property": "C64",
   "status": "proved",
   "theorems": [
    "C64_encode"
   ],
   "note": ""
  },
  {
   "property": "C65",
   "status": "proved",
   "theorems": [
    "C65_value",
    "C65_document"
   ],
   "note": "Never-panics is refuted; the exact condition is proved."
  },
  {
   "property": "C66",
   "status": "proved",
   "theorems": [
    "C66_order"
   ],
   "note": ""
  },
  {
   "property": "C67",
   "status": "proved",
   "theorems": [
    "C67_root",
    "C67_instance",
    "C67_values",
    "C67_others",
    "C67_order",
    "C67_builder"
   ],
   "note": ""
  },
  {
   "property": "C68",
   "status": "proved",
   "theorems": [
    "C68_documented",
    "C68_astray",
    "C68_astray_tree",
    "C68_split",
    "C68_wrong_type",
    "C68_groups_lost"
   ],
   "note": "The comment is refuted for the listed forms; Doubles that are NaN are not classified by C68_split."
  },
  {
   "property": "C69",
   "status": "proved",
   "theorems": [
    "C69_panic",
    "C69_root_panic",
    "C69_types",
    "C69_zero",
    "C69_not_zero"
   ],
   "note": "Wrong kinds in later fields give zero fields, not the zero value (C69_not_zero)."
  },
  {
   "property": "C70",
   "status": "proved",
   "theorems": [
    "C70_float",
    "C70_float_unique",
    "C70_exact",
    "C70_nan",
    "C70_integer",
    "C70_integer_total",
    "C70_integer_unique"
   ],
   "note": "Floats that do not fit an integer type: implementation-defined in Go, a parameter."
  },
  {
   "property": "C71",
   "status": "proved",
   "theorems": [
    "C71_from_string",
    "C71_string"
   ],
   "note": ""
  },
  {
   "property": "C72",
   "status": "proved",
   "theorems": [
    "C72_grammar",
    "C72_otherwise_error",
    "C72_unambiguous",
    "C72_end_irrelevant",
    "C72_decode",
    "C72_empty_tag_refuted",
    "C72_declaration_refuted",
    "C72_ampersand_refuted",
    "C72_single_quote_refuted",
    "C72_late_cdata_refuted",
    "C72_end_name_refuted",
    "C72_indent_refuted"
   ],
   "note": "The grammar is SpecXmlText; that it were XML is refuted."
  },
  {
   "property": "C73",
   "status": "proved",
   "theorems": [
    "C73_lines",
    "C73_decode_lines",
    "C73_eof",
    "C73_reader_error_refuted"
   ],
   "note": "That the reader's own errors were always reported is refuted."
  },
  {
   "property": "C74",
   "status": "proved",
   "theorems": [
    "C74_text",
    "C74_encode",
    "C74_printable",
    "C74_lines",
    "C74_section_refuted"
   ],
   "note": "A protected string with ]]> is written raw (refuted). To a writer that accepts everything."
  },
  {
   "property": "C75",
   "status": "proved",
   "theorems": [
    "C75_value",
    "C75_keep",
    "C75_zero",
    "C75_packed_color",
    "C75_color_unique",
    "C75_quotients",
    "C75_cut_refuted",
    "C75_uniqueid_refuted"
   ],
   "note": "means in SpecXmlRead.v says what each type's tag stands for; getValue returns exactly that. C75_zero leaves out PhysicalProperties and Font (whose parts become zero one by one) and Content with text (no value). base64 is the model of encoding/base64; ParseFloat is a parameter."
  },
  {
   "property": "C76",
   "status": "proved",
   "theorems": [
    "C76_contents",
    "C76_discard",
    "C76_shared_unique",
    "C76_property_unique"
   ],
   "note": "C76_contents is for both modes with the value of a tag as Decode reads it; C76_discard replaces that by the grammar of values of C75. C76_property_unique: the description fixes the value. C76_example shows a string written after a reference of the same name losing to it."
  },
  {
   "property": "C77",
   "status": "proved",
   "theorems": [
    "C77_complete",
    "C77_bad_chunk",
    "C77_every_writer",
    "C77_no_error",
    "C77_no_errors_refuted",
    "C77_offset",
    "C77_encode",
    "C77_encode_complete",
    "C77_encode_refused",
    "C77_encode_nil",
    "C77_decompress",
    "C77_decompress_complete",
    "C77_decompress_nil_refuted"
   ],
   "note": "The Offset of the DataError is shown to count payloads twice (exact formula), a writer returning an empty errors.Errors is reported as success, Decompress panics on a nil writer."
  },
  {
   "property": "C78",
   "status": "proved",
   "theorems": [
    "C78_document",
    "C78_encode",
    "C78_no_error",
    "C78_complete",
    "C78_same"
   ],
   "note": "bufio.Writer is modelled (4096 bytes, sticky error); the writer is not itself a *bufio.Writer and not nil (nil panics)."
  },
  {
   "property": "C79",
   "status": "proved",
   "theorems": [
    "C79_decode",
    "C79_decompress",
    "C79_pieces",
    "C79_not_lost"
   ],
   "note": "C79_decode and C79_decompress tie the decoder over readers to the one over byte strings used everywhere else"
  },
  {
   "property": "C80",
   "status": "proved",
   "theorems": [
    "C80_values",
    "C80_example"
   ],
   "note": "which values are read at all is C65; numbers that do not fit the integer type are left to the Go implementation"
  },
  {
   "property": "C81",
   "status": "proved",
   "theorems": [
    "C81_document",
    "C81_example",
    "C81_duplicates_refuted"
   ],
   "note": "documents with child instances panic (C63), so there are none here"
  },
  {
   "property": "C82",
   "status": "proved",
   "theorems": [
    "C82_dumped",
    "C82_dump_panics",
    "C82_same_errors",
    "C82_only_readable",
    "C82_plain_dumped",
    "C82_panic_refuted"
   ],
   "note": "C82_panic_refuted is the file that Decode accepts and Dump panics on. inner_fine: the partly read chunk inside an errored chunk is any chunk whose dump does not panic."
  },
  {
   "property": "C83",
   "status": "proved",
   "theorems": [
    "C83_bytes_layout",
    "C83_rows",
    "C83_bytes_unambiguous"
   ],
   "note": ""
  },
  {
   "property": "C84",
   "status": "proved",
   "theorems": [
    "C84_string_unambiguous",
    "C84_one_line",
    "C84_plain_text",
    "C84_not_graphic"
   ],
   "note": "strconv.Quote is modelled over an arbitrary IsPrint table; one line assumes that the table has no control characters."
  },
  {
   "property": "C85",
   "status": "proved",
   "theorems": [
    "C85_unambiguous",
    "C85_nested_refuted"
   ],
   "note": "float_text is what strconv guarantees for the shortest text of a float; some_float_text shows it can be met."
  },
  {
   "property": "C86",
   "status": "proved",
   "theorems": [
    "C86_labels",
    "C86_udim2",
    "C86_labels_refuted",
    "C86_utf8_refuted"
   ],
   "note": "The refuted theorems are the findings."
  },
  {
   "property": "C87",
   "status": "proved",
   "theorems": [
    "C87_layout",
    "C87_reference",
    "C87_integers"
   ],
   "note": "The text of floating point numbers is a parameter (strconv); joinstr is modelled as the copying loop and proved to concatenate."
  },
  {
   "property": "C88",
   "status": "proved",
   "theorems": [
    "C88_same_text",
    "C88_lost"
   ],
   "note": "Under the documented promise of strconv.FormatFloat(f, 'f', -1, bits): decimal text that reads back as the same number (`prints`); shortest_prints shows a function that keeps it for both sizes, by exact rational arithmetic."
  },
  {
   "property": "C89",
   "status": "proved",
   "theorems": [
    "C89_counts",
    "C89_totals"
   ],
   "note": ""
  },
  {
   "property": "C90",
   "status": "proved",
   "theorems": [
    "C90_largest"
   ],
   "note": ""
  },
  {
   "property": "C91",
   "status": "proved",
   "theorems": [
    "C91_no_root",
    "C91_decoded",
    "C91_decoded_xml",
    "C91_cycle_refuted"
   ],
   "note": "The claim for all files is refuted by C91_cycle_refuted (finding 32)."
  },
  {
   "property": "C92",
   "status": "proved",
   "theorems": [
    "C92_printed",
    "C92_error_refuted"
   ],
   "note": "Printing of errors is refuted by C92_error_refuted (finding 33)."
  },
  {
   "property": "C93",
   "status": "proved",
   "theorems": [
    "C93_layout"
   ],
   "note": "Values inside columns are `dump_value`, characterised by C86; strings and bytes by C83, C84. The lines of an optional column are indented one level too deep, with the closing brace one level too deep (as in the code). The part of an errored chunk that was read is `partial_of` (RbxlPartial), a model of what the Decode methods leave behind."
  },
  {
   "property": "C94",
   "status": "proved",
   "theorems": [
    "C94_panics",
    "C94_text",
    "C94_witness"
   ],
   "note": "Strengthens C82, where errored chunks are left open. C94_witness: a file whose only optional of an optional is in an errored chunk, on which Dump panics."
  },
  {
   "property": "C95",
   "status": "proved",
   "theorems": [
    "C95_errored",
    "C95_begun",
    "C95_column",
    "C95_cframes",
    "C95_meta",
    "C95_shared",
    "C95_witness",
    "C95_column_witness",
    "C95_cframes_witness",
    "C95_meta_witness"
   ],
   "note": "C95_begun is about columns stored in sequence and optionals of them, C95_column about all plain columns except CFrames, C95_cframes about columns of CFrames (spare capacity of a slice is taken to be zero bytes). Of optionals of interleaved columns and of CFrames only the chunk's id and name are claimed here, and their size in C94."
  },
  {
   "property": "C96",
   "status": "proved",
   "theorems": [
    "C96_mixed",
    "C96_tree",
    "C96_no_numbers",
    "C96_covers",
    "C96_usable",
    "C96_witness"
   ],
   "note": "The documentation (declare.go:186-298) says that the zero value is given when the values cannot be asserted; C69_not_zero and C96_no_numbers show that this is false. Floats that do not fit an integer field and NaN of the other size are not covered (implementation-dependent in Go)."
  },
  {
   "property": "C97",
   "status": "proved",
   "theorems": [
    "C97_rotation",
    "C97_exact",
    "C97_compiled",
    "C97_decoded"
   ],
   "note": "Expression trees of the nine expressions with every operation rounded or fused; the rotation is specified by quaternion multiplication (SpecQuat.v). C97_compiled: the hypothesis on the compiled code is met by the unfused evaluation."
  },
  {
   "property": "C98",
   "status": "proved",
   "theorems": [
    "C98_decode",
    "C98_functional",
    "C98_reader",
    "C98_reads_base64",
    "C98_padding_last",
    "C98_short",
    "C98_written",
    "C98_boundary_refuted",
    "C98_witness"
   ],
   "note": "Finding: padding at the end of a decoder buffer followed by more text is accepted (C98_boundary_refuted). SpecBase64.base64 is also what C75, C76 and C80 mean by base64."
  },
  {
   "property": "C99",
   "status": "proved",
   "theorems": [
    "C99_resave",
    "C99_same_tree",
    "C99_cycles",
    "C99_metadata",
    "C99_chunks",
    "C99_metadata_refuted"
   ],
   "note": "hypotheses as in C23 (witness C99_witness: a tree with a mixed column, references, shared strings, an optional and filled-in defaults; the second encoding ranges over maps backwards). Equality of files needs at most one metadata entry: C99_metadata is what holds in general, C99_metadata_refuted shows that more is false."
  },
  {
   "property": "C100",
   "status": "proved",
   "theorems": [
    "C100_resave",
    "C100_same_tree",
    "C100_resaved",
    "C100_cycles",
    "C100_settles",
    "C100_outside_refuted",
    "C100_noref_refuted",
    "C100_values_refuted"
   ],
   "note": "hypotheses as in C49 and C50 plus text_tree (SpecXmlResave.v): the values whose text is kept, which is more than the values that are kept (C53). Witness C100_witness: a ray, a brick color, a NaN, a double of 16 digits, references in both directions, a shared string, two metadata entries. Optionals that hold anything but a coordinate frame are left out (their text is kept too in the cases tried). The refutations show that the other hypotheses matter. C100_same_tree: the loaded tree is written as the original tree would be under any options that write referents (and metadata only if it was in the file). C100_settles needs none of these: any storable tree (C49), with numbers that are not denormal where digits are cut off, has settled after one save and load (witness C100_settles_witness: a tree whose text changes at first)."
  },
  {
   "property": "C101",
   "status": "proved",
   "theorems": [
    "C101_to_xml",
    "C101_to_binary",
    "C101_binary_refuted"
   ],
   "note": "hypotheses of C23 and C49/C50 plus both_formats and plain_binary (SpecConvert.v); the result, converted, uses the binary format's written_prop, carried and filled with respect to the original tree. Witness C101_witness: two classes, missing and mixed properties, references, shared, protected and binary strings, an optional frame, a unique id. C101_binary_refuted: the order of the formats matters for carriage returns in binary strings."
  },
  {
   "property": "C102",
   "status": "proved",
   "theorems": [
    "C102_same_chunks",
    "C102_same_bytes",
    "C102_copy",
    "C102_font_refuted",
    "C102_metadata_refuted"
   ],
   "note": "Closed under the global context. Same-tree is a relation on two heaps with a correspondence phi (SpecSame.v); properties are compared as maps. No bounds, no assumption about the values. Fonts with another cached face and two metadata entries are the exceptions, shown by refutations."
  },
  {
   "property": "C103",
   "status": "proved",
   "theorems": [
    "C103_run",
    "C103_same_file",
    "C103_untouched",
    "C103_dcomp",
    "C103_dump",
    "C103_in_place_refuted",
    "C103_status_refuted"
   ],
   "note": "C103_run: any command with these arguments and its own work. In place: the file is lost (finding 41). Reading and writing open files do not fail in the model."
  },
  {
   "property": "C104",
   "status": "proved",
   "theorems": [
    "C104_xml_keeps_bytes",
    "C104_binary_xml_binary",
    "C104_service_refuted"
   ],
   "note": "Without services; C104_service_refuted is a tree with a service whose file changes (finding 42)."
  },
  {
   "property": "C105",
   "status": "proved",
   "theorems": [
    "C105_wraps",
    "C105_total",
    "C105_panics",
    "C105_nil_cause_refuted",
    "C105_decode_text",
    "C105_warning_lines",
    "C105_chunk",
    "C105_signature",
    "C105_place",
    "C105_encode_refuted",
    "C105_encode_text"
   ],
   "note": "The text of the lz4 library's error is a parameter; strconv.IsPrint a table that excludes control characters. Files in the XML format are left out."
  }
 ]
}