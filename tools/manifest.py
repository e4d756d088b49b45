import json,sys
C=[
("C01","proved",["C01_zigzag_lossless"],"32- and 64-bit; bijection and magnitude law."),
("C02","proved",["C02_float_lossless"],""),
("C03","proved",["C03_interleave_transposes"],""),
("C04","proved",["C04_deinterleave_inverse","C04_bad_sizes","C04_bad_sizes_interleave"],""),
("C05","proved",["C05_interleave_panics_iff_empty","C05_array_panics_iff_empty"],"The desired 'empty arrays are written' is false of the code; the exact panic condition is proved."),
("C06","proved",["C06_value_roundtrip","C06_stored_exact","C06_stored_conditional"],""),
("C07","proved",["C07_value_size","C07_array_size"],""),
("C08","proved",["C08_decode_total","C08_decode_prefix_only"],""),
("C09","proved",["C09_truncation_rejected"],""),
("C10","proved",["C10_reference_roundtrip"],"Non-empty lists; the empty list panics (C05)."),
("C11","proved",["C11_array_roundtrip"],"Non-empty arrays of non-optional type (see C05, C12)."),
("C12","proved",["C12_optional_roundtrip","C12_optional_interleaved_rejected","C12_optional_interleaved_refuted"],"Holds for non-interleaved inner types; refuted for interleaved inner types."),
("C13","proved",["C13_array_decode_cases","C13_array_decode_panic_exact","C13_other_types_never_panic"],"Never-panics is false for CFrame arrays; the exact panic condition is proved."),
("C14","proved",["C14_payload_roundtrip"],"Property arrays: what C11/C12 store."),
("C15","proved",["C15_framing_roundtrip","C15_uncompressed_total"],"For any compressor satisfying `lossless`."),
("C16","proved",["C16_file_roundtrip","C16_encode_total"],"Decoder warnings equal encoder warnings."),
("C17","proved",["C17_decode_total","C17_every_byte_accounted"],"Includes the exact panic conditions."),
("C18","proved",["C18_bad_header_rejected"],""),
("C19","proved",["C19_errored_chunk_kept","C19_errored_chunk_contained"],""),
("C20","proved",["C20_decompress_layout","C20_decompress_succeeds","C20_decompress_decodes_same","C20_decompress_idempotent"],"The 8 reserved header bytes are zeroed."),
("C43","proved",["C43_stats","C43_total_chunks_refuted","C43_failed","C43_decompress","C43_decompress_failed","C43_failed_witness"],"A failed decode leaves the header fields read so far and counts the chunks before the unreadable one. Chunks that fail to decode are not counted although the documentation says total."),
("C41","proved",["C41_value_layout"],""),
("C42","proved",["C42_interleaved_layout","C42_plain_layout","C42_cframe_layout"],"Optional arrays are two such arrays in sequence (see C12)."),
("C44","proved",["C44_payload_layout","C44_signatures"],""),
("C45","proved",["C45_file_layout"],""),
("C31","proved",["C31_instance_copy","C31_root_copy","C31_disjoint","C31_injective","C31_metadata_always_dropped","C31_cycle_hangs"],"Root.Copy drops Metadata; a font's CachedFaceId is not kept (C35). Hang only if the random source repeats itself."),
("C32","proved",["C32_references","C32_root_references","C32_optional_refuted"],"False for references inside optional values (refuted)."),
("C33","proved",["C33_references_unique","C33_keeps","C33_only_ref"],""),
("C34","proved",["C34_resolve","C34_documentation_refuted"],"The documented result for empty references is wrong."),
("C35","proved",["C35_copy_equal","C35_font_refuted","C35_copy_fresh"],"False exactly for fonts whose CachedFaceId differs from Family."),
("C36","proved",["C36_type_names","C36_new_value"],""),
("C37","proved",["C37_reference_text","C37_reference_injective","C37_random_bits","C37_uniqueid_text","C37_uniqueid_injective"],""),
("C38","proved",["C38_union","C38_union_assoc","C38_append_return","C38_message","C38_message_total","C38_union_no_nil"],""),
("C24","proved",["C24_value_roundtrip","C24_value_roundtrip_stored","C24_not_convertible","C24_type","C24_well_formed","C24_types","C24_types_back","C24_reencode"],"References, shared strings and optionals are handled by the tree level (C23)."),
("C25","proved",["C25_table_is_rule","C25_table_domain","C25_entries_are_rotations","C25_id_iff_rotation","C25_lookups_agree","C25_injective"],"Lookup ignores the signs of zeros."),
("C46","proved",["C46_font_names"],""),
("C21","proved",["C21_numbering"],""),
("C22","proved",["C22_groups","C22_order_independent","C22_bytes_deterministic"],"The property and class order does not depend on map iteration; the META chunk's does (C27)."),
("C23","proved",["C23_roundtrip","C23_encode_total"],"For storable forests (those on which Encode does not panic, C47); references and shared strings inside optionals are lost; missing properties as in C28."),
("C26","proved",["C26_shared_strings","C26_index_decoded"],""),
("C27","proved",["C27_metadata_written","C27_sorted_refuted","C27_deterministic_refuted"],"Contents proved; sortedness and determinism refuted (comparator compares a key with a value)."),
("C28","proved",["C28_missing","C28_default_refuted"],"The desired default is refuted for references, shared strings and CFrames; what is written instead is proved."),
("C39","proved",["C39_codec_warnings","C39_warning_lost","C39_encoder_silent"],"The codec reports every mixed-type property; Encoder.Encode drops the report (refuted)."),
("C40","proved",["C40_no_unique_ids","C40_place","C40_optional_refuted"],"Refuted for optional UniqueId."),
("C47","proved",["C47_encode_total","C47_untyped_optional_panics","C47_two_optionals_panic","C47_nested_optional_panics","C47_two_parents_panic","C47_cycle_hangs","C47_nil_child_panics"],"Refuted in general; total on storable forests."),
("C29","proved",["C29_accepted","C29_consistent_iff","C29_panic_only","C29_panic_refuted"],"Every file: accepted exactly when consistent; never-panics is refuted for optional columns with unreadable present cells, the only case."),
("C30","proved",["C30_forest","C30_cycle_refuted","C30_forest_refuted","C30_twice_refuted"],"Refuted in general (cycles and repeated children are accepted); a forest when each child has one link and none is its own ancestor."),
("C48","proved",["C48_decoded"],""),
("C49","proved",["C49_encode_total","C49_only_trees","C49_nil_root_panics","C49_cycle_never_ends"],"Total on storable forests; refuted for cycles and a nil root."),
("C50","proved",["C50_roundtrip","C50_kept"],"Assumes the contract of strconv (strconv_ok) and no hash collision among the shared strings of the tree."),
("C51","proved",["C51_decode_total","C51_no_font_no_panic","C51_font_panics"],"Refuted for one shape of Font tag, the only case."),
("C52","proved",["C52_text","C53_cr_refuted"],"Exact condition; the general claim is refuted."),
("C53","proved",["C53_kept","C53_stable","C53_double_refuted","C53_range_refuted","C53_ray_refuted","C53_brickcolor_refuted","C53_token_refuted","C53_optional_refuted","C53_font_refuted","C53_injection_refuted"],"Stability of decimal text is for normal numbers."),
("C54","proved",["C54_decode_forest"],""),
("C55","proved",["C55_discard","C55_same_value","C55_retained","C55_component_refuted"],"The documented effect is refuted."),
("C56","proved",["C56_map_order"],""),
("C57","proved",["C57_root","C57_comment_refuted"],""),
("C58","proved",["C58_layout"],""),
("C59","proved",["C59_warnings"],""),
("C60","proved",["C60_file_warnings","C60_decode_warnings","C60_error_warnings"],""),
("C61","proved",["C61_decode_total","C61_legacy"],""),
("C62","proved",["C62_values","C62_round_trip","C62_text"],"Instances without children; children are refuted (C63). Losses as stated."),
("C63","proved",["C63_children","C63_optional"],"The desired property is refuted."),
("C64","proved",["C64_encode"],""),
("C65","proved",["C65_value","C65_document"],"Never-panics is refuted; the exact condition is proved."),
("C66","proved",["C66_order"],""),
("C67","proved",["C67_root","C67_instance","C67_values","C67_others","C67_order","C67_builder"],""),
("C68","proved",["C68_documented","C68_astray","C68_astray_tree","C68_split","C68_wrong_type","C68_groups_lost"],"The comment is refuted for the listed forms; Doubles that are NaN are not classified by C68_split."),
("C69","proved",["C69_panic","C69_root_panic","C69_types","C69_zero","C69_not_zero"],"Wrong kinds in later fields give zero fields, not the zero value (C69_not_zero)."),
("C70","proved",["C70_float","C70_float_unique","C70_exact","C70_nan","C70_integer","C70_integer_total","C70_integer_unique"],"Floats that do not fit an integer type: implementation-defined in Go, a parameter."),
("C71","proved",["C71_from_string","C71_string"],""),
("C72","proved",["C72_grammar","C72_otherwise_error","C72_unambiguous","C72_end_irrelevant","C72_decode","C72_empty_tag_refuted","C72_declaration_refuted","C72_ampersand_refuted","C72_single_quote_refuted","C72_late_cdata_refuted","C72_end_name_refuted","C72_indent_refuted"],"The grammar is SpecXmlText; that it were XML is refuted."),
("C73","proved",["C73_lines","C73_decode_lines","C73_eof","C73_reader_error_refuted"],"That the reader's own errors were always reported is refuted."),
("C74","proved",["C74_text", "C74_encode", "C74_printable","C74_lines", "C74_section_refuted"],"A protected string with ]]> is written raw (refuted). To a writer that accepts everything."),
("C75","proved",["C75_value", "C75_keep", "C75_zero", "C75_packed_color", "C75_color_unique", "C75_quotients", "C75_cut_refuted", "C75_uniqueid_refuted"],"means in SpecXmlRead.v says what each type's tag stands for; getValue returns exactly that. C75_zero leaves out PhysicalProperties and Font (whose parts become zero one by one) and Content with text (no value). base64 is the model of encoding/base64; ParseFloat is a parameter."),
("C76","proved",["C76_contents", "C76_discard", "C76_shared_unique", "C76_property_unique"],"C76_contents is for both modes with the value of a tag as Decode reads it; C76_discard replaces that by the grammar of values of C75. C76_property_unique: the description fixes the value. C76_example shows a string written after a reference of the same name losing to it."),
("C77","proved",["C77_complete", "C77_bad_chunk", "C77_every_writer", "C77_no_error", "C77_no_errors_refuted", "C77_offset", "C77_encode", "C77_encode_complete", "C77_encode_refused", "C77_encode_nil", "C77_decompress", "C77_decompress_complete", "C77_decompress_nil_refuted"],"The Offset of the DataError is shown to count payloads twice (exact formula), a writer returning an empty errors.Errors is reported as success, Decompress panics on a nil writer."),
("C78","proved",["C78_document", "C78_encode", "C78_no_error", "C78_complete", "C78_same"],"bufio.Writer is modelled (4096 bytes, sticky error); the writer is not itself a *bufio.Writer and not nil (nil panics)."),
("C79","proved",["C79_decode", "C79_decompress", "C79_pieces", "C79_not_lost"],"C79_decode and C79_decompress tie the decoder over readers to the one over byte strings used everywhere else"),
("C80","proved",["C80_values", "C80_example"],"which values are read at all is C65; numbers that do not fit the integer type are left to the Go implementation"),
("C81","proved",["C81_document", "C81_example", "C81_duplicates_refuted"],"documents with child instances panic (C63), so there are none here"),
("C82","proved",["C82_dumped", "C82_dump_panics", "C82_same_errors", "C82_only_readable", "C82_plain_dumped", "C82_panic_refuted"],"C82_panic_refuted is the file that Decode accepts and Dump panics on. inner_fine: the partly read chunk inside an errored chunk is any chunk whose dump does not panic."),
("C83","proved",["C83_bytes_layout", "C83_rows", "C83_bytes_unambiguous"],""),
("C84","proved",["C84_string_unambiguous", "C84_one_line", "C84_plain_text", "C84_not_graphic"],"strconv.Quote is modelled over an arbitrary IsPrint table; one line assumes that the table has no control characters."),
("C85","proved",["C85_unambiguous", "C85_nested_refuted"],"float_text is what strconv guarantees for the shortest text of a float; some_float_text shows it can be met."),
("C86","proved",["C86_labels", "C86_udim2", "C86_labels_refuted", "C86_utf8_refuted"],"The refuted theorems are the findings."),
("C87","proved",["C87_layout", "C87_reference", "C87_integers"],"The text of floating point numbers is a parameter (strconv); joinstr is modelled as the copying loop and proved to concatenate."),
("C88","proved",["C88_same_text", "C88_lost"],"Under the documented promise of strconv.FormatFloat(f, 'f', -1, bits): decimal text that reads back as the same number (`prints`); shortest_prints shows a function that keeps it for both sizes, by exact rational arithmetic."),
("C89","proved",["C89_counts", "C89_totals"],""),
("C90","proved",["C90_largest"],""),
("C91","proved",["C91_no_root", "C91_decoded", "C91_decoded_xml", "C91_cycle_refuted"],"The claim for all files is refuted by C91_cycle_refuted (finding 32)."),
("C92","proved",["C92_printed", "C92_error_refuted"],"Printing of errors is refuted by C92_error_refuted (finding 33)."),
("C93","proved",["C93_layout"],"Values inside columns are `dump_value`, characterised by C86; strings and bytes by C83, C84. The lines of an optional column are indented one level too deep, with the closing brace one level too deep (as in the code). The part of an errored chunk that was read is `partial_of` (RbxlPartial), a model of what the Decode methods leave behind."),
("C94","proved",["C94_panics", "C94_text", "C94_witness"],"Strengthens C82, where errored chunks are left open. C94_witness: a file whose only optional of an optional is in an errored chunk, on which Dump panics."),
("C95","proved",["C95_errored", "C95_begun", "C95_column", "C95_cframes", "C95_meta", "C95_shared", "C95_witness", "C95_column_witness", "C95_cframes_witness", "C95_meta_witness"],"C95_begun is about columns stored in sequence and optionals of them, C95_column about all plain columns except CFrames, C95_cframes about columns of CFrames (spare capacity of a slice is taken to be zero bytes). Of optionals of interleaved columns and of CFrames only the chunk's id and name are claimed here, and their size in C94."),
("C96","proved",["C96_mixed", "C96_tree", "C96_no_numbers", "C96_covers", "C96_usable", "C96_witness"],"The documentation (declare.go:186-298) says that the zero value is given when the values cannot be asserted; C69_not_zero and C96_no_numbers show that this is false. Floats that do not fit an integer field and NaN of the other size are not covered (implementation-dependent in Go)."),
("C97","proved",["C97_rotation", "C97_exact", "C97_compiled", "C97_decoded"],"Expression trees of the nine expressions with every operation rounded or fused; the rotation is specified by quaternion multiplication (SpecQuat.v). C97_compiled: the hypothesis on the compiled code is met by the unfused evaluation."),
("C98","proved",["C98_decode", "C98_functional", "C98_reader", "C98_reads_base64", "C98_padding_last", "C98_short", "C98_written", "C98_boundary_refuted", "C98_witness"],"Finding: padding at the end of a decoder buffer followed by more text is accepted (C98_boundary_refuted). SpecBase64.base64 is also what C75, C76 and C80 mean by base64."),
("C99","proved",["C99_resave", "C99_same_tree", "C99_cycles", "C99_metadata", "C99_chunks", "C99_metadata_refuted"],"hypotheses as in C23 (witness C99_witness: a tree with a mixed column, references, shared strings, an optional and filled-in defaults; the second encoding ranges over maps backwards). Equality of files needs at most one metadata entry: C99_metadata is what holds in general, C99_metadata_refuted shows that more is false."),
("C100","proved",["C100_resave", "C100_same_tree", "C100_resaved", "C100_cycles", "C100_settles", "C100_outside_refuted", "C100_noref_refuted", "C100_values_refuted"],"hypotheses as in C49 and C50 plus text_tree (SpecXmlResave.v): the values whose text is kept, which is more than the values that are kept (C53). Witness C100_witness: a ray, a brick color, a NaN, a double of 16 digits, references in both directions, a shared string, two metadata entries. Optionals that hold anything but a coordinate frame are left out (their text is kept too in the cases tried). The refutations show that the other hypotheses matter. C100_same_tree: the loaded tree is written as the original tree would be under any options that write referents (and metadata only if it was in the file). C100_settles needs none of these: any storable tree (C49), with numbers that are not denormal where digits are cut off, has settled after one save and load (witness C100_settles_witness: a tree whose text changes at first)."),
("C101","proved",["C101_to_xml", "C101_to_binary", "C101_binary_refuted"],"hypotheses of C23 and C49/C50 plus both_formats and plain_binary (SpecConvert.v); the result, converted, uses the binary format's written_prop, carried and filled with respect to the original tree. Witness C101_witness: two classes, missing and mixed properties, references, shared, protected and binary strings, an optional frame, a unique id. C101_binary_refuted: the order of the formats matters for carriage returns in binary strings."),
("C102","proved",["C102_same_chunks", "C102_same_bytes", "C102_copy", "C102_font_refuted", "C102_metadata_refuted"],"Closed under the global context. Same-tree is a relation on two heaps with a correspondence phi (SpecSame.v); properties are compared as maps. No bounds, no assumption about the values. Fonts with another cached face and two metadata entries are the exceptions, shown by refutations."),
("C103","proved",["C103_run", "C103_same_file", "C103_untouched", "C103_dcomp", "C103_dump", "C103_in_place_refuted", "C103_status_refuted"],"C103_run: any command with these arguments and its own work. In place: the file is lost (finding 41). Reading and writing open files do not fail in the model."),
("C104","proved",["C104_xml_keeps_bytes", "C104_binary_xml_binary", "C104_service_refuted"],"Without services; C104_service_refuted is a tree with a service whose file changes (finding 42)."),
("C105","proved",["C105_wraps", "C105_total", "C105_panics","C105_nil_cause_refuted", "C105_decode_text", "C105_warning_lines", "C105_chunk","C105_signature", "C105_place", "C105_encode_refuted", "C105_encode_text"],"The text of the lz4 library's error is a parameter; strconv.IsPrint a table that excludes control characters. Files in the XML format are left out."),
]
json.dump({"claims":[dict(property=a,status=b,theorems=c,note=d) for a,b,c,d in C]},open('/verif/MANIFEST.json','w'),indent=1)
