{
 "claims": [
  {
   "property": "C01",
   "status": "proved",
   "theorems": [
    "C01_declared_types"
   ],
   "note": "all parsed documents"
  },
  {
   "property": "C02",
   "status": "proved",
   "theorems": [
    "C02_acyclic"
   ],
   "note": "all parsed documents"
  },
  {
   "property": "C03",
   "status": "partial",
   "theorems": [
    "C03_cyclic_never_accepted",
    "C03_cyclic_reported_refuted",
    "C03_cyclic_reported_partial"
   ],
   "note": "False of the code: the loader loops forever when a struct that only leads to a cycle is declared first (refuted). Proved: cycles are never accepted, and the exact good case raises RecursionError."
  },
  {
   "property": "C04",
   "status": "partial",
   "theorems": [
    "C04_names",
    "C04_no_duplicate_structs",
    "C04_unique_enums_refuted",
    "C04_member_names_refuted"
   ],
   "note": "False for duplicate enum names and for member names equal to base types (both refuted); the rest is proved."
  },
  {
   "property": "C05",
   "status": "proved",
   "theorems": [
    "C05_valid_accepted",
    "C05_faithful"
   ],
   "note": ""
  },
  {
   "property": "C06",
   "status": "proved",
   "theorems": [
    "C06_smallest_encoding",
    "C06_too_large_rejected",
    "C06_names_numbered"
   ],
   "note": ""
  },
  {
   "property": "C07",
   "status": "partial",
   "theorems": [
    "C07_message_count",
    "C07_numbers",
    "C07_typescript_tags",
    "C07_assemblyscript_tags",
    "C07_csharp_tags",
    "C07_swift_tags",
    "C07_rust_tags_partial",
    "C07_go_tags_partial",
    "C07_zig_tags_partial",
    "C07_zig_tags_short_partial",
    "C07_c_tags_partial",
    "C07_c_tags_short_partial"
   ],
   "note": "Loader and format part proved. All eight languages."
  },
  {
   "property": "C08",
   "status": "proved",
   "theorems": [
    "C08_simple_is_fixed",
    "C08_encoded_size"
   ],
   "note": ""
  },
  {
   "property": "C09",
   "status": "proved",
   "theorems": [
    "C09_encodable",
    "C09_one_encoding",
    "C09_unambiguous",
    "C09_streams"
   ],
   "note": ""
  },
  {
   "property": "C10",
   "status": "partial",
   "theorems": [
    "C10_go_renamed",
    "C10_go_renamed_back",
    "C10_go_capitals",
    "C10_go_writes_partial",
    "C10_go_reads_partial",
    "C10_go_no_rename_refuted"
   ],
   "note": "False with --go-no-rename for structs of fixed size whose members do not start with a capital (refuted). Proved for all protocols whose printed names are distinct, and lists of up to 2^26 elements."
  },
  {
   "property": "C11",
   "status": "partial",
   "theorems": [
    "C11_typescript_writes",
    "C11_typescript_reads_partial",
    "C11_typescript_mark_refuted",
    "C11_typescript_view_refuted",
    "C11_typescript_64_bit_refuted"
   ],
   "note": "False for strings that start with a byte order mark, for DataViews that do not start at offset 0 of their buffer, and for 64 bit size types (all refuted). Everything else is proved."
  },
  {
   "property": "C12",
   "status": "partial",
   "theorems": [
    "C12_c_writes_partial",
    "C12_c_reads_partial",
    "C12_c_empty_refuted",
    "C31_c_string_list_refuted",
    "C32_c_names_partial"
   ],
   "note": "False for lists of strings when the two size types differ (as in the documentation's example), for structs declared before the ones they contain (neither compiles), and for empty lists where malloc(0) is NULL (all refuted). Proved for all other protocols, and values that fit into memory."
  },
  {
   "property": "C13",
   "status": "partial",
   "theorems": [
    "C13_rust_renamed",
    "C13_rust_renamed_back",
    "C13_rust_kept",
    "C13_rust_writes_partial",
    "C13_rust_reads_partial",
    "C13_rust_byte_lists_refuted",
    "C13_rust_overwritten_refuted"
   ],
   "note": "False for lists of bytes or bools, for member names that become equal or are the name of a list length, and for a member called reader (all refuted). Everything else is proved."
  },
  {
   "property": "C14",
   "status": "partial",
   "theorems": [
    "C14_csharp_writes",
    "C14_csharp_reads",
    "C14_csharp_64_bit_refuted"
   ],
   "note": "False only when list lengths are uint64: not valid C# (refuted)."
  },
  {
   "property": "C15",
   "status": "partial",
   "theorems": [
    "C15_swift_writes",
    "C15_swift_reads_partial",
    "C15_swift_slice_refuted",
    "C15_swift_slice_crash_refuted",
    "C15_swift_mark_refuted"
   ],
   "note": "False for slices of Data, and, if String(data:encoding:) drops it, for a leading byte order mark (refuted)."
  },
  {
   "property": "C16",
   "status": "partial",
   "theorems": [
    "C16_zig_writes_partial",
    "C16_zig_writes_short_partial",
    "C16_zig_enum_refuted",
    "C16_zig_reads_partial",
    "C16_zig_long_refuted",
    "C16_zig_nested_refuted",
    "C16_zig_signed_refuted",
    "C31_zig_string_size_refuted"
   ],
   "note": "False when string lengths have another type than list lengths (as in the documentation's example), for enums inside structs of fixed size, for strings within a few bytes of the longest, for structs inside what has a fixed size, and for signed lengths (all refuted). Proved for other protocols and lists of up to 2^26 elements."
  },
  {
   "property": "C17",
   "status": "partial",
   "theorems": [
    "C17_assemblyscript_writes",
    "C17_assemblyscript_reads_partial",
    "C17_assemblyscript_order_refuted",
    "C17_assemblyscript_edge_refuted",
    "C17_assemblyscript_64_bit_refuted"
   ],
   "note": "False for enums whose last value is not the largest (among them the one of the documentation), for enums whose last value is the largest of its encoding, and for 64 bit size types (all refuted). Proved for other protocols and lists of up to 2^26 elements."
  },
  {
   "property": "C18",
   "status": "partial",
   "theorems": [
    "C18_exchange_partial",
    "C18_objects_partial",
    "C18_streams_partial",
    "C18_packed_partial",
    "C18_bytes_refuted",
    "C18_values_refuted"
   ],
   "note": "Proved for every protocol and value that the languages in question handle on their own (C10 to C17). Swift and Zig write different bytes, and Swift and AssemblyScript read different values, for the documentation's example (refuted)."
  },
  {
   "property": "C19",
   "status": "partial",
   "theorems": [
    "C19_typescript_size_partial",
    "C19_typescript_size_refuted",
    "C19_assemblyscript_size_partial",
    "C19_assemblyscript_size_refuted",
    "C19_csharp_size_partial",
    "C19_csharp_size_refuted",
    "C19_swift_size",
    "C19_rust_size_partial",
    "C19_go_size_partial",
    "C19_zig_size_partial",
    "C19_zig_written_refuted",
    "C19_c_size_partial",
    "C19_c_large_refuted"
   ],
   "note": "All eight languages. False in TypeScript when a list inside a list has the same name, in AssemblyScript, too, in C# for strings with characters of more than one byte, in Zig when the two size types differ, and in C from 2^31 bytes on (refuted)."
  },
  {
   "property": "C20",
   "status": "partial",
   "theorems": [
    "C20_typescript_truncated_partial",
    "C20_typescript_truncated_refuted",
    "C20_typescript_cut_stream",
    "C20_assemblyscript_truncated_partial",
    "C20_assemblyscript_truncated_throws_partial",
    "C20_assemblyscript_cut_stream_refuted",
    "C20_csharp_truncated_partial",
    "C20_csharp_truncated_refuted",
    "C20_csharp_cut_stream_partial",
    "C20_csharp_cut_stream_refuted",
    "C20_swift_truncated_partial",
    "C20_swift_cut_stream_partial",
    "C20_rust_truncated_partial",
    "C20_rust_cut_stream_partial",
    "C20_go_truncated_partial",
    "C20_go_truncated_fails_partial",
    "C20_go_string_refuted",
    "C20_go_nested_refuted",
    "C20_go_cut_stream_partial",
    "C20_zig_truncated_partial",
    "C20_zig_cut_stream_partial",
    "C20_c_truncated_partial",
    "C20_c_truncated_trap_partial",
    "C20_c_cut_stream_partial",
    "C20_c_cut_stream_trap_partial"
   ],
   "note": "All eight languages. False in TypeScript for DataViews on a part of a buffer, in C# for strings at the end of a message, in AssemblyScript for streams, and in Go for strings and for structs with strings (refuted)."
  },
  {
   "property": "C21",
   "status": "partial",
   "theorems": [
    "C21_typescript_enums",
    "C21_assemblyscript_enums_partial",
    "C21_assemblyscript_unknown_refuted",
    "C21_assemblyscript_gap_refuted",
    "C21_csharp_enums",
    "C21_swift_enums",
    "C21_rust_enums_partial",
    "C21_go_enums_partial",
    "C21_go_fixed_refuted",
    "C21_go_dropped_refuted",
    "C21_zig_enums_partial",
    "C21_c_enums_partial"
   ],
   "note": "All eight languages. False in AssemblyScript, and in Go for enums inside structs (refuted)."
  },
  {
   "property": "C22",
   "status": "partial",
   "theorems": [
    "C22_typescript_accepts",
    "C22_typescript_stream_accepts",
    "C22_typescript_packed_accepts",
    "C22_assemblyscript_accepts_partial",
    "C22_assemblyscript_accepts_refuted",
    "C22_csharp_accepts_partial",
    "C22_csharp_signed_refuted",
    "C22_csharp_long_refuted",
    "C22_csharp_stream_accepts_partial",
    "C22_csharp_packed_accepts_partial",
    "C22_swift_accepts",
    "C22_swift_stream_accepts",
    "C22_swift_packed_accepts",
    "C22_rust_accepts_partial",
    "C22_rust_negative_refuted",
    "C22_rust_stream_accepts_partial",
    "C22_rust_packed_accepts_partial",
    "C22_go_accepts_partial",
    "C22_go_empty_refuted",
    "C22_go_stream_accepts_partial",
    "C22_go_packed_accepts_partial",
    "C22_zig_accepts_partial",
    "C22_zig_stream_accepts_partial",
    "C22_zig_packed_accepts_partial",
    "C22_c_accepts_partial",
    "C22_c_stream_accepts_partial",
    "C22_c_packed_accepts_partial"
   ],
   "note": "All eight languages. False in C# for negative list lengths, 64 bit string lengths and messages that end with a string, in Rust for negative list lengths, in AssemblyScript for enums, and in Go for strings and for enums inside structs (refuted)."
  },
  {
   "property": "C23",
   "status": "partial",
   "theorems": [
    "C23_typescript_short_buffer",
    "C23_typescript_pack_short",
    "C23_typescript_pack_refuted",
    "C23_assemblyscript_short_buffer",
    "C23_assemblyscript_tagged_short",
    "C23_assemblyscript_pack_refuted",
    "C23_c_short_partial",
    "C23_c_pack_refuted",
    "C11_typescript_writes",
    "C17_assemblyscript_writes",
    "C12_c_writes_partial",
    "C27_c_packs_partial",
    "C27_c_packs_short_partial"
   ],
   "note": "All eight languages. In TypeScript PackMessages writes outside of a DataView, in AssemblyScript and C it does not tell that the buffer was too short (refuted)."
  },
  {
   "property": "C24",
   "status": "partial",
   "theorems": [
    "C24_typescript_streams_partial",
    "C24_assemblyscript_streams_partial",
    "C24_csharp_streams",
    "C24_swift_streams_partial",
    "C24_rust_streams_partial",
    "C24_go_streams_partial",
    "C24_zig_streams_partial",
    "C24_c_streams_partial"
   ],
   "note": "All eight languages."
  },
  {
   "property": "C25",
   "status": "partial",
   "theorems": [
    "C25_typescript_max_partial",
    "C25_assemblyscript_max_partial",
    "C25_csharp_max",
    "C25_swift_max_partial",
    "C25_rust_max_partial",
    "C25_go_max_partial",
    "C25_zig_max_partial",
    "C25_c_max_partial"
   ],
   "note": "All eight languages."
  },
  {
   "property": "C26",
   "status": "partial",
   "theorems": [
    "C26_typescript_unknown",
    "C26_assemblyscript_unknown_refuted",
    "C26_csharp_unknown",
    "C26_swift_unknown",
    "C26_rust_unknown_partial",
    "C26_go_unknown_partial",
    "C26_zig_unknown_partial",
    "C26_c_unknown_partial"
   ],
   "note": "All eight languages. False in AssemblyScript (refuted)."
  },
  {
   "property": "C27",
   "status": "partial",
   "theorems": [
    "C27_typescript_packs_partial",
    "C27_typescript_unpacks_partial",
    "C27_typescript_view_refuted",
    "C27_assemblyscript_packs",
    "C27_assemblyscript_unpacks_partial",
    "C27_assemblyscript_short_refuted",
    "C27_assemblyscript_view_refuted",
    "C27_csharp_packs",
    "C27_csharp_unpacks",
    "C27_swift_packs",
    "C27_swift_unpacks_partial",
    "C27_swift_slice_refuted",
    "C27_rust_packs_partial",
    "C27_rust_unpacks_partial",
    "C27_go_packs_partial",
    "C27_go_unpacks_partial",
    "C27_zig_packs_partial",
    "C27_zig_packs_short_partial",
    "C27_zig_unpacks_partial",
    "C27_c_packs_partial",
    "C27_c_packs_short_partial",
    "C27_c_pack_middle_refuted",
    "C27_c_unpacks_partial",
    "C27_c_middle_refuted"
   ],
   "note": "All eight languages. False in AssemblyScript for packed buffers of less than 12 bytes, and in C anywhere but at the start of a buffer (refuted)."
  },
  {
   "property": "C28",
   "status": "partial",
   "theorems": [
    "C28_typescript_packed_size_partial",
    "C28_assemblyscript_packed_size_partial",
    "C28_csharp_packed_size_partial",
    "C28_swift_packed_size",
    "C28_rust_packed_size_partial",
    "C28_go_packed_size_partial",
    "C28_zig_packed_size_partial",
    "C28_c_packed_size_partial"
   ],
   "note": "All eight languages."
  },
  {
   "property": "C29",
   "status": "partial",
   "theorems": [
    "C29_typescript_header",
    "C29_typescript_count",
    "C29_typescript_missing",
    "C29_assemblyscript_header",
    "C29_assemblyscript_count",
    "C29_assemblyscript_missing_partial",
    "C29_csharp_header",
    "C29_csharp_count",
    "C29_csharp_missing",
    "C29_swift_header_partial",
    "C29_swift_short_refuted",
    "C29_swift_count",
    "C29_swift_missing",
    "C29_rust_header_partial",
    "C29_rust_count_partial",
    "C29_rust_missing_partial",
    "C29_go_header_partial",
    "C29_go_header_four_partial",
    "C29_go_short_refuted",
    "C29_go_count_partial",
    "C29_go_missing_partial",
    "C29_zig_header_partial",
    "C29_zig_header_four_partial",
    "C29_zig_short_refuted",
    "C29_zig_count_partial",
    "C29_zig_missing_partial",
    "C29_c_header_partial",
    "C29_c_header_trap_partial",
    "C29_c_short_refuted",
    "C29_c_count_partial",
    "C29_c_missing_partial",
    "C29_c_missing_trap_partial"
   ],
   "note": "All eight languages. In Swift, Go, Zig and C UnpackMessages crashes on less than four bytes (refuted)."
  },
  {
   "property": "C30",
   "status": "partial",
   "theorems": [
    "C30_typescript_fresh",
    "C30_assemblyscript_fresh",
    "C30_csharp_fresh",
    "C30_swift_fresh",
    "C30_rust_fresh",
    "C30_go_fresh",
    "C30_zig_fresh",
    "C30_c_default_partial",
    "C30_c_create_partial",
    "C30_c_create_refuted"
   ],
   "note": "All eight languages. False in C for messages made by T_Create that have strings or lists (refuted)."
  },
  {
   "property": "C31",
   "status": "partial",
   "theorems": [
    "C31_zig_string_size_refuted",
    "C31_c_string_list_refuted",
    "C11_typescript_writes",
    "C11_typescript_reads_partial",
    "C14_csharp_writes",
    "C14_csharp_reads",
    "C15_swift_writes",
    "C15_swift_reads_partial",
    "C13_rust_writes_partial",
    "C13_rust_reads_partial",
    "C10_go_writes_partial",
    "C10_go_reads_partial",
    "C17_assemblyscript_writes",
    "C17_assemblyscript_reads_partial",
    "C16_zig_writes_partial",
    "C16_zig_reads_partial",
    "C12_c_writes_partial",
    "C12_c_reads_partial"
   ],
   "note": "Follows from writing and reading exactly the wire format, in which the two size types are separate. All eight languages. False in Zig, which writes string lengths with the type of list lengths, and in C for lists of strings (refuted)."
  },
  {
   "property": "C32",
   "status": "partial",
   "theorems": [
    "C32_rust_length_refuted",
    "C32_rust_reader_refuted",
    "C32_rust_renamed_refuted",
    "C32_rust_names",
    "C32_go_fields_refuted",
    "C32_go_method_refuted",
    "C32_go_tag_refuted",
    "C32_go_enums_refuted",
    "C32_go_local_refuted",
    "C32_go_names_partial",
    "C32_zig_names_partial",
    "C32_zig_read_refuted",
    "C32_zig_local_refuted",
    "C32_zig_type_refuted",
    "C32_zig_enums_refuted",
    "C32_c_names_partial",
    "C32_c_order_refuted",
    "C32_c_field_refuted",
    "C32_c_type_refuted",
    "C32_c_enums_refuted",
    "C32_snake_collides_refuted",
    "C32_capitalize_collides_refuted",
    "C32_typescript_locals_partial",
    "C32_assemblyscript_locals_partial",
    "C32_swift_locals_partial",
    "C32_csharp_locals_partial",
    "C32_length_refuted",
    "C32_swift_read_refuted",
    "C32_csharp_result_refuted",
    "C32_csharp_element_refuted",
    "C32_csharp_string_refuted",
    "C32_csharp_buffer_refuted",
    "C32_csharp_class_partial",
    "C32_typescript_class_partial",
    "C32_csharp_class_refuted",
    "C32_csharp_method_refuted",
    "C32_typescript_method_refuted"
   ],
   "note": "False in all languages for several kinds of names (refuted); proved for all others, and the conditions are shown to be exact for locals in TypeScript, AssemblyScript, C# and Swift and for C. Keywords of the target languages are left out. All eight languages."
  },
  {
   "property": "C33",
   "status": "proved",
   "theorems": [
    "C33_typescript_nested",
    "C33_assemblyscript_nested",
    "C33_csharp_nested",
    "C33_swift_nested",
    "C33_zig_nested",
    "C33_go_nested",
    "C33_rust_nested",
    "C33_c_nested"
   ],
   "note": "All eight languages, whatever the boilerplate files hold. The namespace is taken to be a string; the loader also lets other TOML values pass."
  },
  {
   "property": "C34",
   "status": "partial",
   "theorems": [
    "C34_cli_wrong_partial",
    "C34_cli_prints_partial",
    "C34_cli_writes_partial",
    "C34_cli_all_or_nothing_partial",
    "C34_cli_broken_refuted",
    "C34_cli_runs_on_refuted"
   ],
   "note": "False in two ways: refuted for a write that breaks off and for a cyclic document on which the loader never stops. Otherwise proved: wrong arguments or documents give status 1 and no output, and a valid document gives exactly the generated text (print adds a line feed). argparse itself exits with 2 on wrong usage and is not modelled; a namespace in the file that is an array or a table is left out."
  },
  {
   "property": "C35",
   "status": "partial",
   "theorems": [
    "C35_rewriting_unique",
    "C35_typescript_boilerplate",
    "C35_assemblyscript_boilerplate",
    "C35_csharp_boilerplate",
    "C35_swift_boilerplate",
    "C35_rust_boilerplate",
    "C35_go_boilerplate",
    "C35_zig_boilerplate",
    "C35_c_boilerplate_partial",
    "C35_c_boilerplate_refuted"
   ],
   "note": "Proved for the shipped boilerplate files in all eight languages and for any namespace, except that C needs a namespace without \"BESCHI\" and without a brace; with such a namespace it is false: refuted. Substitution comes before the change of indentation, so a namespace that starts with spaces could be re-indented too."
  },
  {
   "property": "C36",
   "status": "proved",
   "theorems": [
    "C36_snake_lower",
    "C36_snake_keeps",
    "C36_snake_words",
    "C36_snake_same",
    "C36_snake_twice",
    "C36_capitalize_tail",
    "C36_capitalize_letter",
    "C36_capitalize_twice"
   ],
   "note": "All strings, with ASCII case conversion."
  },
  {
   "property": "C37",
   "status": "partial",
   "theorems": [
    "C11_typescript_writes",
    "C11_typescript_reads_partial",
    "C22_typescript_accepts",
    "C14_csharp_writes",
    "C14_csharp_reads",
    "C15_swift_writes",
    "C15_swift_reads_partial",
    "C13_rust_writes_partial",
    "C13_rust_reads_partial",
    "C10_go_writes_partial",
    "C10_go_reads_partial",
    "C17_assemblyscript_writes",
    "C17_assemblyscript_reads_partial",
    "C16_zig_writes_partial",
    "C16_zig_reads_partial",
    "C16_zig_long_refuted",
    "C12_c_writes_partial",
    "C12_c_reads_partial"
   ],
   "note": "The round trip covers every length that the size type can hold. All eight languages. False in Zig for the longest strings (refuted)."
  },
  {
   "property": "C38",
   "status": "partial",
   "theorems": [
    "C38_c_lengths_partial",
    "C38_c_back_partial",
    "C30_c_create_refuted"
   ],
   "note": "Proved for what is read, with list lengths of at most four bytes. False for T_Create (refuted)."
  },
  {
   "property": "C39",
   "status": "partial",
   "theorems": [
    "C39_zig_same",
    "C39_zig_stream_same",
    "C39_zig_packed_same",
    "C39_zig_deinit",
    "C39_zig_stream",
    "C39_zig_packed",
    "C39_c_cleanup_partial",
    "C39_c_stream_partial",
    "C39_c_packed_partial"
   ],
   "note": "Zig: proved. C: with list lengths of at most four bytes, and names without brackets."
  },
  {
   "property": "C40",
   "status": "partial",
   "theorems": [
    "C40_typescript_total",
    "C40_typescript_stream_total",
    "C40_typescript_unpack_total",
    "C40_assemblyscript_total_partial",
    "C40_assemblyscript_answers_partial",
    "C40_assemblyscript_string_refuted",
    "C40_assemblyscript_list_refuted",
    "C40_assemblyscript_stream_total_partial",
    "C40_assemblyscript_stream_answers_partial",
    "C40_assemblyscript_unpack_total_partial",
    "C40_csharp_total",
    "C40_csharp_stream_total",
    "C40_csharp_unpack_total",
    "C40_swift_total_partial",
    "C40_swift_list_refuted",
    "C40_swift_string_refuted",
    "C40_swift_stream_total_partial",
    "C40_swift_unpack_total_partial",
    "C40_rust_total_partial",
    "C40_rust_signed_refuted",
    "C40_rust_long_refuted",
    "C40_rust_stream_total_partial",
    "C40_rust_unpack_total_partial",
    "C40_go_total_partial",
    "C40_go_answers_partial",
    "C40_go_string_refuted",
    "C40_go_list_refuted",
    "C40_go_stream_total_partial",
    "C40_go_stream_answers_partial",
    "C40_go_unpack_answers_partial",
    "C40_zig_total_partial",
    "C40_zig_answers_partial",
    "C40_zig_string_refuted",
    "C40_zig_stream_total_partial",
    "C40_zig_stream_answers_partial",
    "C40_zig_unpack_total_partial",
    "C40_zig_unpack_answers_partial",
    "C40_zig_count_refuted",
    "C40_c_total_partial",
    "C40_c_answers_partial",
    "C40_c_list_refuted",
    "C40_c_string_refuted",
    "C40_c_stream_total_partial",
    "C40_c_stream_answers_partial",
    "C40_c_unpack_total_partial",
    "C40_c_unpack_answers_partial"
   ],
   "note": "All eight languages. False in Swift for negative list lengths, 64 bit string lengths and packed buffers of less than four bytes, in Rust for negative and 64 bit string lengths, in AssemblyScript for lengths that are negative or close to 2^32, and in Go for strings cut short, negative list lengths and packed buffers of less than four bytes, and in Zig for long strings, 64 bit string lengths, packed buffers of less than four bytes and packed counts of 2^31 or more, and in C for negative string lengths, 64 bit lengths and packed buffers of less than four bytes (refuted)."
  },
  {
   "property": "C42",
   "status": "partial",
   "theorems": [
    "C42_c_destroy_refuted"
   ],
   "note": "False: refuted."
  },
  {
   "property": "C43",
   "status": "partial",
   "theorems": [
    "C43_c_failed_refuted"
   ],
   "note": "False: refuted."
  },
  {
   "property": "C41",
   "status": "partial",
   "theorems": [
    "C41_typescript_overlong_refuted",
    "C41_assemblyscript_overlong_refuted",
    "C41_csharp_overlong_refuted",
    "C41_swift_overlong",
    "C41_rust_overlong_refuted",
    "C41_go_overlong_refuted",
    "C41_zig_overlong_partial"
   ],
   "note": "Proved for Swift, and for Zig where C31 holds. False in TypeScript, C#, Rust, Go and AssemblyScript, which wrap the length (refuted). In C a message stores its lengths in the size type itself."
  },
  {
   "property": "C44",
   "status": "partial",
   "theorems": [
    "C44_typescript_text",
    "C44_csharp_text",
    "C44_swift_text",
    "C44_rust_text_partial"
   ],
   "note": "TypeScript, C#, Swift, and Rust for the protocols of C13. Strings are plain bytes in Go, Zig and C."
  },
  {
   "property": "C45",
   "status": "proved",
   "theorems": [
    "C45_typescript_printed",
    "C45_assemblyscript_printed",
    "C45_csharp_printed",
    "C45_swift_printed",
    "C45_rust_printed",
    "C45_zig_printed",
    "C45_go_printed",
    "C45_c_printed",
    "C45_c_brackets_refuted"
   ],
   "note": "C: for names without brackets, as all names in C are; with brackets it is false (refuted)."
  },
  {
   "property": "C46",
   "status": "partial",
   "theorems": [
    "C46_zig_at_most_once",
    "C46_zig_stream_at_most_once",
    "C46_zig_packed_at_most_once",
    "C46_zig_failed_partial",
    "C46_zig_read_refuted",
    "C46_zig_stream_refuted",
    "C46_zig_packed_refuted"
   ],
   "note": "False: refuted. Proved for fromBytes when only the last member of anything needs memory of its own; nothing is ever released twice."
  },
  {
   "property": "C47",
   "status": "proved",
   "theorems": [
    "C47_zig_fresh"
   ],
   "note": ""
  },
  {
   "property": "C48",
   "status": "partial",
   "theorems": [
    "C48_embed_partial",
    "C48_zig_embed",
    "C48_comment_end_refuted",
    "C48_comment_start_refuted",
    "C48_lines"
   ],
   "note": "Proved that the lines of the file make up the file. Proved for Zig; in the other languages for files without the marks of comments, and false for files with */ (all seven) or /* (Swift and Rust): refuted."
  },
  {
   "property": "C49",
   "status": "partial",
   "theorems": [
    "C49_format",
    "C49_loose_format",
    "C49_stream_format",
    "C49_exchange_partial",
    "C49_streams_partial",
    "C49_packed_partial",
    "C49_files",
    "C49_front_refuted",
    "C49_encoding_refuted",
    "C49_member_refuted"
   ],
   "note": "Proved for the format; for the code of the languages as far as they can handle the protocol and the value. Not for messages in front, larger encodings or new members: refuted."
  },
  {
   "property": "C50",
   "status": "partial",
   "theorems": [
    "C50_format",
    "C50_stream_format",
    "C50_exchange_partial",
    "C50_streams_partial",
    "C50_packed_partial"
   ],
   "note": "Proved for the format; for the code of the languages as far as they can handle the protocol and the value."
  },
  {
   "property": "C51",
   "status": "proved",
   "theorems": [
    "C51_texts",
    "C51_accepted_texts",
    "C51_option",
    "C51_other_refuted"
   ],
   "note": "All eight languages. C51_other_refuted shows that the indentations have to be blank."
  },
  {
   "property": "C52",
   "status": "partial",
   "theorems": [
    "C52_says_partial",
    "C52_exactly_partial",
    "C52_rejects_partial",
    "C52_sections",
    "C52_odd_sections",
    "C52_enum_refuted",
    "C52_value_refuted",
    "C52_meta_refuted",
    "C52_namespace_refuted",
    "C52_unknown_refuted"
   ],
   "note": "False: refuted. Proved, with C05 as an equivalence, for plain files: enums and table values have distinct names, meta is a table with a text namespace, sections are arrays."
  },
  {
   "property": "C53",
   "status": "partial",
   "theorems": [
    "C53_c_types_partial",
    "C53_c_types_refuted",
    "C53_declared_partial",
    "C53_distinct_partial",
    "C53_message_refuted",
    "C53_prefix_refuted",
    "C53_reserved_refuted",
    "C53_words_refuted",
    "C53_go_declared_partial",
    "C53_go_distinct_partial",
    "C53_go_type_refuted",
    "C53_go_value_refuted"
   ],
   "note": "False: refuted (a type named Message, an empty namespace in Rust, names that are no words, a struct NoteType besides a message Note in Go, a struct DataAccess in C). Proved, as an equivalence, for names that are words and without --embed-protocol. TypeScript, AssemblyScript, C#, Swift, Rust, Zig and Go; in C the types."
  },
  {
   "property": "C54",
   "status": "partial",
   "theorems": [
    "C54_c_fields_partial",
    "C54_fields_partial",
    "C54_builtin_refuted"
   ],
   "note": "Proved as an equivalence, without --embed-protocol, for TypeScript and AssemblyScript (if no type is called bigint or boolean; otherwise refuted), C#, Swift, Rust, Go, Zig and C (names that are words)."
  },
  {
   "property": "C55",
   "status": "partial",
   "theorems": [
    "C55_c_order_partial",
    "C55_c_order_exact_partial",
    "C55_c_order_refuted"
   ],
   "note": "False: refuted (structs declared out of order). Proved, as an equivalence, for protocols whose structs stand behind those of their members."
  },
  {
   "property": "C56",
   "status": "partial",
   "theorems": [
    "C56_c_functions_partial",
    "C56_c_names_partial",
    "C56_c_names_refuted"
   ],
   "note": "The functions: proved for types and namespaces that are words, without --embed-protocol and without BESCHI in the namespace. The names: false, refuted (a struct called like a function); proved if the names that c.py makes up are different."
  },
  {
   "property": "C57",
   "status": "partial",
   "theorems": [
    "C57_go_methods_partial",
    "C57_go_implements_partial",
    "C57_go_once_partial",
    "C57_rust_methods_partial",
    "C57_rust_implements_partial",
    "C57_csharp_methods_partial",
    "C57_csharp_implements_partial",
    "C57_rust_once_partial",
    "C57_rust_once_refuted",
    "C57_csharp_once_partial",
    "C57_csharp_override_refuted",
    "C57_typescript_methods_partial",
    "C57_typescript_implements_partial",
    "C57_typescript_once_partial",
    "C57_typescript_parenthesis_refuted",
    "C57_swift_methods_partial",
    "C57_swift_implements_partial",
    "C57_swift_once_partial"
   ],
   "note": "Swift, Go (types whose names are words), Rust, C# (no type called override; refuted with one), TypeScript and AssemblyScript (no member name with a parenthesis; refuted with one), without --embed-protocol. 'Not twice' is false in Rust for a message called Message (refuted), and proved for all others. Zig and C are not covered: their texts declare no interface."
  }
 ]
}