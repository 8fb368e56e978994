{
 "claims": [
  {
   "property": "C01",
   "status": "proved",
   "theorems": [
    "replacecr_only_inserts",
    "replacecr_each_read",
    "replacecr_complete",
    "replacecr_transparent",
    "replacecr_terminates",
    "replacecr_source_schedule_free",
    "replacecr_read_size_independent_refuted"
   ],
   "note": "The unqualified claim (normalised output for all read sizes) is false and refuted; the exact behaviour is proved."
  },
  {
   "property": "C02",
   "status": "proved",
   "theorems": [
    "tracked_reader_counts"
   ],
   "note": ""
  },
  {
   "property": "C03",
   "status": "proved",
   "theorems": [
    "paged_reader_window"
   ],
   "note": ""
  },
  {
   "property": "C04",
   "status": "proved",
   "theorems": [
    "copy_moves_everything",
    "copy_stops_at_rejection",
    "copy_success_means_complete"
   ],
   "note": ""
  },
  {
   "property": "C05",
   "status": "proved",
   "theorems": [
    "read_all_array_complete",
    "read_all_object_complete",
    "top_level_type_exact"
   ],
   "note": ""
  },
  {
   "property": "C06",
   "status": "proved",
   "theorems": [
    "each_entry_visits_all",
    "each_entry_stops"
   ],
   "note": ""
  },
  {
   "property": "C07",
   "status": "proved",
   "theorems": [
    "convert_file_selection",
    "convert_file_reports_errors_refuted",
    "convert_file_setup_errors"
   ],
   "note": "The intended claim that a nil error means the whole selection was converted is refuted."
  },
  {
   "property": "C28",
   "status": "proved",
   "theorems": [
    "col_letters_correct",
    "col_letters_injective",
    "col_letters_wellformed",
    "col_letters_correct_refuted"
   ],
   "note": "The claim without the 17576 bound is refuted. 64 bit overflow above 26^13 is not modelled."
  },
  {
   "property": "C29",
   "status": "proved",
   "theorems": [
    "abstract_name_standard",
    "abstract_name_standard_refuted",
    "abstract_name_injective",
    "abstract_name_lowercase",
    "abstract_name_collisions",
    "abstract_name_injective_refuted",
    "abstract_name_negative_panics"
   ],
   "note": ""
  },
  {
   "property": "C30",
   "status": "proved",
   "theorems": [
    "identity_reader_safe",
    "identity_reader_nothing_lost",
    "identity_slice_entries",
    "identity_map_entries"
   ],
   "note": ""
  },
  {
   "property": "C31",
   "status": "proved",
   "theorems": [
    "identity_reader_terminates_refuted",
    "identity_close_terminates_refuted",
    "identity_reader_can_finish",
    "identity_reader_no_early_deadlock"
   ],
   "note": "The intended claim (the reader always reaches EOF) is refuted for every data."
  },
  {
   "property": "C47",
   "status": "proved",
   "theorems": [
    "stepfile_write_read_iff",
    "stepfile_read_write",
    "stepfile_empty_list_refuted",
    "stepfile_reports_write_errors_refuted",
    "stepfile_bad_script_rejected"
   ],
   "note": ""
  },
  {
   "property": "C43",
   "status": "proved",
   "theorems": [
    "kind_valid_safe",
    "kind_type_panics_iff",
    "component_prefix_injective",
    "component_prefix_separates",
    "kind_failed_decode_keeps_value_refuted",
    "kind_valid_has_colon_refuted"
   ],
   "note": ""
  },
  {
   "property": "C44",
   "status": "proved",
   "theorems": [
    "data_format_accepts_exactly",
    "data_format_parse_string",
    "data_format_string_injective",
    "data_format_json",
    "data_format_failed_decode",
    "data_format_out_of_range_refuted"
   ],
   "note": "The text between the quotes is decoded by encoding/json, represented by its result."
  },
  {
   "property": "C45",
   "status": "proved",
   "theorems": [
    "csv_options_round_trip_iff",
    "csv_options_separator_round_trip_refuted",
    "csv_options_accepts_iff",
    "csv_options_values",
    "xlsx_options_round_trip",
    "json_options_round_trip",
    "format_config_formats"
   ],
   "note": ""
  },
  {
   "property": "C46",
   "status": "proved",
   "theorems": [
    "filename_round_trip",
    "filename_success_sound",
    "body_filename_round_trip"
   ],
   "note": ""
  },
  {
   "property": "C32",
   "status": "proved",
   "theorems": [
    "commit_assign_last_wins",
    "stats_assign_last_wins",
    "readme_viz_assign_last_wins",
    "structure_assign_last_wins",
    "meta_assign_last_wins",
    "transform_assign_last_wins",
    "transform_assign_merges",
    "assign_self",
    "assign_nothing",
    "assign_composes"
   ],
   "note": "Config, resources and secrets of a transform are merged key by key."
  },
  {
   "property": "C33",
   "status": "proved",
   "theorems": [
    "dataset_assign_components",
    "dataset_assign_scalars"
   ],
   "note": ""
  },
  {
   "property": "C35",
   "status": "proved",
   "theorems": [
    "drop_transient_fields",
    "drop_derived_fields",
    "drop_idempotent_and_commute",
    "structure_drop_keeps_definition"
   ],
   "note": ""
  },
  {
   "property": "C42",
   "status": "proved",
   "theorems": [
    "path_map_exact",
    "path_map_nil"
   ],
   "note": ""
  },
  {
   "property": "C63",
   "status": "proved",
   "theorems": [
    "readme_viz_shallow_compare",
    "transform_shallow_compare_exact",
    "shallow_compare_equivalence"
   ],
   "note": ""
  },
  {
   "property": "C34",
   "status": "proved",
   "theorems": [
    "assign_write_set",
    "assign_leaves_others_alone",
    "assign_unshared_is_value_assign",
    "adopted_component_is_shared",
    "assign_keeps_sources_refuted",
    "assign_is_value_assign_refuted"
   ],
   "note": "Maps inside transforms are treated as part of the transform object."
  },
  {
   "property": "C60",
   "status": "proved",
   "theorems": [
    "meta_set_known_key",
    "meta_set_other_key",
    "meta_set_one_change",
    "meta_set_never_path",
    "meta_set_error_keeps_value_refuted",
    "meta_set_arbitrary_binds"
   ],
   "note": ""
  },
  {
   "property": "C61",
   "status": "proved",
   "theorems": [
    "open_body_keeps_fields",
    "open_body_inline",
    "open_body_bytes",
    "open_body_path",
    "open_body_nothing",
    "open_script_keeps_fields",
    "open_script_text",
    "open_script_path",
    "open_script_nothing",
    "open_rendered_path",
    "inline_failure_keeps_fields",
    "inline_text",
    "inline_path",
    "inline_nil_resolver",
    "open_after_inline",
    "inline_keeps_script_refuted"
   ],
   "note": ""
  },
  {
   "property": "C36",
   "status": "proved",
   "theorems": [
    "bare_path_iff",
    "structure_bare_path_loses_format_refuted",
    "meta_bare_path_loses_members_refuted"
   ],
   "note": ""
  },
  {
   "property": "C37",
   "status": "proved",
   "theorems": [
    "commit_round_trip",
    "stats_round_trip",
    "readme_round_trip",
    "viz_round_trip",
    "transform_round_trip",
    "structure_round_trip",
    "meta_round_trip",
    "dataset_round_trip",
    "encode_total",
    "meta_round_trip_any_member_refuted",
    "meta_decodes_what_it_encodes_refuted"
   ],
   "note": "Documents are trees; strings are taken to be valid UTF-8; times are instants."
  },
  {
   "property": "C38",
   "status": "proved",
   "theorems": [
    "commit_reencode",
    "stats_reencode",
    "readme_viz_reencode",
    "meta_reencode",
    "structure_reencode_iff",
    "transform_reencode_iff",
    "dataset_reencode",
    "dataset_reencode_empty_bytes_refuted",
    "dataset_encode_effect",
    "dataset_encode_fills_kinds"
   ],
   "note": ""
  },
  {
   "property": "C39",
   "status": "proved",
   "theorems": [
    "map_built_keys_ascending",
    "commit_keys_ascending_iff",
    "structure_keys_ascending_iff",
    "transform_keys_ascending_iff",
    "dataset_keys_ascending_iff",
    "dataset_keys_ascending_refuted"
   ],
   "note": ""
  },
  {
   "property": "C40",
   "status": "proved",
   "theorems": [
    "secrets_not_encoded",
    "secrets_presence_hidden_refuted"
   ],
   "note": ""
  },
  {
   "property": "C41",
   "status": "proved",
   "theorems": [
    "signing_bytes_text",
    "signing_bytes_depend_on_covered",
    "signing_bytes_injective",
    "calendar",
    "signed_time_text",
    "signable_bytes_injective",
    "signing_bytes_newline_refuted",
    "signing_bytes_nanoseconds_refuted",
    "signing_bytes_sorted_refuted"
   ],
   "note": "Injective on single-line values; collisions with line feeds, lost nanoseconds and unsorted lines are refuted claims."
  },
  {
   "property": "C17",
   "status": "proved",
   "theorems": [
    "cbor_round_trip_array",
    "cbor_round_trip_object",
    "cbor_reads_array",
    "cbor_reads_object",
    "cbor_reads_indefinite"
   ],
   "note": "Byte strings are compared as they were when read; see C18."
  },
  {
   "property": "C18",
   "status": "proved",
   "theorems": [
    "cbor_schedule_free",
    "cbor_kept_entries",
    "cbor_kept_schedule_free",
    "cbor_kept_bytes_refuted"
   ],
   "note": "Kept byte strings share the buffer: the claim without that exception is refuted."
  },
  {
   "property": "C19",
   "status": "proved",
   "theorems": [
    "cbor_truncation",
    "cbor_truncated_array",
    "cbor_truncated_object",
    "cbor_truncation_detected_refuted"
   ],
   "note": ""
  },
  {
   "property": "C20",
   "status": "proved",
   "theorems": [
    "cbor_writer_array",
    "cbor_writer_object",
    "cbor_writer_reject"
   ],
   "note": ""
  },
  {
   "property": "C21",
   "status": "proved",
   "theorems": [
    "cbor_read_entry_terminates",
    "cbor_read_terminates",
    "cbor_read_fuel_irrelevant"
   ],
   "note": "Memory exhaustion and Go stack depth are not modelled; a declared array length above 2^44 is a panic."
  },
  {
   "property": "C08",
   "status": "proved",
   "theorems": [
    "json_chunk_free",
    "json_same_outcome",
    "json_chunk_free_refuted"
   ],
   "note": "The claim without the condition on misspelled words is refuted. A \\u or \\x escape cut short by the closing quote is taken to decode to '?'."
  },
  {
   "property": "C09",
   "status": "proved",
   "theorems": [
    "json_array_round_trip",
    "json_array_beyond_int64",
    "json_reads_array"
   ],
   "note": "Float formatting and parsing are parameters with the stated condition."
  },
  {
   "property": "C10",
   "status": "proved",
   "theorems": [
    "json_object_round_trip",
    "json_object_keys_kept",
    "json_object_beyond_int64",
    "json_reads_object"
   ],
   "note": ""
  },
  {
   "property": "C11",
   "status": "proved",
   "theorems": [
    "json_object_history",
    "json_array_history",
    "json_history_unique"
   ],
   "note": ""
  },
  {
   "property": "C12",
   "status": "proved",
   "theorems": [
    "json_compact_failures_reported",
    "json_pretty_failures_reported",
    "json_pretty_failure_refuted"
   ],
   "note": "The claim for pretty printing without the exception is refuted."
  },
  {
   "property": "C13",
   "status": "proved",
   "theorems": [
    "json_truncated_array",
    "json_truncated_object",
    "json_written_truncated",
    "json_written_object_truncated"
   ],
   "note": ""
  },
  {
   "property": "C14",
   "status": "proved",
   "theorems": [
    "json_string_inverted",
    "json_valid_string_inverted",
    "json_surrogates_not_combined"
   ],
   "note": ""
  },
  {
   "property": "C15",
   "status": "proved",
   "theorems": [
    "json_swallowed_first",
    "json_swallowed_later"
   ],
   "note": ""
  },
  {
   "property": "C16",
   "status": "proved",
   "theorems": [
    "json_read_terminates"
   ],
   "note": ""
  },
  {
   "property": "C22",
   "status": "proved",
   "theorems": [
    "ndjson_round_trip",
    "ndjson_exact_values",
    "ndjson_too_deep"
   ],
   "note": "The nesting limit is a parameter (10000 in Go); float formatting and parsing are parameters with the stated condition."
  },
  {
   "property": "C23",
   "status": "proved",
   "theorems": [
    "ndjson_lines",
    "ndjson_every_stream",
    "ndjson_chunk_free"
   ],
   "note": ""
  },
  {
   "property": "C65",
   "status": "proved",
   "theorems": [
    "ndjson_nil_means_written",
    "ndjson_failure_sticks"
   ],
   "note": ""
  },
  {
   "property": "C48",
   "status": "proved",
   "theorems": [
    "compare_strings",
    "compare_integers",
    "compare_not_integers",
    "compare_empty_first",
    "compare_total_preorder",
    "compare_numbers",
    "compare_other_types",
    "compare_numbers_antisymmetric_refuted",
    "type_names_round_trip",
    "type_bytes_name_refuted"
   ],
   "note": "Float parsing and comparison are parameters."
  },
  {
   "property": "C66",
   "status": "proved",
   "theorems": [
    "parse_type_exact"
   ],
   "note": "Whether a text parses as a 32-bit float is a parameter."
  },
  {
   "property": "C54",
   "status": "proved",
   "theorems": [
    "columns_exact",
    "columns_error",
    "columns_count",
    "machine_titles_iff",
    "machine_titles_problems",
    "col_type_round_trip",
    "col_type_decodes",
    "has_type_iff"
   ],
   "note": ""
  },
  {
   "property": "C24",
   "status": "proved",
   "theorems": [
    "csv_round_trip",
    "csv_rows_come_back",
    "csv_reads",
    "csv_answers_unique",
    "csv_unix",
    "csv_chunks_free",
    "csv_bad_separator",
    "csv_bad_separator_writes",
    "csv_text_back_refuted"
   ],
   "note": "Rows coming back without the stated exceptions is refuted. The text of parse errors (line and column) is not modelled."
  },
  {
   "property": "C25",
   "status": "proved",
   "theorems": [
    "csv_cells",
    "csv_row",
    "csv_own_type",
    "csv_values_back",
    "csv_constructors",
    "csv_cell_back_refuted"
   ],
   "note": "Float formatting and parsing are parameters with the stated condition. A nil and an empty slice or map are not told apart."
  },
  {
   "property": "C26",
   "status": "proved",
   "theorems": [
    "csv_round_trip",
    "csv_reads",
    "csv_values_back",
    "csv_header_refuted"
   ],
   "note": "Refuted for a single column with an empty title."
  },
  {
   "property": "C27",
   "status": "proved",
   "theorems": [
    "csv_close_silent",
    "csv_close_refuted"
   ],
   "note": "That no reported error means the rows arrived is refuted."
  },
  {
   "property": "C50",
   "status": "proved",
   "theorems": [
    "sketch_weights",
    "sketch_merge_weights",
    "sketch_new_panics",
    "sketch_min_max",
    "sketch_exact",
    "sketch_rational",
    "sketch_merges_closest",
    "sketch_sum_bounds",
    "sketch_sum_exact",
    "sketch_quantile_exact",
    "sketch_panics",
    "sketch_restore_refuted",
    "sketch_within_refuted",
    "sketch_finite_refuted",
    "sketch_freqs_refuted",
    "sketch_sum_monotone_refuted",
    "sketch_median_refuted",
    "sketch_min_inf_refuted",
    "sketch_merge_min_refuted"
   ],
   "note": "float64 is Coq's SpecFloat (53 bits); weights are integers, exact below 2^53. The order of bins, their bounds, Sum and Quantile are proved over rationals. MarshalBinary is modelled up to the printing of numbers; NewFromSample is not modelled."
  },
  {
   "property": "C49",
   "status": "proved",
   "theorems": [
    "stats_report",
    "stats_calculate",
    "stats_histogram_exact",
    "stats_min_exact",
    "stats_min_refuted",
    "stats_null_first_refuted",
    "stats_nested_key_refuted",
    "stats_close_twice_refuted"
   ],
   "note": "The distinct-count estimate and the top-k texts come from external libraries and are parameters; what is proved is how their answers are reported. Maps are assumed to have distinct keys and texts to fit an int."
  },
  {
   "property": "C51",
   "status": "proved",
   "theorems": [
    "detect_without_reading",
    "detect_reading",
    "detect_settles",
    "detect_error_keeps_body_refuted",
    "detect_schema_of_format_refuted"
   ],
   "note": "A body put together by an earlier call is not read again in the model. Error texts are abbreviated. That an error leaves the body readable, and that the schema follows the structure's own format, are refuted."
  },
  {
   "property": "C52",
   "status": "proved",
   "theorems": [
    "json_detected",
    "json_detected_all_reads_refuted",
    "cbor_detected",
    "cbor_count_refuted"
   ],
   "note": "That every valid JSON document is accepted is refuted."
  },
  {
   "property": "C53",
   "status": "proved",
   "theorems": [
    "csv_detected",
    "csv_always_detected",
    "csv_chunks"
   ],
   "note": "The varName package, float parsing and whether a text parses as a 32-bit float are parameters."
  },
  {
   "property": "C67",
   "status": "proved",
   "theorems": [
    "table_schema_columns",
    "table_schema_refused",
    "table_schema_described_refuted"
   ],
   "note": "That every result describes a table is refuted."
  },
  {
   "property": "C55",
   "status": "proved",
   "theorems": [
    "validate_dataset_iff",
    "validate_nothing",
    "valid_name_iff"
   ],
   "note": "The regular expression of ValidName is modelled by the texts it matches."
  },
  {
   "property": "C56",
   "status": "proved",
   "theorems": [
    "entry_reader_batches",
    "entry_reader_success",
    "entry_reader_answers",
    "entry_reader_rejects",
    "batches_once",
    "entry_reader_whole_refuted",
    "entry_reader_empty_refuted",
    "entry_reader_duplicate_refuted"
   ],
   "note": "Package jsonschema is a parameter: any function from documents to errors. Float formatting and parsing are parameters with the stated condition. That the whole body is checked as one document is refuted."
  },
  {
   "property": "C68",
   "status": "proved",
   "theorems": [
    "check_csv_rows_iff"
   ],
   "note": "The text of errors is abbreviated."
  },
  {
   "property": "C58",
   "status": "proved",
   "theorems": [
    "base58_exact",
    "base58_injective",
    "sha256_fips",
    "hash_bytes_multihash",
    "hash_bytes_eq_iff",
    "hash_bytes_shape",
    "json_hash_encoding"
   ],
   "note": "sha-256, the multihash prefix and base58 are modelled from their documentation: their packages are not part of the repository. That different byte strings have different digests is not claimed."
  },
  {
   "property": "C59",
   "status": "proved",
   "theorems": [
    "generator_rows",
    "generator_paged",
    "random_type_ignored",
    "generator_never_panics_refuted"
   ],
   "note": "math/rand is a parameter: any stream of answers within the documented ranges. That ReadEntry never panics is refuted."
  },
  {
   "property": "C57",
   "status": "proved",
   "theorems": [
    "preview_keeps",
    "preview_shows",
    "preview_refuses",
    "preview_reports_errors_refuted",
    "preview_failure_keeps_refuted"
   ],
   "note": "The entry reader is any program that uses the file through Read; float formatting and parsing are parameters. io.TeeReader, LimitReader, MultiReader and ReadAll are modelled from their documentation. That reading errors are reported, and that a failure leaves the files alone, are refuted."
  },
  {
   "property": "C62",
   "status": "proved",
   "theorems": [
    "diffs_text",
    "diff_says",
    "diff_exact",
    "diff_succeeds",
    "diff_same",
    "diff_sees_body_refuted",
    "diff_sees_meta_refuted",
    "data_diff_summary_panics"
   ],
   "note": "Package gojsondiff and the encodings of components are parameters. That every change is seen is refuted."
  },
  {
   "property": "C64",
   "status": "proved",
   "theorems": [
    "print_sizes",
    "type_tests",
    "body_window",
    "body_refuses",
    "render_script",
    "render_refuses",
    "body_kept_refuted"
   ],
   "note": "Package html/template is a parameter: a template is any program that asks for body entries. That the body is left as it was is refuted for windows that stop early."
  },
  {
   "property": "C69",
   "status": "proved",
   "theorems": [
    "xlsx_cells",
    "xlsx_round_trip",
    "xlsx_values_back",
    "xlsx_setup",
    "xlsx_refuses",
    "xlsx_close_reports",
    "xlsx_wide_row",
    "xlsx_null_back_refuted"
   ],
   "note": "Package excelize is modelled from its documentation as sheets of addressed texts; its file format (save, load), sheet keys and what it keeps of a text are parameters. The round trip assumes that loading a saved book gives that book, and rows with at least one cell."
  },
  {
   "property": "C70",
   "status": "proved",
   "theorems": [
    "convert_json_to_cbor",
    "convert_cbor_to_json",
    "convert_through_cbor",
    "convert_json_object_to_cbor",
    "convert_cbor_object_to_json",
    "convert_truncated_json",
    "convert_json_to_ndjson",
    "convert_ndjson_to_json",
    "convert_setup_reader",
    "convert_setup_writer",
    "convert_keeps_values_refuted",
    "convert_all_entries_refuted",
    "convert_lines_tell_refuted"
   ],
   "note": "Compression is a parameter: any pair of functions; the round trip assumes that unpacking gives what was packed, and that a compressor accepts every write. Float formatting and parsing are parameters with the stated conditions. Conversions to and from CSV are in C77; those with XLSX are modelled but not covered by theorems here (see C69 for what that reader and writer do). That a conversion keeps all entries or reports it is refuted."
  },
  {
   "property": "C71",
   "status": "proved",
   "theorems": [
    "json_closure_exact",
    "type_parse_exact",
    "type_parse_total",
    "value_to_string_exact",
    "value_text_back",
    "parsed_text_back",
    "type_json_exact",
    "type_json_back",
    "integer_is_float",
    "json_types_checked_refuted"
   ],
   "note": "strconv for floats is a parameter with the stated conditions. That array and object texts are only made of arrays and objects is refuted."
  },
  {
   "property": "C72",
   "status": "proved",
   "theorems": [
    "values_read_exact",
    "values_read_total",
    "values_walk",
    "value_round_trip",
    "value_round_trip_refuted",
    "scalar_blanks_refuted"
   ],
   "note": "strconv.ParseFloat is a parameter that accepts no blanks; the round trip assumes that printed floats parse back. encoding/json is modelled as in C71's M_Unmarshal. That every Value comes back, or that blanks do not matter, is refuted."
  },
  {
   "property": "C73",
   "status": "proved",
   "theorems": [
    "converted_exact",
    "converted_total",
    "converted_mirrors",
    "converted_uint_refuted",
    "converted_equal_refuted"
   ],
   "note": "Go maps are lists of pairs; which of several errors is returned is not settled. That integers are kept and that both ways give equal Values are refuted."
  },
  {
   "property": "C74",
   "status": "proved",
   "theorems": [
    "methods_by_type",
    "methods_values",
    "string_tells_refuted",
    "equal_iff",
    "equal_reflexive",
    "equal_symmetric",
    "equal_transitive",
    "equal_reflexive_refuted"
   ],
   "note": "Float equality is a parameter. reflect.DeepEqual is modelled for sides that share no memory."
  },
  {
   "property": "C75",
   "status": "proved",
   "theorems": [
    "compare_changes_nothing",
    "compare_datasets_exact",
    "compare_commits_exact",
    "compare_metas_exact",
    "compare_structures_exact",
    "compare_all_fields_refuted",
    "compare_drop_refuted",
    "compare_drop_components_refuted",
    "compare_arbitrary_meta_refuted"
   ],
   "note": "Package go-cmp is modelled by its contract (equality of exported fields through pointers), for values without NaN. That all exported fields count and that transient values are dropped on both sides are refuted."
  },
  {
   "property": "C76",
   "status": "proved",
   "theorems": [
    "accrual_known",
    "accrual_whole",
    "accrual_parts",
    "accrual_order_refuted"
   ],
   "note": "That durations follow the order of the periods is refuted."
  },
  {
   "property": "C77",
   "status": "proved",
   "theorems": [
    "convert_json_to_csv",
    "convert_csv_to_json",
    "convert_csv_to_cbor",
    "convert_through_csv",
    "convert_table_rows_refuted",
    "convert_table_keeps_refuted"
   ],
   "note": "Compression and float texts are parameters as in C70. Source texts are tables as a writer could have written them (any quoting); for other texts see C24. That all rows are converted, and that a document comes back, are refuted."
  },
  {
   "property": "C78",
   "status": "proved",
   "theorems": [
    "buffer_after_close",
    "buffer_ndjson_queue",
    "buffer_json_queue",
    "buffer_cbor_waits",
    "buffer_not_made",
    "buffer_read_at_once_refuted",
    "buffer_bytes_refuted",
    "buffer_enclosing_kept_back_refuted"
   ],
   "note": "The queue of JSON values is about a reader whose buffer holds at least one block of 4096 bytes, as in the code, and about values that can be written; a refused first value leaves a text that cannot be read. bytes.Buffer is modelled by its contract. That every entry can be read at once, that Bytes is what remains to be read, and that no enclosing JSON array is written before Close are refuted."
  },
  {
   "property": "C79",
   "status": "proved",
   "theorems": [
    "calculate_whole",
    "calculate_broken",
    "calculate_truncated",
    "calculate_refused",
    "calculate_converted",
    "calculate_all_entries_refuted"
   ],
   "note": "Table texts without carriage returns in their cells. Compression, float texts, the cardinality estimate and the frequent texts are parameters as in C49 and C70; the estimate is one function of the texts seen. That the statistics are about all entries is refuted for cut CBOR bodies and unfinished last lines."
  },
  {
   "property": "C80",
   "status": "proved",
   "theorems": [
    "convert_holds",
    "chain_ends",
    "chain_holds",
    "chain_counts",
    "chain_keeps_refuted"
   ],
   "note": "Compression, float texts and the workbook library are parameters as in C70 and C69: a saved workbook is loaded as it was, a printed float is a JSON number that parses back. Targets are arrays; objects as targets are C70. That every chain keeps the values is refuted."
  },
  {
   "property": "C81",
   "status": "proved",
   "theorems": [
    "detected_read",
    "detected_table",
    "detected_always",
    "detected_packed_lines",
    "packed_refused",
    "detected_book_unreadable",
    "detected_all_rows_refuted",
    "detected_integers_refuted"
   ],
   "note": "ParseFloat, variable names, the nesting limit (at least 4), decompression and map order are parameters as in C53 and C70. The bytes read are those the body had; that the body file delivers them again after detection is part of the theorems. That all rows are read and that columns hold values of the detected type are refuted."
  },
  {
   "property": "C82",
   "status": "proved",
   "theorems": [
    "text_read",
    "time_read",
    "time_back_and_forth",
    "written_is_text",
    "components_survive_text",
    "dataset_survives_text",
    "dataset_saved",
    "dataset_text_tells",
    "structure_hash_tells",
    "unmarshal_anything",
    "unmarshal_dataset_bytes",
    "no_json_refused",
    "typed_members_read",
    "any_text_survives_refuted",
    "any_number_survives_refuted"
   ],
   "note": "The step from a number's text to float64 and back is a parameter that keeps the numbers in question. encoding/json, encoding/base64 and time are modelled from their documentation; a few laxities of time.Parse are not. That any text and any number survive is refuted."
  },
  {
   "property": "C83",
   "status": "proved",
   "theorems": [
    "validated_array",
    "validated_small",
    "validated_same",
    "validated_object",
    "validated_broken",
    "validated_refused",
    "validated_schema",
    "validated_unopened",
    "validated_converted",
    "validated_all_entries_refuted"
   ],
   "note": "What jsonschema finds in a document and whether a schema compiles are parameters, and so are the number formats, which have to agree (strict_format). That success means that the whole body was checked is refuted."
  },
  {
   "property": "C84",
   "status": "proved",
   "theorems": [
    "indented_is_text",
    "test_case_loads",
    "test_case_loaded",
    "test_case_determined",
    "test_cases_loaded",
    "test_cases_named",
    "body_path_agrees",
    "case_input_saved",
    "golden_exact",
    "golden_keeps",
    "golden_deterministic",
    "golden_settles",
    "body_path_agrees_refuted",
    "golden_settles_refuted"
   ],
   "note": "A directory is a function from names to files; paths are joined without cleaning. Decoding is that of C82, with its conditions on texts and numbers for golden_settles, and the comparison is that of C75. Marshalling fills in the kinds of readme and viz of the dataset itself (C37), so that a run with the very same object may differ from one with an equal one. That BodyFilepath names the body that is read, and that an updated golden file matches, are refuted."
  },
  {
   "property": "C85",
   "status": "proved",
   "theorems": [
    "page_array",
    "page_object",
    "page_broken",
    "preview_first",
    "preview_same",
    "preview_broken_refuted",
    "page_window_broken_refuted"
   ],
   "note": "Number formats, decompression and the workbook library are parameters as in C80. Byte strings of a CBOR body are as they were when read. The body file afterwards is C64's and C57's. That a body that cannot be read is always reported is refuted."
  },
  {
   "property": "C86",
   "status": "proved",
   "theorems": [
    "empty_iff",
    "empty_merged",
    "empty_sources",
    "ref_path",
    "ref_merged",
    "empty_meta_brings_nothing_refuted",
    "bare_structure_empty_refuted"
   ],
   "note": "Value level of components, as in C32; sharing of components between datasets is the subject of C34. That empty meta brings nothing, and that a structure written as a bare path is empty, are refuted."
  },
  {
   "property": "C87",
   "status": "proved",
   "theorems": [
    "requires_iff",
    "required_schema",
    "unrequired_schema",
    "requires_told_refuted"
   ],
   "note": "Workbook loading, decompression and map order are arbitrary. That every format needing a tabular schema is reported is refuted: the name .csv."
  }
 ]
}
