def claim(p, status, theorems, note=""):
    claims.append(dict(property=p, status=status, theorems=theorems, note=note))
claim("C01","proved",["replacecr_only_inserts","replacecr_each_read","replacecr_complete","replacecr_transparent","replacecr_terminates","replacecr_source_schedule_free","replacecr_read_size_independent_refuted"],"The unqualified claim (normalised output for all read sizes) is false and refuted; the exact behaviour is proved.")
claim("C02","proved",["tracked_reader_counts"])
claim("C03","proved",["paged_reader_window"])
claim("C04","proved",["copy_moves_everything","copy_stops_at_rejection","copy_success_means_complete"])
claim("C05","proved",["read_all_array_complete","read_all_object_complete","top_level_type_exact"])
claim("C06","proved",["each_entry_visits_all","each_entry_stops"])
claim("C07","proved",["convert_file_selection","convert_file_reports_errors_refuted","convert_file_setup_errors"],"The intended claim that a nil error means the whole selection was converted is refuted.")
claim("C28","proved",["col_letters_correct","col_letters_injective","col_letters_wellformed","col_letters_correct_refuted"],"The claim without the 17576 bound is refuted. 64 bit overflow above 26^13 is not modelled.")
claim("C29","proved",["abstract_name_standard","abstract_name_standard_refuted","abstract_name_injective","abstract_name_lowercase","abstract_name_collisions","abstract_name_injective_refuted","abstract_name_negative_panics"])
claim("C30","proved",["identity_reader_safe","identity_reader_nothing_lost","identity_slice_entries","identity_map_entries"])
claim("C31","proved",["identity_reader_terminates_refuted","identity_close_terminates_refuted","identity_reader_can_finish","identity_reader_no_early_deadlock"],"The intended claim (the reader always reaches EOF) is refuted for every data.")
claim("C47","proved",["stepfile_write_read_iff","stepfile_read_write","stepfile_empty_list_refuted","stepfile_reports_write_errors_refuted","stepfile_bad_script_rejected"])
claim("C43","proved",["kind_valid_safe","kind_type_panics_iff","component_prefix_injective","component_prefix_separates","kind_failed_decode_keeps_value_refuted","kind_valid_has_colon_refuted"])
claim("C44","proved",["data_format_accepts_exactly","data_format_parse_string","data_format_string_injective","data_format_json","data_format_failed_decode","data_format_out_of_range_refuted"],"The text between the quotes is decoded by encoding/json, represented by its result.")
claim("C45","proved",["csv_options_round_trip_iff","csv_options_separator_round_trip_refuted","csv_options_accepts_iff","csv_options_values","xlsx_options_round_trip","json_options_round_trip","format_config_formats"])
claim("C46","proved",["filename_round_trip","filename_success_sound","body_filename_round_trip"])
claim("C32","proved",["commit_assign_last_wins","stats_assign_last_wins","readme_viz_assign_last_wins","structure_assign_last_wins","meta_assign_last_wins","transform_assign_last_wins","transform_assign_merges","assign_self","assign_nothing","assign_composes"],"Config, resources and secrets of a transform are merged key by key.")
claim("C33","proved",["dataset_assign_components","dataset_assign_scalars"])
claim("C35","proved",["drop_transient_fields","drop_derived_fields","drop_idempotent_and_commute","structure_drop_keeps_definition"])
claim("C42","proved",["path_map_exact","path_map_nil"])
claim("C63","proved",["readme_viz_shallow_compare","transform_shallow_compare_exact","shallow_compare_equivalence"])
claim("C34","proved",["assign_write_set","assign_leaves_others_alone","assign_unshared_is_value_assign","adopted_component_is_shared","assign_keeps_sources_refuted","assign_is_value_assign_refuted"],"Maps inside transforms are treated as part of the transform object.")
claim("C60","proved",["meta_set_known_key","meta_set_other_key","meta_set_one_change","meta_set_never_path","meta_set_error_keeps_value_refuted","meta_set_arbitrary_binds"])
claim("C61","proved",["open_body_keeps_fields","open_body_inline","open_body_bytes","open_body_path","open_body_nothing","open_script_keeps_fields","open_script_text","open_script_path","open_script_nothing","open_rendered_path","inline_failure_keeps_fields","inline_text","inline_path","inline_nil_resolver","open_after_inline","inline_keeps_script_refuted"])
claim("C36","proved",["bare_path_iff","structure_bare_path_loses_format_refuted","meta_bare_path_loses_members_refuted"])
claim("C37","proved",["commit_round_trip","stats_round_trip","readme_round_trip","viz_round_trip","transform_round_trip","structure_round_trip","meta_round_trip","dataset_round_trip","encode_total","meta_round_trip_any_member_refuted","meta_decodes_what_it_encodes_refuted"],"Documents are trees; strings are taken to be valid UTF-8; times are instants.")
claim("C38","proved",["commit_reencode","stats_reencode","readme_viz_reencode","meta_reencode","structure_reencode_iff","transform_reencode_iff","dataset_reencode","dataset_reencode_empty_bytes_refuted","dataset_encode_effect","dataset_encode_fills_kinds"])
claim("C39","proved",["map_built_keys_ascending","commit_keys_ascending_iff","structure_keys_ascending_iff","transform_keys_ascending_iff","dataset_keys_ascending_iff","dataset_keys_ascending_refuted"])
claim("C40","proved",["secrets_not_encoded","secrets_presence_hidden_refuted"])
claim("C41","proved",["signing_bytes_text","signing_bytes_depend_on_covered","signing_bytes_injective","calendar","signed_time_text","signable_bytes_injective","signing_bytes_newline_refuted","signing_bytes_nanoseconds_refuted","signing_bytes_sorted_refuted"],
 "Injective on single-line values; collisions with line feeds, lost nanoseconds and unsorted lines are refuted claims.")
claim("C17","proved",["cbor_round_trip_array","cbor_round_trip_object","cbor_reads_array","cbor_reads_object","cbor_reads_indefinite"],"Byte strings are compared as they were when read; see C18.")
claim("C18","proved",["cbor_schedule_free","cbor_kept_entries","cbor_kept_schedule_free","cbor_kept_bytes_refuted"],"Kept byte strings share the buffer: the claim without that exception is refuted.")
claim("C19","proved",["cbor_truncation","cbor_truncated_array","cbor_truncated_object","cbor_truncation_detected_refuted"])
claim("C20","proved",["cbor_writer_array","cbor_writer_object","cbor_writer_reject"])
claim("C21","proved",["cbor_read_entry_terminates","cbor_read_terminates","cbor_read_fuel_irrelevant"],"Memory exhaustion and Go stack depth are not modelled; a declared array length above 2^44 is a panic.")
claim("C08","proved",["json_chunk_free","json_same_outcome","json_chunk_free_refuted"],"The claim without the condition on misspelled words is refuted. A \\u or \\x escape cut short by the closing quote is taken to decode to '?'.")
claim("C09","proved",["json_array_round_trip","json_array_beyond_int64","json_reads_array"],"Float formatting and parsing are parameters with the stated condition.")
claim("C10","proved",["json_object_round_trip","json_object_keys_kept","json_object_beyond_int64","json_reads_object"])
claim("C11","proved",["json_object_history","json_array_history","json_history_unique"])
claim("C12","proved",["json_compact_failures_reported","json_pretty_failures_reported","json_pretty_failure_refuted"],"The claim for pretty printing without the exception is refuted.")
claim("C13","proved",["json_truncated_array","json_truncated_object","json_written_truncated","json_written_object_truncated"])
claim("C14","proved",["json_string_inverted","json_valid_string_inverted","json_surrogates_not_combined"])
claim("C15","proved",["json_swallowed_first","json_swallowed_later"])
claim("C16","proved",["json_read_terminates"])
claim("C22","proved",["ndjson_round_trip","ndjson_exact_values","ndjson_too_deep"],"The nesting limit is a parameter (10000 in Go); float formatting and parsing are parameters with the stated condition.")
claim("C23","proved",["ndjson_lines","ndjson_every_stream","ndjson_chunk_free"])
claim("C65","proved",["ndjson_nil_means_written","ndjson_failure_sticks"])
claim("C48","proved",["compare_strings","compare_integers","compare_not_integers","compare_empty_first","compare_total_preorder","compare_numbers","compare_other_types","compare_numbers_antisymmetric_refuted","type_names_round_trip","type_bytes_name_refuted"],"Float parsing and comparison are parameters.")
claim("C66","proved",["parse_type_exact"],"Whether a text parses as a 32-bit float is a parameter.")
claim("C54","proved",["columns_exact","columns_error","columns_count","machine_titles_iff","machine_titles_problems","col_type_round_trip","col_type_decodes","has_type_iff"])
claim("C24","proved",["csv_round_trip","csv_rows_come_back","csv_reads","csv_answers_unique","csv_unix","csv_chunks_free","csv_bad_separator","csv_bad_separator_writes","csv_text_back_refuted"],"Rows coming back without the stated exceptions is refuted. The text of parse errors (line and column) is not modelled.")
claim("C25","proved",["csv_cells","csv_row","csv_own_type","csv_values_back","csv_constructors","csv_cell_back_refuted"],"Float formatting and parsing are parameters with the stated condition. A nil and an empty slice or map are not told apart.")
claim("C26","proved",["csv_round_trip","csv_reads","csv_values_back","csv_header_refuted"],"Refuted for a single column with an empty title.")
claim("C27","proved",["csv_close_silent","csv_close_refuted"],"That no reported error means the rows arrived is refuted.")
claim("C50","proved",["sketch_weights","sketch_merge_weights","sketch_new_panics","sketch_min_max","sketch_exact","sketch_rational","sketch_merges_closest","sketch_sum_bounds","sketch_sum_exact","sketch_quantile_exact","sketch_panics","sketch_restore_refuted","sketch_within_refuted","sketch_finite_refuted","sketch_freqs_refuted","sketch_sum_monotone_refuted","sketch_median_refuted","sketch_min_inf_refuted","sketch_merge_min_refuted"],"float64 is Coq's SpecFloat (53 bits); weights are integers, exact below 2^53. The order of bins, their bounds, Sum and Quantile are proved over rationals. MarshalBinary is modelled up to the printing of numbers; NewFromSample is not modelled.")
claim("C49","proved",["stats_report","stats_calculate","stats_histogram_exact","stats_min_exact","stats_min_refuted","stats_null_first_refuted","stats_nested_key_refuted","stats_close_twice_refuted"],"The distinct-count estimate and the top-k texts come from external libraries and are parameters; what is proved is how their answers are reported. Maps are assumed to have distinct keys and texts to fit an int.")
claim("C51","proved",["detect_without_reading","detect_reading","detect_settles","detect_error_keeps_body_refuted","detect_schema_of_format_refuted"],"A body put together by an earlier call is not read again in the model. Error texts are abbreviated. That an error leaves the body readable, and that the schema follows the structure's own format, are refuted.")
claim("C52","proved",["json_detected","json_detected_all_reads_refuted","cbor_detected","cbor_count_refuted"],"That every valid JSON document is accepted is refuted.")
claim("C53","proved",["csv_detected","csv_always_detected","csv_chunks"],"The varName package, float parsing and whether a text parses as a 32-bit float are parameters.")
claim("C67","proved",["table_schema_columns","table_schema_refused","table_schema_described_refuted"],"That every result describes a table is refuted.")
claim("C55","proved",["validate_dataset_iff","validate_nothing","valid_name_iff"],"The regular expression of ValidName is modelled by the texts it matches.")
claim("C56","proved",["entry_reader_batches","entry_reader_success","entry_reader_answers","entry_reader_rejects","batches_once","entry_reader_whole_refuted","entry_reader_empty_refuted","entry_reader_duplicate_refuted"],"Package jsonschema is a parameter: any function from documents to errors. Float formatting and parsing are parameters with the stated condition. That the whole body is checked as one document is refuted.")
claim("C68","proved",["check_csv_rows_iff"],"The text of errors is abbreviated.")
claim("C58","proved",["base58_exact","base58_injective","sha256_fips","hash_bytes_multihash","hash_bytes_eq_iff","hash_bytes_shape","json_hash_encoding"],"sha-256, the multihash prefix and base58 are modelled from their documentation: their packages are not part of the repository. That different byte strings have different digests is not claimed.")
claim("C59","proved",["generator_rows","generator_paged","random_type_ignored","generator_never_panics_refuted"],"math/rand is a parameter: any stream of answers within the documented ranges. That ReadEntry never panics is refuted.")
claim("C57","proved",["preview_keeps","preview_shows","preview_refuses","preview_reports_errors_refuted","preview_failure_keeps_refuted"],"The entry reader is any program that uses the file through Read; float formatting and parsing are parameters. io.TeeReader, LimitReader, MultiReader and ReadAll are modelled from their documentation. That reading errors are reported, and that a failure leaves the files alone, are refuted.")
claim("C62","proved",["diffs_text","diff_says","diff_exact","diff_succeeds","diff_same","diff_sees_body_refuted","diff_sees_meta_refuted","data_diff_summary_panics"],"Package gojsondiff and the encodings of components are parameters. That every change is seen is refuted.")
claim("C64","proved",["print_sizes","type_tests","body_window","body_refuses","render_script","render_refuses","body_kept_refuted"],"Package html/template is a parameter: a template is any program that asks for body entries. That the body is left as it was is refuted for windows that stop early.")
claim("C69","proved",["xlsx_cells","xlsx_round_trip","xlsx_values_back","xlsx_setup","xlsx_refuses","xlsx_close_reports","xlsx_wide_row","xlsx_null_back_refuted"],"Package excelize is modelled from its documentation as sheets of addressed texts; its file format (save, load), sheet keys and what it keeps of a text are parameters. The round trip assumes that loading a saved book gives that book, and rows with at least one cell.")
claim("C70","proved",["convert_json_to_cbor","convert_cbor_to_json","convert_through_cbor","convert_json_object_to_cbor","convert_cbor_object_to_json","convert_truncated_json","convert_json_to_ndjson","convert_ndjson_to_json","convert_setup_reader","convert_setup_writer","convert_keeps_values_refuted","convert_all_entries_refuted","convert_lines_tell_refuted"],"Compression is a parameter: any pair of functions; the round trip assumes that unpacking gives what was packed, and that a compressor accepts every write. Float formatting and parsing are parameters with the stated conditions. Conversions to and from CSV are in C77; those with XLSX are modelled but not covered by theorems here (see C69 for what that reader and writer do). That a conversion keeps all entries or reports it is refuted.")
claim("C71","proved",["json_closure_exact","type_parse_exact","type_parse_total","value_to_string_exact","value_text_back","parsed_text_back","type_json_exact","type_json_back","integer_is_float","json_types_checked_refuted"],"strconv for floats is a parameter with the stated conditions. That array and object texts are only made of arrays and objects is refuted.")
claim("C72","proved",["values_read_exact","values_read_total","values_walk","value_round_trip","value_round_trip_refuted","scalar_blanks_refuted"],"strconv.ParseFloat is a parameter that accepts no blanks; the round trip assumes that printed floats parse back. encoding/json is modelled as in C71's M_Unmarshal. That every Value comes back, or that blanks do not matter, is refuted.")
claim("C73","proved",["converted_exact","converted_total","converted_mirrors","converted_uint_refuted","converted_equal_refuted"],"Go maps are lists of pairs; which of several errors is returned is not settled. That integers are kept and that both ways give equal Values are refuted.")
claim("C74","proved",["methods_by_type","methods_values","string_tells_refuted","equal_iff","equal_reflexive","equal_symmetric","equal_transitive","equal_reflexive_refuted"],"Float equality is a parameter. reflect.DeepEqual is modelled for sides that share no memory.")
claim("C75","proved",["compare_changes_nothing","compare_datasets_exact","compare_commits_exact","compare_metas_exact","compare_structures_exact","compare_all_fields_refuted","compare_drop_refuted","compare_drop_components_refuted","compare_arbitrary_meta_refuted"],"Package go-cmp is modelled by its contract (equality of exported fields through pointers), for values without NaN. That all exported fields count and that transient values are dropped on both sides are refuted.")
claim("C76","proved",["accrual_known","accrual_whole","accrual_parts","accrual_order_refuted"],"That durations follow the order of the periods is refuted.")
claim("C77","proved",["convert_json_to_csv","convert_csv_to_json","convert_csv_to_cbor","convert_through_csv","convert_table_rows_refuted","convert_table_keeps_refuted"],"Compression and float texts are parameters as in C70. Source texts are tables as a writer could have written them (any quoting); for other texts see C24. That all rows are converted, and that a document comes back, are refuted.")
claim("C78","proved",["buffer_after_close","buffer_ndjson_queue","buffer_json_queue","buffer_cbor_waits","buffer_not_made","buffer_read_at_once_refuted","buffer_bytes_refuted","buffer_enclosing_kept_back_refuted"],"The queue of JSON values is about a reader whose buffer holds at least one block of 4096 bytes, as in the code, and about values that can be written; a refused first value leaves a text that cannot be read. bytes.Buffer is modelled by its contract. That every entry can be read at once, that Bytes is what remains to be read, and that no enclosing JSON array is written before Close are refuted.")
claim("C79","proved",["calculate_whole","calculate_broken","calculate_truncated","calculate_refused","calculate_converted","calculate_all_entries_refuted"],"Table texts without carriage returns in their cells. Compression, float texts, the cardinality estimate and the frequent texts are parameters as in C49 and C70; the estimate is one function of the texts seen. That the statistics are about all entries is refuted for cut CBOR bodies and unfinished last lines.")
claim("C80","proved",["convert_holds","chain_ends","chain_holds","chain_counts","chain_keeps_refuted"],"Compression, float texts and the workbook library are parameters as in C70 and C69: a saved workbook is loaded as it was, a printed float is a JSON number that parses back. Targets are arrays; objects as targets are C70. That every chain keeps the values is refuted.")
claim("C81","proved",["detected_read","detected_table","detected_always","detected_packed_lines","packed_refused","detected_book_unreadable","detected_all_rows_refuted","detected_integers_refuted"],"ParseFloat, variable names, the nesting limit (at least 4), decompression and map order are parameters as in C53 and C70. The bytes read are those the body had; that the body file delivers them again after detection is part of the theorems. That all rows are read and that columns hold values of the detected type are refuted.")
claim("C82","proved",["text_read","time_read","time_back_and_forth","written_is_text","components_survive_text","dataset_survives_text","dataset_saved","dataset_text_tells","structure_hash_tells","unmarshal_anything","unmarshal_dataset_bytes","no_json_refused","typed_members_read","any_text_survives_refuted","any_number_survives_refuted"],"The step from a number's text to float64 and back is a parameter that keeps the numbers in question. encoding/json, encoding/base64 and time are modelled from their documentation; a few laxities of time.Parse are not. That any text and any number survive is refuted.")
claim("C83","proved",["validated_array","validated_small","validated_same","validated_object","validated_broken","validated_refused","validated_schema","validated_unopened","validated_converted","validated_all_entries_refuted"],"What jsonschema finds in a document and whether a schema compiles are parameters, and so are the number formats, which have to agree (strict_format). That success means that the whole body was checked is refuted.")
claim("C84","proved",["indented_is_text","test_case_loads","test_case_loaded","test_case_determined","test_cases_loaded","test_cases_named","body_path_agrees","case_input_saved","golden_exact","golden_keeps","golden_deterministic","golden_settles","body_path_agrees_refuted","golden_settles_refuted"],"A directory is a function from names to files; paths are joined without cleaning. Decoding is that of C82, with its conditions on texts and numbers for golden_settles, and the comparison is that of C75. Marshalling fills in the kinds of readme and viz of the dataset itself (C37), so that a run with the very same object may differ from one with an equal one. That BodyFilepath names the body that is read, and that an updated golden file matches, are refuted.")
claim("C85","proved",["page_array","page_object","page_broken","preview_first","preview_same","preview_broken_refuted","page_window_broken_refuted"],"Number formats, decompression and the workbook library are parameters as in C80. Byte strings of a CBOR body are as they were when read. The body file afterwards is C64's and C57's. That a body that cannot be read is always reported is refuted.")
claim("C86","proved",["empty_iff","empty_merged","empty_sources","ref_path","ref_merged","empty_meta_brings_nothing_refuted","bare_structure_empty_refuted"],"Value level of components, as in C32; sharing of components between datasets is the subject of C34. That empty meta brings nothing, and that a structure written as a bare path is empty, are refuted.")
claim("C87","proved",["requires_iff","required_schema","unrequired_schema","requires_told_refuted"],"Workbook loading, decompression and map order are arbitrary. That every format needing a tabular schema is reported is refuted: the name .csv.")
