{
 "claims": [
  {
   "property": "C01",
   "status": "proved",
   "theorems": [
    "C01_verdict_table",
    "C01_table_is_functional",
    "C01_measured_values",
    "C01_every_execution"
   ],
   "note": ""
  },
  {
   "property": "C02",
   "status": "proved",
   "theorems": [
    "C02_success_iff"
   ],
   "note": ""
  },
  {
   "property": "C03",
   "status": "proved",
   "theorems": [
    "C03_error_exclusive",
    "C03_error_code",
    "C03_result_alone_refuted"
   ],
   "note": "The naive reading is refuted (C03_result_alone_refuted), as the statement says."
  },
  {
   "property": "C04",
   "status": "proved",
   "theorems": [
    "C04_signal_exit_code"
   ],
   "note": ""
  },
  {
   "property": "C05",
   "status": "proved",
   "theorems": [
    "C05_system_error"
   ],
   "note": ""
  },
  {
   "property": "C06",
   "status": "proved",
   "theorems": [
    "C06_memory",
    "C06_memory_overflow_boundary"
   ],
   "note": ""
  },
  {
   "property": "C07",
   "status": "proved",
   "theorems": [
    "C07_unlimited_verdict",
    "C07_unlimited_no_thread",
    "C07_unlimited_no_rlimit"
   ],
   "note": ""
  },
  {
   "property": "C08",
   "status": "proved",
   "theorems": [
    "C08_real_time",
    "C08_real_time_monotone",
    "C08_long_run_refuted"
   ],
   "note": "C08_long_run_refuted shows that the bound on the duration is needed."
  },
  {
   "property": "C09",
   "status": "proved",
   "theorems": [
    "C09_cpu_time_is_user_time",
    "C09_total_cpu_without_system_time",
    "C09_total_cpu_refuted"
   ],
   "note": "Total CPU time is refuted by C09_total_cpu_refuted; the case without system time asks for one full ms above the limit because of the rounding."
  },
  {
   "property": "C10",
   "status": "proved",
   "theorems": [
    "C10_config_check"
   ],
   "note": ""
  },
  {
   "property": "C11",
   "status": "proved",
   "theorems": [
    "C11_root_required"
   ],
   "note": ""
  },
  {
   "property": "C12",
   "status": "proved",
   "theorems": [
    "C12_failures",
    "C12_interleaved"
   ],
   "note": ""
  },
  {
   "property": "C13",
   "status": "proved",
   "theorems": [
    "C13_complete_sandbox",
    "C13_program_starts"
   ],
   "note": ""
  },
  {
   "property": "C14",
   "status": "proved",
   "theorems": [
    "C14_failure_ends",
    "C14_sigusr1_guarantee",
    "C14_whitelist_sigsys",
    "C14_always_sigusr1_refuted"
   ],
   "note": "C14_always_sigusr1_refuted: a whitelist filter turns the failure into SIGSYS; the exceptions are characterised exactly."
  },
  {
   "property": "C15",
   "status": "proved",
   "theorems": [
    "C15_resource_limits"
   ],
   "note": ""
  },
  {
   "property": "C16",
   "status": "proved",
   "theorems": [
    "C16_cpu_limit_granularity",
    "C16_kernel_limit_is_tle"
   ],
   "note": ""
  },
  {
   "property": "C17",
   "status": "proved",
   "theorems": [
    "C17_no_overflow",
    "C17_overflow_beyond",
    "C17_accepted_limits_refuted",
    "C17_timeout_no_overflow",
    "C17_timeout_refuted"
   ],
   "note": "Exact boundary; C17_accepted_limits_refuted and C17_timeout_refuted show that run() accepts values beyond it."
  },
  {
   "property": "C18",
   "status": "proved",
   "theorems": [
    "C18_standard_streams"
   ],
   "note": ""
  },
  {
   "property": "C19",
   "status": "proved",
   "theorems": [
    "C19_inherited_descriptors",
    "C19_only_standard_refuted"
   ],
   "note": "C19_only_standard_refuted refutes the naive claim."
  },
  {
   "property": "C20",
   "status": "proved",
   "theorems": [
    "C20_privilege_drop",
    "C20_program_is_never_root_refuted",
    "C20_no_way_back",
    "C20_no_way_back_without_profile_refuted"
   ],
   "note": "uid = -1 is the exception at the start (C20_program_is_never_root_refuted); a set-uid file without a profile is the exception after the start (C20_no_way_back_without_profile_refuted). C20_no_way_back is about the calls in Program.modelled."
  },
  {
   "property": "C21",
   "status": "proved",
   "theorems": [
    "C21_closed_at_most_once"
   ],
   "note": ""
  },
  {
   "property": "C22",
   "status": "proved",
   "theorems": [
    "C22_rule_selection"
   ],
   "note": ""
  },
  {
   "property": "C23",
   "status": "proved",
   "theorems": [
    "C23_fail_closed"
   ],
   "note": ""
  },
  {
   "property": "C24",
   "status": "proved",
   "theorems": [
    "C24_c_cpp",
    "C24_c_cpp_file_io"
   ],
   "note": ""
  },
  {
   "property": "C25",
   "status": "proved",
   "theorems": [
    "C25_no_write_access",
    "C25_no_modification_refuted"
   ],
   "note": "C25_no_modification_refuted refutes the stronger claim."
  },
  {
   "property": "C26",
   "status": "proved",
   "theorems": [
    "C26_general",
    "C26_no_process_no_write_refuted"
   ],
   "note": "C26_no_process_no_write_refuted lists calls that remain permitted."
  },
  {
   "property": "C27",
   "status": "proved",
   "theorems": [
    "C27_golang",
    "C27_node"
   ],
   "note": ""
  },
  {
   "property": "C28",
   "status": "proved",
   "theorems": [
    "C28_execve_by_pointer",
    "C28_only_exe_path_refuted"
   ],
   "note": "C28_only_exe_path_refuted refutes the naive claim."
  },
  {
   "property": "C29",
   "status": "proved",
   "theorems": [
    "C29_only_address_space",
    "C29_limits"
   ],
   "note": ""
  },
  {
   "property": "C30",
   "status": "proved",
   "theorems": [
    "C30_never_early",
    "C30_unlimited_never"
   ],
   "note": ""
  },
  {
   "property": "C31",
   "status": "proved",
   "theorems": [
    "C31_returns_in_time",
    "C31_killed"
   ],
   "note": ""
  },
  {
   "property": "C32",
   "status": "proved",
   "theorems": [
    "C32_timeout_is_reported",
    "C32_clock_refuted"
   ],
   "note": "Assumes: argument structure read in time, sleep not interrupted, wall clock not set (needed: C32_clock_refuted), clock values within range."
  },
  {
   "property": "C33",
   "status": "proved",
   "theorems": [
    "C33_until_reaped",
    "C33_finished_in_time",
    "C33_refuted"
   ],
   "note": "The unrestricted claim is refuted (C33_refuted)."
  },
  {
   "property": "C34",
   "status": "proved",
   "theorems": [
    "C34_refuted",
    "C34_args_read_first"
   ],
   "note": "The unrestricted claim is refuted (C34_refuted)."
  },
  {
   "property": "C35",
   "status": "proved",
   "theorems": [
    "C35_only_after_firing",
    "C35_refuted"
   ],
   "note": "The unrestricted claim is refuted (C35_refuted)."
  },
  {
   "property": "C36",
   "status": "proved",
   "theorems": [
    "C36_unless_stopped",
    "C36_refuted"
   ],
   "note": "The unrestricted claim is refuted (C36_refuted)."
  },
  {
   "property": "C37",
   "status": "proved",
   "theorems": [
    "C37_unless_spawned",
    "C37_refuted",
    "C37_confined",
    "C37_left_refuted"
   ],
   "note": "The claim for programs that can make processes is refuted (C37_refuted, C37_left_refuted for every rule that leaves a call)."
  },
  {
   "property": "C38",
   "status": "proved",
   "theorems": [
    "C38_documented_accepted",
    "C38_decimal",
    "C38_stored",
    "C38_rejected",
    "C38_formats",
    "C38_refuted",
    "C38_undefined",
    "C38_undefined_refuted"
   ],
   "note": "Exact in both directions; C38_refuted and C38_undefined_refuted show where the code deviates from the documented format."
  },
  {
   "property": "C39",
   "status": "proved",
   "theorems": [
    "C39_never_wraps",
    "C39_units",
    "C39_stored_is_int"
   ],
   "note": ""
  },
  {
   "property": "C40",
   "status": "proved",
   "theorems": [
    "C40_resolution",
    "C40_abbreviation",
    "C40_unknown_not_run"
   ],
   "note": ""
  },
  {
   "property": "C41",
   "status": "proved",
   "theorems": [
    "C41_reading_exists",
    "C41_reading_unique",
    "C41_depends_on_reading",
    "C41_reported",
    "C41_other_word_not_run"
   ],
   "note": ""
  },
  {
   "property": "C42",
   "status": "proved",
   "theorems": [
    "C42_refuted",
    "C42_terminates_iff",
    "C42_ordinary_words",
    "C42_deterministic"
   ],
   "note": "Exact iff; the unrestricted claim is refuted (C42_refuted)."
  },
  {
   "property": "C43",
   "status": "proved",
   "theorems": [
    "C43_block_swap",
    "C43_cycle_count"
   ],
   "note": ""
  },
  {
   "property": "C44",
   "status": "proved",
   "theorems": [
    "C44_run_only_faultless",
    "C44_faultless_runs",
    "C44_faults_exit_1",
    "C44_no_arguments"
   ],
   "note": ""
  },
  {
   "property": "C45",
   "status": "proved",
   "theorems": [
    "C45_configuration",
    "C45_settings"
   ],
   "note": ""
  },
  {
   "property": "C46",
   "status": "proved",
   "theorems": [
    "C46_help",
    "C46_version",
    "C46_only"
   ],
   "note": ""
  },
  {
   "property": "C47",
   "status": "proved",
   "theorems": [
    "C47_vectors",
    "C47_full_refuted",
    "C47_refuted"
   ],
   "note": "255 args: C47_full_refuted, C47_refuted."
  },
  {
   "property": "C48",
   "status": "proved",
   "theorems": [
    "C48_empty_not_run",
    "C48_strings_not_empty"
   ],
   "note": ""
  },
  {
   "property": "C49",
   "status": "proved",
   "theorems": [
    "C49_bounded",
    "C49_positive_iff",
    "C49_marker"
   ],
   "note": ""
  },
  {
   "property": "C50",
   "status": "proved",
   "theorems": [
    "C50_object",
    "C50_unique",
    "C50_determines",
    "C50_not_forged",
    "C50_only_results_are_json"
   ],
   "note": ""
  },
  {
   "property": "C51",
   "status": "proved",
   "theorems": [
    "C51_line",
    "C51_in_bounds_iff",
    "C51_exact_fit",
    "C51_run_calls",
    "C51_child_calls",
    "C51_refuted"
   ],
   "note": "Exact boundary; C51_refuted exhibits a line above it. The call sites are covered for source paths up to 4096 bytes and system messages up to 1000."
  },
  {
   "property": "C52",
   "status": "proved",
   "theorems": [
    "C52_exclusive",
    "C52_whole_lines",
    "C52_write_failure_blocks",
    "C52_refuted",
    "C52_shared_refuted",
    "C52_failures_reported",
    "C52_calls",
    "C52_cannot_open",
    "C52_session"
   ],
   "note": "C52_refuted (failing write keeps the lock) and C52_shared_refuted (shared description) are the exceptions the statement names. Appending is not assumed to be atomic."
  },
  {
   "property": "C53",
   "status": "proved",
   "theorems": [
    "C53_faithful",
    "C53_only",
    "C53_invalid",
    "C53_injective"
   ],
   "note": ""
  },
  {
   "property": "C54",
   "status": "proved",
   "theorems": [
    "C54_not_started",
    "C54_bool_not_run"
   ],
   "note": ""
  },
  {
   "property": "C55",
   "status": "proved",
   "theorems": [
    "C55_result",
    "C55_invalid_raises",
    "C55_decoding"
   ],
   "note": "Command line words of 100 MB and more are excluded (Linux allows 128 KiB), and 255 args (C47)."
  },
  {
   "property": "C56",
   "status": "proved",
   "theorems": [
    "C56_five",
    "C56_refuted"
   ],
   "note": "C56_refuted gives the meaning of -1 for the other four parameters."
  },
  {
   "property": "C57",
   "status": "proved",
   "theorems": [
    "C57_accepted_iff",
    "C57_returns_or_raises",
    "C57_carried",
    "C57_refuted",
    "C57_unlimited_refuted",
    "C57_result",
    "C57_extra_argument"
   ],
   "note": "C57_refuted and C57_unlimited_refuted are the second half of the statement (the defects); the rest is proved of every table."
  },
  {
   "property": "C58",
   "status": "proved",
   "theorems": [
    "C58_result",
    "C58_result_lines",
    "C58_nul_refuted",
    "C58_extra_field_refuted",
    "C58_no_brace"
   ],
   "note": "C58_nul_refuted and C58_extra_field_refuted are the exceptions the statement names."
  },
  {
   "property": "C59",
   "status": "proved",
   "theorems": [
    "C59_faithful",
    "C59_only",
    "C59_returns",
    "C59_unacceptable",
    "C59_types",
    "C59_number_type",
    "C59_overflow_iff",
    "C59_blank_refuted",
    "C59_semicolon_refuted",
    "C59_env_alone_refuted",
    "C59_env_type_refuted"
   ],
   "note": "The *_refuted theorems are the defects named in the second half of the statement. The shell model reads words, blanks, newlines and semicolons; any other special character makes it give no answer (None), and no theorem is claimed there. C59_unacceptable excludes exactly 255 args (see C47)."
  },
  {
   "property": "C60",
   "status": "proved",
   "theorems": [
    "C60_node",
    "C60_lua",
    "C60_lua_names",
    "C60_core",
    "C60_one_value"
   ],
   "note": "The Lua binding takes its values from the header, so only its names could differ."
  },
  {
   "property": "C61",
   "status": "proved",
   "theorems": [
    "C61_concatenation",
    "C61_limit_sharp"
   ],
   "note": ""
  },
  {
   "property": "C62",
   "status": "proved",
   "theorems": [
    "C62_in_bounds",
    "C62_short_form_in_bounds",
    "C62_prefix",
    "C62_flag_prefix",
    "C62_several_names_refuted",
    "C62_complete"
   ],
   "note": "The multi-name case is refuted (C62_several_names_refuted); no option of the judger has several names."
  },
  {
   "property": "C63",
   "status": "proved",
   "theorems": [
    "C63_total",
    "C63_output",
    "C63_verdict",
    "C63_success",
    "C63_sandboxed",
    "C63_not_started",
    "C63_failed_set_up",
    "C63_system_error_refuted"
   ],
   "note": "C63_system_error_refuted is the exception the statement names. Measured results assume an unadjusted wall clock and a run of less than 24 days."
  },
  {
   "property": "C64",
   "status": "proved",
   "theorems": [
    "C64_error_report",
    "C64_letters_refuted"
   ],
   "note": "C64_letters_refuted shows that the restriction to letters other than codes 1..5 is needed."
  },
  {
   "property": "C65",
   "status": "proved",
   "theorems": [
    "C65_help_text",
    "C65_version_text"
   ],
   "note": ""
  },
  {
   "property": "C66",
   "status": "proved",
   "theorems": [
    "C66_contained",
    "C66_ways_to_end",
    "C66_no_new_outputs_file_io_refuted"
   ],
   "note": "C66_no_new_outputs_file_io_refuted is the exception the statement names. Memory, file contents and time are not modelled."
  },
  {
   "property": "C67",
   "status": "proved",
   "theorems": [
    "C67_isolated",
    "C67_others_only_lower_limits",
    "C67_isolated_same_user_refuted"
   ],
   "note": "C67_isolated_same_user_refuted is the exception the statement names (a defect of the profile)."
  },
  {
   "property": "C68",
   "status": "proved",
   "theorems": [
    "C68_forbidden_call_ends_program",
    "C68_golang_refuted"
   ],
   "note": "C68_golang_refuted is the exception the statement names."
  },
  {
   "property": "C69",
   "status": "proved",
   "theorems": [
    "C69_log_closed",
    "C69_no_log_left_open",
    "C69_process_reaped",
    "C69_thread_cancelled",
    "C69_reaped_refuted",
    "C69_cancelled_refuted"
   ],
   "note": "C69_reaped_refuted and C69_cancelled_refuted are the exceptions the statement names. Process exit cleans up for the command line tool; the Lua binding calls run() in a long-lived process."
  },
  {
   "property": "C70",
   "status": "proved",
   "theorems": [
    "C70_memory_returned",
    "C70_configuration",
    "C70_configuration_refuted"
   ],
   "note": "C70_configuration_refuted is the exception the statement names. Errors raised by Lua itself (out of memory in the interpreter, metamethods) are not modelled."
  },
  {
   "property": "C71",
   "status": "proved",
   "theorems": [
    "C71_memory_returned",
    "C71_outcomes",
    "C71_any_table",
    "C71_any_table_refuted"
   ],
   "note": "C71_any_table_refuted shows that the restrictions on the table are needed. The undefined inputs of main are those of C38 and C47. The options and texts of alloc_longoptions are separate arrays in the model."
  },
  {
   "property": "C72",
   "status": "proved",
   "theorems": [
    "C72_sorts",
    "C72_stable_refuted",
    "C72_large_refuted"
   ],
   "note": "C72_stable_refuted and C72_large_refuted are the exceptions the statement names."
  },
  {
   "property": "C73",
   "status": "proved",
   "theorems": [
    "C73_lookup",
    "C73_listing",
    "C73_search",
    "C73_sweep",
    "C73_memory",
    "C73_uninitialised_refuted"
   ],
   "note": "C73_uninitialised_refuted is the exception the statement names. Strings are passed by value: a caller that passes a pointer into a command it is about to replace is not modelled. The load limit (a floating point product) is any function; the hash function is the code's."
  },
  {
   "property": "C74",
   "status": "proved",
   "theorems": [
    "C74_column",
    "C74_glossary",
    "C74_margin_refuted",
    "C74_no_width_refuted",
    "C74_empty_help_refuted"
   ],
   "note": "The three _refuted theorems are the exceptions the statement names. The text printed stays below the limit of the growable string (C61)."
  },
  {
   "property": "C75",
   "status": "proved",
   "theorems": [
    "C75_scan",
    "C75_compile_ends",
    "C75_compiled_is_written",
    "C75_written_compiles",
    "C75_match_ends",
    "C75_match_sound",
    "C75_match_in_bounds",
    "C75_match_complete",
    "C75_scan_without_matching",
    "C75_match_complete_general_refuted",
    "C75_match_complete_any_refuted",
    "C75_match_in_bounds_any_refuted",
    "C75_match_sound_word_refuted",
    "C75_match_sound_range_refuted",
    "C75_match_sound_count_refuted",
    "C75_written_compiles_long_refuted",
    "C75_scan_bad_pattern_refuted",
    "C75_compile_in_bounds_refuted"
   ],
   "note": "The _refuted theorems are the exceptions the statement names."
  },
  {
   "property": "C76",
   "status": "proved",
   "theorems": [
    "C76_scan",
    "C76_one",
    "C76_edges"
   ],
   "note": "Strings are values; the places of the three arrays are checked against their lengths."
  },
  {
   "property": "C77",
   "status": "proved",
   "theorems": [
    "C77_scan",
    "C77_one",
    "C77_ends",
    "C77_round_trip",
    "C77_edges",
    "C77_century_refuted",
    "C77_half_refuted",
    "C77_example_refuted",
    "C77_calendar_refuted",
    "C77_blank_refuted"
   ],
   "note": "The _refuted theorems are the exceptions the statement names. C77_ends covers all formats, also those with %C and several %y. Assumes the C locale, as the code's own tables of names do."
  },
  {
   "property": "C78",
   "status": "proved",
   "theorems": [
    "C78_size",
    "C78_captured",
    "C78_at_limit",
    "C78_below_limit",
    "C78_input",
    "C78_emptied",
    "C78_others",
    "C78_spelling_refuted",
    "C78_complete_refuted",
    "C78_total_refuted",
    "C78_input_refuted"
   ],
   "note": "The _refuted theorems are the exceptions the statement names. All files are regular files; shared mappings of files are not modelled."
  },
  {
   "property": "C79",
   "status": "proved",
   "theorems": [
    "C79_object",
    "C79_errors",
    "C79_negative_refuted",
    "C79_overflow_refuted",
    "C79_odd_refuted",
    "C79_zero_refuted"
   ],
   "note": "The _refuted theorems are the exceptions the statement names. What a word means is an argument of the model (see C13, C75-C77 for the conversions)."
  },
  {
   "property": "C80",
   "status": "proved",
   "theorems": [
    "C80_python",
    "C80_python_only",
    "C80_python_total",
    "C80_node",
    "C80_node_only",
    "C80_node_total",
    "C80_node_wrong_type",
    "C80_node_no_exception",
    "C80_node_overflow_refuted",
    "C80_node_env_alone_refuted"
   ],
   "note": "Composition of the binding models with the judger's transition system. Stated for calls that end with printed output; histories with undefined behaviour of the judger have no rule (world_ok and measurable exclude them for results). What the program writes to the judger's own streams is an argument."
  },
  {
   "property": "C81",
   "status": "proved",
   "theorems": [
    "C81_syntax",
    "C81_syntaxv",
    "C81_glossary",
    "C81_determined",
    "C81_overflow_refuted",
    "C81_switch_count_refuted",
    "C81_cut_refuted"
   ],
   "note": "Tables whose names fit (presentable), with counts as the constructors make them (countable), texts below the limit of the growable string. The _refuted theorems are the exceptions the statement names."
  },
  {
   "property": "C82",
   "status": "proved",
   "theorems": [
    "C82_errors",
    "C82_ask",
    "C82_help_or_errors",
    "C82_date_refuted",
    "C82_long_date_refuted"
   ],
   "note": "strftime is an argument. arg_file has no errors of its own. The _refuted theorems are the exceptions the statement names."
  },
  {
   "property": "C83",
   "status": "proved",
   "theorems": [
    "C83_words",
    "C83_empty_refuted"
   ],
   "note": "strtod is an argument that reads no further than its text. The _refuted theorem is the exception the statement names."
  },
  {
   "property": "C84",
   "status": "proved",
   "theorems": [
    "C84_outcome",
    "C84_empty",
    "C84_total",
    "C84_unique",
    "C84_stuck",
    "C84_plain"
   ],
   "note": "For fine letters and names (no \";\": the -W extension of getopt is not modelled) and tables whose entries have objects of their own. C84_plain ties it to the model of the judger's own table."
  },
  {
   "property": "C85",
   "status": "proved",
   "theorems": [
    "C85_read",
    "C85_settings",
    "C85_delivered",
    "C85_dashes"
   ],
   "note": "Exact names without \"=\"; an empty value cannot be given by name (it is an error, as the outcome of C84 says). C85_delivered and C85_dashes are end to end for tables of arg_lit, arg_int and arg_str."
  },
  {
   "property": "C86",
   "status": "proved",
   "theorems": [
    "C86_set_up",
    "C86_limit",
    "C86_calls",
    "C86_own_user",
    "C86_executed",
    "C86_shared_user",
    "C86_refused",
    "C86_independent_refuted",
    "C86_root_refuted"
   ],
   "note": "Threads, which the kernel counts like processes, are not modelled. The claims that programs of one user do not affect each other and that the limit holds for root are refuted (C86_independent_refuted, C86_root_refuted)."
  },
  {
   "property": "C87",
   "status": "proved",
   "theorems": [
    "C87_cpu_at_most",
    "C87_cpu_exact",
    "C87_cpu_verdict",
    "C87_single",
    "C87_confined",
    "C87_general",
    "C87_cpu_refuted",
    "C87_memory_at_most",
    "C87_memory_exact",
    "C87_memory_least",
    "C87_memory_refuted"
   ],
   "note": "User time and peak resident size as wait4 reports them. The claims without waiting and for memory held together are refuted (C87_cpu_refuted, C87_memory_refuted)."
  },
  {
   "property": "C88",
   "status": "proved",
   "theorems": [
    "C88_python",
    "C88_python_true",
    "C88_python_cut",
    "C88_node",
    "C88_node_cut",
    "C88_python_confined",
    "C88_node_confined",
    "C88_no_kill",
    "C88_sent",
    "C88_starts",
    "C88_time_refuted",
    "C88_python_origin_refuted",
    "C88_node_origin_refuted",
    "C88_node_error_refuted",
    "C88_node_silent"
   ],
   "note": "Killing the judger ends its threads and leaves the new process alone; its report leaves it in a prefix of any length. The claims about the limit of real time, the origin of a verdict and the Node function's error are refuted (C88_time_refuted, C88_*_origin_refuted, C88_node_error_refuted). That init reaps the orphan is not modelled."
  },
  {
   "property": "C89",
   "status": "proved",
   "theorems": [
    "C89_python",
    "C89_killed",
    "C89_node",
    "C89_python_single",
    "C89_node_single",
    "C89_node_refuted",
    "C89_stopped_refuted"
   ],
   "note": "The end of a pipe is: no living process has a descriptor of its writing end. Descriptors passed through sockets are not modelled. The claims without output_path and for stopped processes are refuted (C89_node_refuted, C89_stopped_refuted)."
  },
  {
   "property": "C90",
   "status": "proved",
   "theorems": [
    "C90_reads",
    "C90_only_what_is_read",
    "C90_every_line",
    "C90_ends",
    "C90_never",
    "C90_defined",
    "C90_words",
    "C90_words_in_place",
    "C90_parser"
   ],
   "note": "The declared letters are not NUL, '+', '-', ':', ';' or the character whose code is -1, the values returned by names are not -1 (Spec/GetoptSpec.v, fine). That -1 comes for every line is refuted by C90_never with Example C90_dash_never; C90_ends and C90_every_line say when it does."
  },
  {
   "property": "C91",
   "status": "proved",
   "theorems": [
    "C91_made",
    "C91_refused",
    "C91_nullcheck",
    "C91_free",
    "C91_freetable",
    "C91_given_back",
    "C91_free_alone",
    "C91_documented"
   ],
   "note": "Addresses and flags only; the contents of the objects are C79. 'A failed allocation shows as NULL' is false of the code: C91_refused, Example C91_third_fails. 'arg_free frees every object' is false: C91_free_alone, Example C91_leak."
  },
  {
   "property": "C92",
   "status": "proved",
   "theorems": [
    "C92_cpu_bound",
    "C92_memory_bound",
    "C92_not_early",
    "C92_time_available",
    "C92_memory_available",
    "C92_reported",
    "C92_cut_verdict",
    "C92_cut_is_time_limit_refuted",
    "C92_refused_memory_reported_refuted",
    "C92_checked_only_unbounded",
    "C92_any_profile",
    "C92_without_profile_refuted"
   ],
   "note": "The kernel's accounting (ticks, RLIMIT_CPU, RLIMIT_AS) is modelled from getrlimit(2), mmap(2), brk(2). 'A program ended for its time is reported a time limit' and 'asking for too much memory is reported' are false of the code: C92_cut_is_time_limit_refuted, C92_refused_memory_reported_refuted; with memory_limit_check_only: C92_checked_only_unbounded. Without a profile the bounds are false: C92_without_profile_refuted."
  },
  {
   "property": "C93",
   "status": "proved",
   "theorems": [
    "C93_untouched",
    "C93_judger_safe",
    "C93_alone",
    "C93_no_signals",
    "C93_filter",
    "C93_can_end",
    "C93_same_user_refuted",
    "C93_judger_without_profile_refuted"
   ],
   "note": "ptrace and process_vm_writev are not among the modelled calls; signals that only stop a process are not modelled (see C36). 'Programs do not end each other' is false for the same user under general, golang, node (C93_same_user_refuted, C93_can_end) and without a rule (C93_judger_without_profile_refuted)."
  },
  {
   "property": "C94",
   "status": "proved",
   "theorems": [
    "C94_collection",
    "C94_map",
    "C94_create",
    "C94_last_inserted_refuted",
    "C94_values_not_owned_refuted",
    "C94_same_value_refuted",
    "C94_iterators"
   ],
   "note": "The library's comment claims refuted: C94_values_not_owned_refuted; 'the last one inserted is found' is false after growth (C94_last_inserted_refuted)."
  },
  {
   "property": "C95",
   "status": "proved",
   "theorems": [
    "C95_match",
    "C95_search_ends",
    "C95_search_in_bounds",
    "C95_search_sound",
    "C95_search_plain",
    "C95_match_found",
    "C95_getsubexp",
    "C95_getsubexp_first",
    "C95_places_match",
    "C95_places_search",
    "C95_search_end_refuted",
    "C95_search_empty_refuted",
    "C95_range_refuted",
    "C95_places_inside_refuted",
    "C95_places_forgotten_refuted",
    "C95_places_right_refuted"
   ],
   "note": "C95_match ties the model with sub-expressions to the one of C75. trex_searchrange on a part of a text is modelled; only C95_range_refuted is about it."
  },
  {
   "property": "C96",
   "status": "proved",
   "theorems": [
    "C96_date",
    "C96_length",
    "C96_sorted",
    "C96_sorted_in_time",
    "C96_has_line",
    "C96_read_back",
    "C96_judgers",
    "C96_clocks_back_refuted",
    "C96_colon_refuted",
    "C96_far_future_refuted"
   ],
   "note": "The C library is part of the model here: localtime as a closed form proved equal to counting days in the Gregorian calendar, strftime for the conversions used. The three _refuted theorems are the limits named in the statement."
  },
  {
   "property": "C97",
   "status": "proved",
   "theorems": [
    "C97_measurements",
    "C97_more_generous",
    "C97_helps_refuted",
    "C97_only_three_limits",
    "C97_judged_again",
    "C97_less_use",
    "C97_microseconds_refuted"
   ],
   "note": "Statements about pairs of calls for given answers of the system; that kernel limits themselves change what a program does is C92. The two _refuted theorems are the limits named in the statement."
  },
  {
   "property": "C98",
   "status": "proved",
   "theorems": [
    "C98_measured",
    "C98_once",
    "C98_in_time",
    "C98_no_signal",
    "C98_too_late",
    "C98_edge_refuted",
    "C98_delays_refuted",
    "C98_endless"
   ],
   "note": "Life is measured on the monotonic clock from fork to the termination event in the interleaving model. Promptness (a bound lag on how long a party that can act is kept waiting) is a hypothesis of the upper bound only; the lower bound and C98_too_late hold for every execution. The two _refuted theorems are the limits named in the statement."
  },
  {
   "property": "C99",
   "status": "proved",
   "theorems": [
    "C99_each_call",
    "C99_what_others_do",
    "C99_undisturbed",
    "C99_success",
    "C99_refuted"
   ],
   "note": "Model/Calls.v puts any number of the executions of Model/Timeout.v side by side, with common clocks and process numbers. C99_each_call: every call is an execution of its own, so every theorem about single calls holds of it; C99_what_others_do: the only two effects of one call on another; C99_undisturbed and C99_success: calls that keep the delays of C98 end nobody else's program; C99_refuted: without them a slow timeout thread ends the program of the next call. A signal that goes astray arrives at once; a number read from dead arguments (C34) reaches nobody."
  },
  {
   "property": "C100",
   "status": "proved",
   "theorems": [
    "C100_path",
    "C100_judge",
    "C100_log",
    "C100_safe",
    "C100_history",
    "C100_first",
    "C100_kept",
    "C100_any_file_refuted",
    "C100_only_opens",
    "C100_rules"
   ],
   "note": "Model/Names.v is a model of the kernel's names (path_resolution(7), 40 links, owners and mode bits, sticky bit) and of the three openings of child.c; the specification has path resolution as inference rules. C100_any_file_refuted is the limit named in the statement, for every victim. Not modelled: mount points, access control lists, fs.protected_symlinks, capabilities, descriptors passed between processes, races between the resolution of a path and changes of names."
  },
  {
   "property": "C101",
   "status": "proved",
   "theorems": [
    "C101_secret",
    "C101_judged",
    "C101_together",
    "C101_sizes_refuted",
    "C101_only_input_refuted",
    "C101_listing",
    "C101_rules"
   ],
   "note": "Non-interference: C101_secret compares two runs of an arbitrary adaptive program on file systems that differ in the secret contents; C101_judged is the same for the process that src/child.c hands to execve, with its credentials (C20) and descriptors (C19). C101_sizes_refuted and C101_only_input_refuted are the limits named in the statement. Not modelled: times, /proc, other processes as a channel, programs started by the program."
  },
  {
   "property": "C102",
   "status": "proved",
   "theorems": [
    "C102_program",
    "C102_user",
    "C102_overwritten",
    "C102_same_program",
    "C102_same_refuted"
   ],
   "note": "Model/Starting.v models execve at src/child.c:173 after binfmt_elf and binfmt_script; Spec/StartingSpec.v has the first line and the chain of interpreters as a relation, and C102_program says they agree for all inputs. C102_same_refuted is the limit named in the statement. Not modelled: other binary formats, the length limit of the first line, faults inside an ELF file, set-user-id bits."
  },
  {
   "property": "C103",
   "status": "proved",
   "theorems": [
    "C103_quoted",
    "C103_only",
    "C103_reports",
    "C103_extends",
    "C103_extends_calls",
    "C103_length",
    "C103_wrapped",
    "C103_wrapped_refuted",
    "C103_single",
    "C103_backslash",
    "C103_double",
    "C103_double_backslash",
    "C103_open"
   ],
   "note": "Model/Shell.v extends the shell of NodeBinding.v by the three kinds of quotes (POSIX 2.2), C103_extends says that it is an extension; C103_reports composes the quoting with the whole path from the call to the verdict (as C80_node). C103_wrapped_refuted is the limit named in the statement. Expansions, redirections and operators other than ; and newline are outside the model: for commands with them outside quotes nothing is claimed."
  },
  {
   "property": "C104",
   "status": "proved",
   "theorems": [
    "C104_forbidden",
    "C104_success",
    "C104_signal",
    "C104_known",
    "C104_threads_refuted"
   ],
   "note": "Joins Model/Program.v (C66-C68), the rules (C24, C26, C27) and run() (C01, C04). `reported` relates the end of the program to the result by wait4's status word and ranges over all measured usages. C104_known shows that the restriction to modelled calls is empty under the whitelists; C104_threads_refuted is the limit named in the statement."
  },
  {
   "property": "C105",
   "status": "proved",
   "theorems": [
    "C105_prefix",
    "C105_over",
    "C105_success"
   ],
   "note": "On top of the file model of C78 and the report of C104. `writes_to` collects the situation, `never_short` is the condition that only the limit cuts a write. C105_case shows that a cut last write with SUCCESS exists."
  }
 ]
}