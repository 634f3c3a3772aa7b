{
 "claims": [
  {
   "property": "C01",
   "status": "proved",
   "theorems": [
    "C01_ancestor_contains",
    "C01_ancestor_in_root",
    "C01_ancestor_of_ancestor",
    "C01_bad_level_aborts"
   ],
   "note": "All aligned octants with 32-bit ticks and all levels; closed under the global context."
  },
  {
   "property": "C02",
   "status": "proved",
   "theorems": [
    "C02_octant_contains_location",
    "C02_true_location"
   ],
   "note": "For arbitrary cos/sin/projection oracles; C02_true_location relates the result to the rotation by the true azimuth within 1e-6 m, for a cosine and sine accurate to 2^-53 at the azimuth."
  },
  {
   "property": "C03",
   "status": "proved",
   "theorems": [
    "C03_upper_face",
    "C03_query_upper_face"
   ],
   "note": "Address computation and effect on queries."
  },
  {
   "property": "C04",
   "status": "proved",
   "theorems": [
    "C04_outside_rejected",
    "C04_nan_undefined",
    "C04_bad_level",
    "C04_true_location",
    "C04_query_outside"
   ],
   "note": "Address computation and effect on queries; C04_query_outside needs no assumption on the storage library."
  },
  {
   "property": "C05",
   "status": "proved",
   "theorems": [
    "C05_nested_levels"
   ],
   "note": ""
  },
  {
   "property": "C06",
   "status": "proved",
   "theorems": [
    "C06_centroid_elevation",
    "C06_bad_level"
   ],
   "note": ""
  },
  {
   "property": "C07",
   "status": "proved",
   "theorems": [
    "C07_level_of_edge",
    "C07_nearest_level",
    "C07_zero_resolution_undefined"
   ],
   "note": "log is an oracle with relative error at most eps <= 1/256."
  },
  {
   "property": "C08",
   "status": "proved",
   "theorems": [
    "C08_input_kept"
   ],
   "note": "All well-formed inputs, any storage that accepts appends in etree order."
  },
  {
   "property": "C09",
   "status": "proved",
   "theorems": [
    "C09_exactly_the_ancestors"
   ],
   "note": "Both directions: nothing but inputs and their proper ancestors, and each ancestor exactly once."
  },
  {
   "property": "C10",
   "status": "proved",
   "theorems": [
    "C10_mean_of_children"
   ],
   "note": "Bit-exact single-precision mean of the stored children values; inputs without NaN shear speed."
  },
  {
   "property": "C11",
   "status": "proved",
   "theorems": [
    "C11_counts"
   ],
   "note": "All eleven counters."
  },
  {
   "property": "C12",
   "status": "proved",
   "theorems": [
    "C12_averaging_succeeds"
   ],
   "note": "No exception, assertion failure or undefined behaviour; every record filled."
  },
  {
   "property": "C13",
   "status": "proved",
   "theorems": [
    "C13_append_order"
   ],
   "note": ""
  },
  {
   "property": "C14",
   "status": "proved",
   "theorems": [
    "C14_overlap_rejected",
    "C14_averaged_rejected",
    "C14_one_level_unchanged"
   ],
   "note": "Needs storage that refuses an octant already stored (refuses_duplicates)."
  },
  {
   "property": "C15",
   "status": "proved",
   "theorems": [
    "C15_root_alone",
    "C15_root_dropped"
   ],
   "note": ""
  },
  {
   "property": "C16",
   "status": "proved",
   "theorems": [
    "C16_mean_error",
    "C16_within_range_refuted"
   ],
   "note": "Error bound proved; the stronger claim that the mean stays within the range of the children is refuted with a witness."
  },
  {
   "property": "C17",
   "status": "proved",
   "theorems": [
    "C17_validates_first",
    "C17_only_output_changes",
    "C17_averages_file",
    "C17_same_file_destroyed",
    "C17_missing_schema_undefined"
   ],
   "note": "A database without any registered schema is undefined behaviour (strcmp on a null pointer), stated separately."
  },
  {
   "property": "C18",
   "status": "proved",
   "theorems": [
    "C18_maxres"
   ],
   "note": ""
  },
  {
   "property": "C19",
   "status": "proved",
   "theorems": [
    "C19_fixedres"
   ],
   "note": "For every resolution whose level is between 0 and 31; see C07 for the others."
  },
  {
   "property": "C20",
   "status": "proved",
   "theorems": [
    "C20_waveres"
   ],
   "note": ""
  },
  {
   "property": "C21",
   "status": "proved",
   "theorems": [
    "C21_missing_parent"
   ],
   "note": ""
  },
  {
   "property": "C22",
   "status": "proved",
   "theorems": [
    "C22_no_data",
    "C22_data_is_quiet"
   ],
   "note": ""
  },
  {
   "property": "C23",
   "status": "proved",
   "theorems": [
    "C23_extended"
   ],
   "note": ""
  },
  {
   "property": "C24",
   "status": "proved",
   "theorems": [
    "C24_names_selected",
    "C24_values_in_order"
   ],
   "note": ""
  },
  {
   "property": "C25",
   "status": "proved",
   "theorems": [
    "C25_unknown_name_reported",
    "C25_poisoned"
   ],
   "note": ""
  },
  {
   "property": "C26",
   "status": "proved",
   "theorems": [
    "C26_settings",
    "C26_names",
    "C26_unknown_type"
   ],
   "note": ""
  },
  {
   "property": "C27",
   "status": "proved",
   "theorems": [
    "C27_open_again",
    "C27_open",
    "C27_close"
   ],
   "note": ""
  },
  {
   "property": "C28",
   "status": "proved",
   "theorems": [
    "C28_squashed",
    "C28_unaffected"
   ],
   "note": ""
  },
  {
   "property": "C29",
   "status": "proved",
   "theorems": [
    "C29_read_only",
    "C29_history_independent",
    "C29_earlier_queries"
   ],
   "note": ""
  },
  {
   "property": "C30",
   "status": "proved",
   "theorems": [
    "C30_last_event",
    "C30_query_reports",
    "C30_error_hidden"
   ],
   "note": ""
  },
  {
   "property": "C31",
   "status": "proved",
   "theorems": [
    "C31_log_contents",
    "C31_no_log"
   ],
   "note": ""
  },
  {
   "property": "C32",
   "status": "proved",
   "theorems": [
    "C32_projection_failure"
   ],
   "note": ""
  },
  {
   "property": "C33",
   "status": "proved",
   "theorems": [
    "C33_is_the_method",
    "C33_query",
    "C33_status_and_message",
    "C33_null_handle",
    "C33_null_handle_others",
    "C33_create",
    "C33_destroy",
    "C33_use_after_destroy"
   ],
   "note": "Every C function on a live handle is the C++ call and returns the status; null handle only prints and returns an error code; use after destroy is undefined."
  },
  {
   "property": "C34",
   "status": "proved",
   "theorems": [
    "C34_forwards",
    "C34_null_code_aborts",
    "C34_bad_length_aborts",
    "C34_file_name",
    "C34_blank_name",
    "C34_unterminated_name",
    "C34_message",
    "C34_message_null_undefined"
   ],
   "note": "Fortran functions forward to C; file names are cut at the first blank whatever the length; message buffer filled without guaranteed terminator; null handle for message is undefined behaviour."
  },
  {
   "property": "C35",
   "status": "proved",
   "theorems": [
    "C35_pack_exact",
    "C35_pack_works",
    "C35_pack_reports",
    "C35_pack_onto_itself"
   ],
   "note": ""
  },
  {
   "property": "C36",
   "status": "proved",
   "theorems": [
    "C36_grid_added",
    "C36_counts_add_up",
    "C36_stays_sorted",
    "C36_units",
    "C36_elevation_units",
    "C36_unreadable_line",
    "C36_repeated_octant",
    "C36_database_built"
   ],
   "note": "Numbers are read up to the next white space by an arbitrary conversion function; points in pairwise different octants."
  },
  {
   "property": "C37",
   "status": "proved",
   "theorems": [
    "C37_every_text",
    "C37_list_read",
    "C37_last_name_needs_white_space",
    "C37_last_number_needs_white_space",
    "C37_no_list",
    "C37_no_name"
   ],
   "note": ""
  },
  {
   "property": "C38",
   "status": "proved",
   "theorems": [
    "C38_outside_stored",
    "C38_never_found",
    "C38_second_refused"
   ],
   "note": ""
  },
  {
   "property": "C39",
   "status": "proved",
   "theorems": [
    "C39_exaggeration_checked",
    "C39_resolution_checked",
    "C39_exaggeration_tolerance",
    "C39_resolution_tolerance",
    "C39_one_zero",
    "C39_both_zero_undefined",
    "C39_empty_file_undefined",
    "C39_level_out_of_range_undefined",
    "C39_short_header_accepted"
   ],
   "note": ""
  },
  {
   "property": "C40",
   "status": "proved",
   "theorems": [
    "C40_all_lines",
    "C40_first_error",
    "C40_undefined",
    "C40_lists_total",
    "C40_lists_unique",
    "C40_exit_0_complete_refuted"
   ],
   "note": "For every text (each lists exactly one sequence of locations). Assumes stored fault blocks and zones are 16-bit, as their type says. The refuted part is the reading of exit code 0 as completeness."
  },
  {
   "property": "C41",
   "status": "proved",
   "theorems": [
    "C41_largest_profile",
    "C41_entries",
    "C41_idempotent",
    "C41_machine",
    "C41_machine_entries",
    "C41_machine_ratios",
    "C41_idempotent_machine_refuted"
   ],
   "note": "Exact arithmetic: largest limited profile, exact flags, ratios, idempotence. Program's floating point arithmetic: never raises, limit up to one rounding, distance from the exact result, ratios to 2^-21; idempotence and 'changed Vs if flagged' are refuted for floating point by a witness."
  },
  {
   "property": "C42",
   "status": "proved",
   "theorems": [
    "C42_three_directions",
    "C42_program",
    "C42_counts",
    "C42_positions",
    "C42_domain"
   ],
   "note": "For every database satisfying the storage contract and every grid whose points lie in distinct stored octants; exact arithmetic and the program's floating point arithmetic with a stated tolerance; ratios to Vs exactly and to 2^-19."
  },
  {
   "property": "C43",
   "status": "proved",
   "theorems": [
    "C43_query_returns",
    "C43_query_throws",
    "C43_three_dimensions",
    "C43_attempt_values",
    "C43_minimums",
    "C43_positions",
    "C43_no_warning_left",
    "C43_error_sticks",
    "C43_floor"
   ],
   "note": "Exact characterisation of the wrapper's query (attempts, stopping, clipping, code, exception) for every behaviour of the underlying query; history theorems. Examples show that the minimum Vs is enforced only with projection and that an error in a later attempt is not reported."
  },
  {
   "property": "C44",
   "status": "proved",
   "theorems": [
    "C44_maxres",
    "C44_fixedres",
    "C44_waveres",
    "C44_determined",
    "C44_stored_means",
    "C44_extended",
    "C44_extended_determined"
   ],
   "note": "From the input file through averaging to the answer of a query, in terms of the input alone. The clause about locations in no input octant is read for the highest resolution; for a fixed resolution C44_fixedres gives the exact rule (mean over the octant of that level if it has input inside, else no data), and C44_waveres covers the third kind of query. C44_determined shows that the description allows one answer only."
  },
  {
   "property": "C45",
   "status": "proved",
   "theorems": [
    "C45_rotation",
    "C45_round_trip"
   ],
   "note": "C45_rotation is about the true azimuth of 53.638 degrees, for a cosine and sine accurate to 2^-53; C45_round_trip for any cosine and sine that form a unit vector."
  },
  {
   "property": "C46",
   "status": "proved",
   "theorems": [
    "C46_surface_elevation"
   ],
   "note": ""
  },
  {
   "property": "C47",
   "status": "proved",
   "theorems": [
    "C47_no_exception"
   ],
   "note": ""
  },
  {
   "property": "C48",
   "status": "proved",
   "theorems": [
    "C48_objects_independent"
   ],
   "note": "Objects reached through the C interface do not interfere, for every interleaving. The database behind a handle is read-only and private to it in the model."
  },
  {
   "property": "C49",
   "status": "proved",
   "theorems": [
    "C49_configured",
    "C49_types",
    "C49_unknown_type",
    "C49_fixedres_refuted"
   ],
   "note": "Configuration is exact; the clause for 'fixedres' is refuted by a witness."
  },
  {
   "property": "C50",
   "status": "proved",
   "theorems": [
    "C50_options",
    "C50_help",
    "C50_stray",
    "C50_unknown_refused_refuted"
   ],
   "note": "getopt() is modelled after GNU getopt. The last clause is refuted by a witness."
  },
  {
   "property": "C51",
   "status": "proved",
   "theorems": [
    "C51_no_start",
    "C51_complete"
   ],
   "note": "Databases already opened are assumed to close; if one does not, the destructor uses a deleted error handler (see C40_first_error)."
  },
  {
   "property": "C52",
   "status": "proved",
   "theorems": [
    "C52_depth",
    "C52_layered",
    "C52_surface",
    "C52_no_data",
    "C52_refused",
    "C52_squashed",
    "C52_no_data_unreached_refuted",
    "C52_surface_refuted",
    "C52_squashed_depth_refuted"
   ],
   "note": "Runs over a file with one point (C53 extends them to many). Ranges of 1 m to 1000 km; logarithms with relative error up to 1/256. The three claims that are false of the code are refuted by witnesses."
  },
  {
   "property": "C53",
   "status": "proved",
   "theorems": [
    "C53_all_lines",
    "C53_not_closed",
    "C53_first_stop",
    "C53_first_crash",
    "C53_failed_open",
    "C53_no_points",
    "C53_lists_total",
    "C53_lists_unique",
    "C53_options",
    "C53_help",
    "C53_unknown",
    "C53_files",
    "C53_failed_elevation",
    "C53_failed_elevation_refuted"
   ],
   "note": "Writes to the output file are assumed to succeed. After exit(1) inside the search the lines are those handed to the stream; its buffer may not have reached the file (C72). A failed search for the surface ends the run only if no later query reports a warning: the claim without that condition is refuted."
  },
  {
   "property": "C54",
   "status": "proved",
   "theorems": [
    "C54_parameters",
    "C54_no_file",
    "C54_other_program",
    "C54_unknown_setting",
    "C54_bad_number",
    "C54_bad_type",
    "C54_unclosed",
    "C54_final_brace_refuted",
    "C54_no_value_undefined",
    "C54_sea_level_refuted"
   ],
   "note": "Gaps before a delimiter of at most 127 characters, as the program requires. Found false of the code: zero as a value (a corner at sea level) counts as missing; a file whose last character is the closing brace is refused; a file that ends after 'cache-size =' makes the program read a variable that was never set."
  },
  {
   "property": "C55",
   "status": "proved",
   "theorems": [
    "C55_extract",
    "C55_input_unopened",
    "C55_no_temporary",
    "C55_labels_fit"
   ],
   "note": "For every input satisfying the search contract whose values are 32-bit floating point and 16-bit integer numbers. The coordinates of the points are assumed to be doubles (NaN included)."
  },
  {
   "property": "C56",
   "status": "proved",
   "theorems": [
    "C56_run",
    "C56_domain",
    "C56_confined",
    "C56_no_start",
    "C56_no_copy",
    "C56_voids_kept_refuted"
   ],
   "note": "C54 says which parameter files read well, C56_domain gives the run for domains made of whole octants, without assumptions about where the points lie. The refuted clause is witnessed by a run that turns a point without data into one with speeds, density and quality factors of 1540."
  },
  {
   "property": "C57",
   "status": "proved",
   "theorems": [
    "C57_avg",
    "C57_pack",
    "C57_gen",
    "C57_grade",
    "C57_separate_words",
    "C57_read_in_one_way",
    "C57_help",
    "C57_leftover_words_refuted",
    "C57_joined_refused"
   ],
   "note": "Option parsing is glibc getopt without POSIXLY_CORRECT. What the library prints is in C65 and C66."
  },
  {
   "property": "C58",
   "status": "proved",
   "theorems": [
    "C58_avg_exit_0",
    "C58_pack_exit_0",
    "C58_gen_exit_0",
    "C58_grade_exit_0",
    "C58_codes",
    "C58_confined",
    "C58_every_file_used_refuted"
   ],
   "note": "C58_grade_exit_0 assumes what gradecencalvm does not check: the search contract of the input, the close of the temporary file, a cursor that reaches the end, searches and updates of the output that do what they say; every failure the program notices is allowed. C58_codes and C58_confined cover all four programs. The refuted clause is witnessed by a listed file that holds only the two resolutions."
  },
  {
   "property": "C59",
   "status": "proved",
   "theorems": [
    "C59_built",
    "C59_answers",
    "C59_grid_points"
   ],
   "note": "C59_built gives the hypothesis of all theorems of C44, so queries at a fixed level and for a period are covered as well. The query object is one that has the resulting records open (the contract of the search is in SpecQuery.v)."
  },
  {
   "property": "C60",
   "status": "proved",
   "theorems": [
    "C60_described",
    "C60_exit_0",
    "C60_not_described",
    "C60_after_build"
   ],
   "note": ""
  },
  {
   "property": "C61",
   "status": "proved",
   "theorems": [
    "C61_command_line",
    "C61_no_run",
    "C61_long_value",
    "C61_refuses",
    "C61_refuses_iff",
    "C61_text",
    "C61_lists",
    "C61_all_lines",
    "C61_same_run",
    "C61_endless",
    "C61_first_error",
    "C61_undefined",
    "C61_exit_0_complete_refuted",
    "C61_ends_refuted"
   ],
   "note": "C61_text: every text falls under one of the two cases. fscanf is modelled up to white space; whether a word that is not a number and ends the file is looked at up to its end is left open (to_end). malloc does not fail."
  },
  {
   "property": "C62",
   "status": "proved",
   "theorems": [
    "C62_refuses",
    "C62_no_null",
    "C62_all_lines",
    "C62_write_fails",
    "C62_undefined",
    "C62_error_ends_run_refuted"
   ],
   "note": "Reading and writing by the Fortran system are oracles (list of locations, then end of file or an unreadable record). Names of 64 characters or more are not covered (plain_name)."
  },
  {
   "property": "C63",
   "status": "proved",
   "theorems": [
    "C63_failures_reported",
    "C63_file_failures"
   ],
   "note": "Every call may fail independently, as a function of its arguments and of what is stored. In C63_file_failures the records are those that the cursor delivers (C64)."
  },
  {
   "property": "C64",
   "status": "proved",
   "theorems": [
    "C64_average_truncated",
    "C64_pack_truncated",
    "C64_average_not_closed",
    "C64_grid_not_closed",
    "C64_return_means_complete_refuted"
   ],
   "note": "Found in the code: the result of etree_advcursor is not told apart from the end of the data, and the results of etree_close are ignored by the averager and the creator."
  },
  {
   "property": "C65",
   "status": "proved",
   "theorems": [
    "C65_report",
    "C65_no_report",
    "C65_program",
    "C65_agrees_with_info"
   ],
   "note": "The order in which text appears on the two streams relative to each other is not modelled; writing to them succeeds."
  },
  {
   "property": "C66",
   "status": "proved",
   "theorems": [
    "C66_effects",
    "C66_file",
    "C66_quiet",
    "C66_exit_0",
    "C66_exit_1",
    "C66_pack",
    "C66_labels",
    "C66_no_fault_block_refuted"
   ],
   "note": "Formatting of coordinates (scientific, six digits) is an oracle. C66_no_fault_block_refuted: the label says the opposite of the point."
  },
  {
   "property": "C67",
   "status": "proved",
   "theorems": [
    "C67_killed",
    "C67_not_killed",
    "C67_run_again",
    "C67_pack_completes",
    "C67_closed",
    "C67_written_while_open",
    "C67_old_or_new_refuted"
   ],
   "note": "A kill of the process at any call; files that are closed keep their contents (no power failure). C67_old_or_new_refuted: the output is not replaced as a whole."
  },
  {
   "property": "C68",
   "status": "proved",
   "theorems": [
    "C68_together",
    "C68_ends",
    "C68_schedule_irrelevant"
   ],
   "note": "Calls that touch files are interleaved; texts (grids, parameters) and the database that the gradient program queries are not changed meanwhile."
  },
  {
   "property": "C69",
   "status": "proved",
   "theorems": [
    "C69_told",
    "C69_exit_0",
    "C69_not_closing_refuted"
   ],
   "note": "C69_not_closing_refuted: the hypothesis that the input of the gradient program closes is needed."
  },
  {
   "property": "C70",
   "status": "proved",
   "theorems": [
    "C70_constant",
    "C70_constant_averaged",
    "C70_squashed"
   ],
   "note": "The first two: squashing off, or the location at or below its limit. C70_squashed: squashing on, both locations above its limit, material values only."
  },
  {
   "property": "C71",
   "status": "proved",
   "theorems": [
    "C71_stages",
    "C71_killed",
    "C71_run_again"
   ],
   "note": "A stream's file holds an initial part of what was written to it (assumption on the file system, in the definition may_remain)."
  },
  {
   "property": "C72",
   "status": "proved",
   "theorems": [
    "C72_stages",
    "C72_killed",
    "C72_left",
    "C72_run_again",
    "C72_lost_refuted"
   ],
   "note": "The last claim is false of the code: C72_lost_refuted."
  },
  {
   "property": "C73",
   "status": "proved",
   "theorems": [
    "C73_read_back",
    "C73_words_unique",
    "C73_any_number_refuted"
   ],
   "note": "The last claim is false of the code: C73_any_number_refuted. The contract on the C++ library is `prints`, satisfied by the formatter of C73_example."
  },
  {
   "property": "C74",
   "status": "proved",
   "theorems": [
    "C74_lines",
    "C74_grid_points"
   ],
   "note": "Under the contracts on storage, projection, search and number formatting named in the theorem (storage_works, opens_files, prints); C74_example meets all of them."
  },
  {
   "property": "C75",
   "status": "proved",
   "theorems": [
    "C75_depths"
   ],
   "note": "The resolution is 12.5 m + 400 eps + 1 mm for logarithms with relative error eps (SpecIso.resolution)."
  },
  {
   "property": "C76",
   "status": "proved",
   "theorems": [
    "C76_overlap",
    "C76_grids",
    "C76_twice",
    "C76_twice_flat"
   ],
   "note": "Storage is assumed to work and to refuse duplicates (accepts, refuses_duplicates, storage_works)."
  },
  {
   "property": "C77",
   "status": "proved",
   "theorems": [
    "C77_location_alone",
    "C77_poisoned",
    "C77_parameters",
    "C77_function",
    "C77_query_undefined"
   ],
   "note": "What the library does with its error number is not in the repository: both possibilities are covered."
  },
  {
   "property": "C78",
   "status": "proved",
   "theorems": [
    "C78_stored",
    "C78_fixedres",
    "C78_waveres"
   ],
   "note": "Values at most 2^120 in magnitude (tame); C78_bound_needed shows an infinite mean without a bound."
  },
  {
   "property": "C79",
   "status": "proved",
   "theorems": [
    "C79_fixedres",
    "C79_waveres",
    "C79_agree",
    "C79_averaged",
    "C79_water"
   ],
   "note": "The logarithm is any function that never decreases (log_ordered). Without extended database."
  },
  {
   "property": "C80",
   "status": "proved",
   "theorems": [
    "C80_stored",
    "C80_maxres",
    "C80_fixedres",
    "C80_waveres",
    "C80_extended"
   ],
   "note": "The first three query theorems are without extended database, C80_extended is with one."
  },
  {
   "property": "C81",
   "status": "proved",
   "theorems": [
    "C81_same_model"
   ],
   "note": "Storage that never fails (storage_works); C36 and C69 say what happens otherwise."
  },
  {
   "property": "C82",
   "status": "proved",
   "theorems": [
    "C82_built",
    "C82_answers"
   ],
   "note": "Storage that never fails (storage_works); C56 and C69 say what happens otherwise. The octants are smaller than the root, as for any resolution below the size of the domain."
  },
  {
   "property": "C83",
   "status": "proved",
   "theorems": [
    "C83_untouched",
    "C83_speeds_kept",
    "C83_twice",
    "C83_run_twice"
   ],
   "note": "The model of C83_example meets the hypotheses of the first two theorems, that of C42_nontrivial those of C83_twice, C83_run_example shows two runs of the program. The drift of the other values for limits that are not single precision numbers is C41_idempotent_machine_refuted."
  },
  {
   "property": "C84",
   "status": "proved",
   "theorems": [
    "C84_same_records",
    "C84_one_query",
    "C84_packed",
    "C84_pack_and_average",
    "C84_programs",
    "C84_packed_programs",
    "C84_c_programs",
    "C84_packed_c",
    "C84_spatial",
    "C84_packed_spatial"
   ],
   "note": "Packing that returned and whose cursor did not stop early (C64 is about that failure). The library meets the search contract; opening and closing fail for the same names in both environments."
  },
  {
   "property": "C85",
   "status": "proved",
   "theorems": [
    "C85_near",
    "C85_runs"
   ],
   "note": "C85_example and C85_runs_example meet the hypotheses: two models that differ in one corner, the opposite one is out of reach."
  },
  {
   "property": "C86",
   "status": "proved",
   "theorems": [
    "C86_raised",
    "C86_changed",
    "C86_maxres",
    "C86_fixedres",
    "C86_kinds_refuted"
   ],
   "note": "C86_example, C86_example_values, C86_example_queries and C86_example_answers are concrete cases: rock faster by 100 m/s. C86_kinds_refuted shows why the kinds must agree."
  },
  {
   "property": "C87",
   "status": "proved",
   "theorems": [
    "C87_order",
    "C87_any_order",
    "C87_around_open",
    "C87_around_query",
    "C87_complaints_refuted",
    "C87_name_after_open_refuted"
   ],
   "note": "What a call may change or depend on is a table in SpecOrderCalls.v. The two refutations say which exchanges can be noticed."
  },
  {
   "property": "C88",
   "status": "proved",
   "theorems": [
    "C88_nested",
    "C88_targets",
    "C88_models",
    "C88_squashed",
    "C88_files",
    "C88_reached_nowhere_refuted"
   ],
   "note": "With squashing the depths are off (C52_squashed_depth_refuted) but nested (C88_squashed). That the targets are reached at the lowest elevation is a hypothesis: otherwise the program ends with an error or writes -999 (C52, C88_reached_nowhere_refuted)."
  },
  {
   "property": "C89",
   "status": "proved",
   "theorems": [
    "C89_join",
    "C89_split",
    "C89_shuffle"
   ],
   "note": "That every write succeeds is part of running: without it exit code 0 does not mean a complete output (C40_exit_0_complete_refuted)."
  },
  {
   "property": "C90",
   "status": "proved",
   "theorems": [
    "C90_join",
    "C90_split",
    "C90_shuffle"
   ],
   "note": "The runs start from the same files; the application leaves all files but its output as they are (C53)."
  }
 ]
}