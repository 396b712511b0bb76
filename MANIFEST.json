{
 "claims": [
  {
   "property": "C01",
   "status": "proved",
   "theorems": [
    "C01_round_trip",
    "C01_exception",
    "C01_letter_separator_refuted"
   ],
   "note": "Single-character separators which are not ASCII letters or digits; the documented exception is proved too. A letter as separator breaks the round trip (witness)."
  },
  {
   "property": "C02",
   "status": "proved",
   "theorems": [
    "C02_injective",
    "C02_directories",
    "C02_untyped_refuted",
    "C02_empty_names_refuted"
   ],
   "note": "For values of the declared types. Values of other types, and levels giving an empty directory name, are refuted by witnesses."
  },
  {
   "property": "C03",
   "status": "proved",
   "theorems": [
    "C03_validation",
    "C03_refusals"
   ],
   "note": ""
  },
  {
   "property": "C04",
   "status": "proved",
   "theorems": [
    "C04_containment",
    "C04_escape_refuted",
    "C04_dot_separator_refuted"
   ],
   "note": "Under the proviso that no level gives an empty name, and that the separator is neither '/' nor '.'; escapes by witnesses otherwise."
  },
  {
   "property": "C05",
   "status": "proved",
   "theorems": [
    "C05_canonical",
    "C05_refuted"
   ],
   "note": "Canonical directory names; the false unrestricted statement is refuted by witnesses."
  },
  {
   "property": "C06",
   "status": "proved",
   "theorems": [
    "C06_fields",
    "C06_unconstructible_refuted"
   ],
   "note": "Includes that the result has the declared types."
  },
  {
   "property": "C07",
   "status": "proved",
   "theorems": [
    "C07_reopen",
    "C07_from_empty",
    "C07_failed_write_refuted"
   ],
   "note": "Histories of writes, deletions and re-openings with keys of C01/C04 and writers which do nothing when they fail; a failing write which leaves a file behind is refuted by a witness."
  },
  {
   "property": "C08",
   "status": "proved",
   "theorems": [
    "C08_write",
    "C08_delete"
   ],
   "note": "Writers confined to the directory of the key (what writer.write and fastparquet are assumed to do)."
  },
  {
   "property": "C09",
   "status": "proved",
   "theorems": [
    "C09_pruning",
    "C09_base_kept",
    "C09_base_removed_refuted"
   ],
   "note": "Exact set of removed paths, base path a str without trailing '/'; the two other forms of base path are refuted by witnesses."
  },
  {
   "property": "C10",
   "status": "proved",
   "theorems": [
    "C10_collection"
   ],
   "note": ""
  },
  {
   "property": "C11",
   "status": "proved",
   "theorems": [
    "C11_rejected",
    "C11_accepted"
   ],
   "note": ""
  },
  {
   "property": "C12",
   "status": "proved",
   "theorems": [
    "C12_scan",
    "C12_names",
    "C12_paths",
    "C12_missing",
    "C12_opening",
    "C12_parquet_names"
   ],
   "note": "Also what is found at opening and which names are parquet files."
  },
  {
   "property": "C13",
   "status": "proved",
   "theorems": [
    "C13_lossless"
   ],
   "note": ""
  },
  {
   "property": "C14",
   "status": "proved",
   "theorems": [
    "C14_bound",
    "C14_accepted",
    "C14_sharp_refuted"
   ],
   "note": "With sharp_on the bound can be exceeded (witness)."
  },
  {
   "property": "C15",
   "status": "proved",
   "theorems": [
    "C15_sharp",
    "C15_sharp_dedup"
   ],
   "note": ""
  },
  {
   "property": "C16",
   "status": "proved",
   "theorems": [
    "C16_dedup"
   ],
   "note": ""
  },
  {
   "property": "C17",
   "status": "proved",
   "theorems": [
    "C17_permutation"
   ],
   "note": ""
  },
  {
   "property": "C18",
   "status": "proved",
   "theorems": [
    "C18_keys"
   ],
   "note": ""
  },
  {
   "property": "C19",
   "status": "proved",
   "theorems": [
    "C19_newest",
    "C19_coalescing_refuted",
    "C19_creation_refuted"
   ],
   "note": "The two stated exceptions are witnessed."
  },
  {
   "property": "C20",
   "status": "proved",
   "theorems": [
    "C20_ordered",
    "C20_gap_refuted",
    "C20_coalescing_refuted",
    "C20_straddling_refuted"
   ],
   "note": "Conditions are those of the statement; each exception is witnessed."
  },
  {
   "property": "C21",
   "status": "proved",
   "theorems": [
    "C21_map",
    "C21_function",
    "C21_progress"
   ],
   "note": "Any row group sizes, any max_nirgs (the first row group not being met when it is given). Progress: such writes are accepted."
  },
  {
   "property": "C22",
   "status": "proved",
   "theorems": [
    "C22_bound",
    "C22_rewritten",
    "C22_single",
    "C22_coalesced_refuted",
    "C22_complete_refuted"
   ],
   "note": "Exceptions (bound after coalescing; refusal when the last row group is complete) are witnessed."
  },
  {
   "property": "C23",
   "status": "proved",
   "theorems": [
    "C23_prefix",
    "C23_suffix",
    "C23_single_refuted"
   ],
   "note": "Contents and positions; a single overlapping row group leads to rewriting all following ones (witness)."
  },
  {
   "property": "C24",
   "status": "proved",
   "theorems": [
    "C24_custom",
    "C24_oups",
    "C24_first",
    "C24_kept",
    "C24_falsy_refuted",
    "C24_none_refuted"
   ],
   "note": "Falsy values are not added when there are already oups metadata, and None is stored by a first write: both recorded as _refuted."
  },
  {
   "property": "C25",
   "status": "proved",
   "theorems": [
    "C25_isolation",
    "C25_other_keys",
    "C25_shared_refuted"
   ],
   "note": "For dictionaries of user metadata which are not shared between writes; false otherwise (C25_shared_refuted). Shown as: oups metadata of a key is a function of operations on this key only."
  },
  {
   "property": "C26",
   "status": "proved",
   "theorems": [
    "C26_complete",
    "C26_history",
    "C26_append",
    "C26_append_rerun",
    "C26_creation",
    "C26_update",
    "C26_update_refuted",
    "C26_creation_refuted",
    "C26_orphan_refuted",
    "C26_torn_refuted"
   ],
   "note": "Interruption between any two file actions, writing of a file being itself interruptible. Update, creation, orphan files and a partially written metadata file are the cases in which the expected property is false, with a witness each. A history of writes leaves exactly the files of the dataset, and no action fails. fastparquet's order of actions is part of the trusted base."
  },
  {
   "property": "C27",
   "status": "proved",
   "theorems": [
    "C27_no_action",
    "C27_tuple",
    "C27_missing_column",
    "C27_duplicates",
    "C27_max_nirgs",
    "C27_empty_data",
    "C27_iter",
    "C27_accepted"
   ],
   "note": "Exact errors for checks; other calls are accepted. No file is modified by refused calls: see C26 model for the order of file operations."
  },
  {
   "property": "C28",
   "status": "proved",
   "theorems": [
    "C28_conform",
    "C28_refused",
    "C28_distinct",
    "C28_check",
    "C28_errors",
    "C28_unchanged",
    "C28_unused_refuted"
   ],
   "note": "Missing labels (NaN) are not modelled. Labels of a level which would become the same (1 and '1') are refused. check_cmidx also looks at labels no longer used by any column (C28_unused_refuted)."
  },
  {
   "property": "C29",
   "status": "proved",
   "theorems": [
    "C29_levels",
    "C29_tuples",
    "C29_distinct",
    "C29_plain",
    "C29_padding_refuted",
    "C29_plain_refuted"
   ],
   "note": "literal_eval is a parameter: theorems hold for any result of it. Tuples ending with an empty label can collide once padded (C29_padding_refuted); plain names longer than the number of levels are refused (C29_plain_refuted)."
  },
  {
   "property": "C30",
   "status": "proved",
   "theorems": [
    "C30_order",
    "C30_foreign_refuted"
   ],
   "note": "Decimal text of numbers and int() are modelled. Another .parquet file in the directory makes the read fail (C30_foreign_refuted)."
  },
  {
   "property": "C31",
   "status": "proved",
   "theorems": [
    "C31_extremes",
    "C31_history"
   ],
   "note": "Statistics written by fastparquet are taken as exact. C31_history: for any history of calls."
  },
  {
   "property": "C32",
   "status": "proved",
   "theorems": [
    "C32_chunk_starts_exact"
   ],
   "note": ""
  },
  {
   "property": "C33",
   "status": "proved",
   "theorems": [
    "C33_time_bins",
    "C33_row_bins",
    "C33_pieces",
    "C33_any_bins",
    "C33_time_calls",
    "C33_calendar_calls",
    "C33_row_calls",
    "C33_user_calls",
    "C33_wrong_ends_refuted",
    "C33_null_count_refuted"
   ],
   "note": ""
  },
  {
   "property": "C34",
   "status": "proved",
   "theorems": [
    "C34_row_bins_are_global",
    "C34_row_number"
   ],
   "note": ""
  },
  {
   "property": "C35",
   "status": "proved",
   "theorems": [
    "C35_time_bins_are_floor_bins",
    "C35_one_period"
   ],
   "note": ""
  },
  {
   "property": "C36",
   "status": "proved",
   "theorems": [
    "C36_time_bins_restart",
    "C36_start_day_refuted",
    "C36_start_refuted"
   ],
   "note": "Fixed-frequency grids anchored independently of data; default origins refuted by witnesses."
  },
  {
   "property": "C37",
   "status": "proved",
   "theorems": [
    "C37_merge"
   ],
   "note": ""
  },
  {
   "property": "C38",
   "status": "proved",
   "theorems": [
    "C38_time_bins_row_order",
    "C38_row_bins_row_order",
    "C38_right_closed_ties_refuted"
   ],
   "note": "Right-closed row bins with ties refuted by witness."
  },
  {
   "property": "C39",
   "status": "proved",
   "theorems": [
    "C39_meaning",
    "C39_compose",
    "C39_integers"
   ],
   "note": ""
  },
  {
   "property": "C40",
   "status": "proved",
   "theorems": [
    "C40_jcsagg_exact"
   ],
   "note": ""
  },
  {
   "property": "C41",
   "status": "proved",
   "theorems": [
    "C41_mapping",
    "C41_refused"
   ],
   "note": ""
  },
  {
   "property": "C42",
   "status": "proved",
   "theorems": [
    "C42_time_bins",
    "C42_time_bins_periodic_snaps",
    "C42_time_bins_snaps_at",
    "C42_row_bins",
    "C42_row_bins_periodic_snaps",
    "C42_row_bins_snaps_at",
    "C42_empty",
    "C42_right_closed_ties_refuted"
   ],
   "note": "Right-closed row bins with ties are refuted by witness."
  },
  {
   "property": "C43",
   "status": "proved",
   "theorems": [
    "C43_time_bins",
    "C43_row_bins"
   ],
   "note": ""
  },
  {
   "property": "C44",
   "status": "proved",
   "theorems": [
    "C44_time_bins",
    "C44_row_bins",
    "C44_legitimate_zero_refuted",
    "C44_provisional_zero_refuted"
   ],
   "note": "Also shows that legitimate and provisional zeros are refused."
  },
  {
   "property": "C45",
   "status": "proved",
   "theorems": [
    "C45_rows",
    "C45_pieces",
    "C45_refused",
    "C45_empty_group",
    "C45_listed_refuted"
   ],
   "note": "Columns of integers and booleans; values are integers. Comparison with a list of values is elementwise and left apart (C45_listed_refuted)."
  },
  {
   "property": "C46",
   "status": "proved",
   "theorems": [
    "C46_empty_chunks",
    "C46_empty_first",
    "C46_empty_kept_last",
    "C46_exactly_once",
    "C46_one_run",
    "C46_restart_index",
    "C46_kept_last_refuted"
   ],
   "note": "Histories of runs on the same or on new instances, with keys which record the rows they are given. C46_kept_last_refuted: without discard_last rows are delivered twice."
  },
  {
   "property": "C47",
   "status": "proved",
   "theorems": [
    "C47_chunks",
    "C47_own_rows"
   ],
   "note": ""
  },
  {
   "property": "C48",
   "status": "proved",
   "theorems": [
    "C48_refused",
    "C48_run",
    "C48_across_chunks_refuted"
   ],
   "note": "C48_across_chunks_refuted: order between chunks is not checked."
  },
  {
   "property": "C49",
   "status": "proved",
   "theorems": [
    "C49_kept"
   ],
   "note": "The buffer of pre recorded in metadata includes what pre did before raising."
  },
  {
   "property": "C50",
   "status": "proved",
   "theorems": [
    "C50_streamed_is_batch",
    "C50_accepted",
    "C50_ties_refuted",
    "C50_coalescing_refuted",
    "C50_small_chunks_refuted"
   ],
   "note": "For bins of time or of a number of rows, with or without snapshots, a post-processing working row by row, chunks ending anywhere, any in-memory limit. C50_accepted: runs raise nothing under stated conditions on zeros, sizes and memory. Ties across ends of row bins, coalescing parameters, and chunks which complete no bin are proved as refuted variants."
  },
  {
   "property": "C51",
   "status": "proved",
   "theorems": [
    "C51_interrupted_is_batch",
    "C51_same_as_uninterrupted",
    "C51_first_run_refused",
    "C51_single_key_accepted",
    "C51_several_keys_refuted",
    "C51_absent_key_refuted",
    "C51_snapshots_refuted"
   ],
   "note": "Holds for the restart cases accepted by the code, runs which raise included (ex_C51_raises). Refuted cases (several keys interrupted between their final writes, key absent from store, snapshots of a BOTH key) are proved as witnesses."
  },
  {
   "property": "C52",
   "status": "proved",
   "theorems": [
    "C52_recorded",
    "C52_restarted",
    "C52_falsy",
    "C52_zero_refuted"
   ],
   "note": "C52_zero_refuted: an index equal to 0 is not recorded."
  },
  {
   "property": "C53",
   "status": "proved",
   "theorems": [
    "C53_refused",
    "C53_foreign_refused",
    "C53_common",
    "C53_new",
    "C53_new_key_misses"
   ],
   "note": ""
  },
  {
   "property": "C54",
   "status": "proved",
   "theorems": [
    "C54_chunk_schedules",
    "C54_final_schedules",
    "C54_chunk_sequential",
    "C54_final_sequential",
    "C54_no_deadlock",
    "C54_parallel_run",
    "C54_parallel_failure",
    "C54_shared_metadata_refuted",
    "C54_shared_dataset_refuted",
    "C54_stale_metadata_refuted"
   ],
   "note": "Steps are atomic reads and writes of the buffers of a key, its datasets, its entry of pending metadata, and the caller's metadata dictionary. Keys sharing none of them: any two complete interleavings give the same memory and exceptions, equal to those of jobs run in order, and to the run of the stream model. Refuted when keys share the metadata dictionary (the default when one is given to AggStream) or a dataset."
  },
  {
   "property": "C55",
   "status": "proved",
   "theorems": [
    "C55_bound",
    "C55_start",
    "C55_flushed"
   ],
   "note": "For any runs; at start; and flush of buffers above the limit."
  },
  {
   "property": "C56",
   "status": "proved",
   "theorems": [
    "C56_same_rows"
   ],
   "note": ""
  },
  {
   "property": "C57",
   "status": "proved",
   "theorems": [
    "C57_time",
    "C57_time_one",
    "C57_callable",
    "C57_refused",
    "C57_order_missing_refuted"
   ],
   "note": ""
  },
  {
   "property": "C58",
   "status": "proved",
   "theorems": [
    "C58_configured",
    "C58_duplicates",
    "C58_time_bins",
    "C58_write_called",
    "C58_sizes",
    "C58_filters",
    "C58_points",
    "C58_points_refuted",
    "C58_reserved_refuted"
   ],
   "note": ""
  },
  {
   "property": "C59",
   "status": "proved",
   "theorems": [
    "C59_accepted",
    "C59_reuse_refuted",
    "C59_same_dataset_refuted",
    "C59_no_filter_entry_refuted"
   ],
   "note": ""
  },
  {
   "property": "C60",
   "status": "proved",
   "theorems": [
    "C60_time_bins",
    "C60_row_bins",
    "C60_missing_point",
    "C60_late_point",
    "C60_series_refuted"
   ],
   "note": ""
  },
  {
   "property": "C61",
   "status": "proved",
   "theorems": [
    "C61_user_bins",
    "C61_user_bins_pieces",
    "C61_checks",
    "C61_unchecked_refuted"
   ],
   "note": ""
  },
  {
   "property": "C62",
   "status": "proved",
   "theorems": [
    "C62_post_arguments",
    "C62_interrupted",
    "C62_rows_in_each_call_refuted"
   ],
   "note": "Both at key level and over runs with interruptions; no hypothesis on what post returns or on write configuration. The claim that each call gives rows is refuted."
  },
  {
   "property": "C63",
   "status": "proved",
   "theorems": [
    "C63_new_data",
    "C63_unwritten_refuted",
    "C63_trimmed_overlap_refuted"
   ],
   "note": "Any flags, each call with rows after those of previous ones (ties allowed). Refuted: new instance without final write; rows given again with trim_start after a call without discard_last."
  },
  {
   "property": "C64",
   "status": "proved",
   "theorems": [
    "C64_single_refused",
    "C64_unusable_unwritten",
    "C64_two_columns_refuted"
   ],
   "note": "Refuted without the condition on the number of columns: 2 columns are unpacked into 2 strings."
  },
  {
   "property": "C65",
   "status": "proved",
   "theorems": [
    "C65_same_call",
    "C65_rows_given",
    "C65_same_history",
    "C65_is_batch",
    "C65_interrupted_is_batch",
    "C65_after_refuted"
   ],
   "note": "Equality of whole states. Refuted for rows strictly after the restart index."
  },
  {
   "property": "C66",
   "status": "proved",
   "theorems": [
    "C66_copies",
    "C66_list",
    "C66_other_order_refuted",
    "C66_missing_column_refuted"
   ],
   "note": "Lists are identified by numbers; a list is modified in place as in writer.py:463-483. False when the same list is used with different columns of order (C66_other_order_refuted, C66_missing_column_refuted)."
  },
  {
   "property": "C67",
   "status": "proved",
   "theorems": [
    "C67_answers",
    "C67_new_handle",
    "C67_no_mix",
    "C67_snapshot",
    "C67_stale_refuted",
    "C67_updated_refuted"
   ],
   "note": "The file kept open by a handle (cached attribute) is modelled; C67_stale_refuted and C67_updated_refuted for what is false."
  },
  {
   "property": "C68",
   "status": "proved",
   "theorems": [
    "C68_streamed_is_batch",
    "C68_accepted",
    "C68_interrupted_is_batch",
    "C68_labels_refuted"
   ],
   "note": "Streams with keys whose bins are made by a function of the user, with or without snapshots. C68_accepted: nothing is raised. C68_labels_refuted: labels which are distinct but not ascending."
  },
  {
   "property": "C69",
   "status": "proved",
   "theorems": [
    "C69_same_process",
    "C69_retried_is_batch",
    "C69_twice_refuted"
   ],
   "note": "A write which fails is not made at all (a write stopped halfway is in C26). Keys with both bins and snapshots are left out, as in C51. C69_twice_refuted: two calls failing one after the other in a same process lose rows."
  },
  {
   "property": "C70",
   "status": "proved",
   "theorems": [
    "C70_same_as_set_before",
    "C70_is_batch",
    "C70_refused",
    "C70_empty_iterator",
    "C70_stuck",
    "C70_used_after_refused_refuted"
   ],
   "note": "Data types of chunks after the first one are not looked at by the code: values are taken as being of the types of the first chunk. That a refused instance can be used afterwards is false (C70_used_after_refused_refuted), which C70_stuck generalises."
  },
  {
   "property": "C71",
   "status": "proved",
   "theorems": [
    "C71_final_write_again",
    "C71_then_runs",
    "C71_record_refuted",
    "C71_loop_refuted"
   ],
   "note": "Keys with bins and snapshots have no limit on the number of incomplete row groups. 'post' and 'cumsegagg' leave their buffers as they are when they raise. What is recorded between a failed final write and a successful one, and failures while iterating over data, are refuted by C71_record_refuted and C71_loop_refuted."
  },
  {
   "property": "C72",
   "status": "proved",
   "theorems": [
    "C72_calendar_bins",
    "C72_all_rows",
    "C72_months",
    "C72_month_end_refuted",
    "C72_pieces",
    "C72_multiple_refuted",
    "C72_streamed_is_batch",
    "C72_accepted",
    "C72_interrupted_is_batch"
   ],
   "note": "Pandas arithmetic of calendar offsets is assumed to be steps between points of the calendar; time stamps are naive (no time zone)."
  },
  {
   "property": "C73",
   "status": "proved",
   "theorems": [
    "C73_streamed_is_batch",
    "C73_accepted",
    "C73_interrupted_is_batch",
    "C73_snapshots",
    "C73_snapshots_pieces",
    "C73_points",
    "C73_bins",
    "C73_calendar_snapshots",
    "C73_calendar_snapshots_time_bins",
    "C73_multiple_refuted"
   ],
   "note": "Model: by_scale (with calendar frequencies for bins and snapshots), segmentby, cumsegagg, AggStream. 'binning' and 'bin_ends' state what is asked from a binning function; 'snapping' what by_scale does for snapshots; both are proved for built-in ways and shown to be met by a function of the user. Snapshots at given values: in one call here (successive calls with time or row bins are in C60). Streams: bins by periods here, any function of the user in C68."
  },
  {
   "property": "C74",
   "status": "proved",
   "theorems": [
    "C74_provisional_is_batch",
    "C74_last_seed_only",
    "C74_earlier_rows_refuted",
    "C74_kept_last_refuted"
   ],
   "note": "Model: as C50 (iteration over seed chunks, aggregation, writes, restart from the store). 'extends' in StreamSpec.v states which rows may be replaced; it is also the hypothesis of the other theorems on streams."
  },
  {
   "property": "C75",
   "status": "proved",
   "theorems": [
    "C75_fed_is_batch",
    "C75_any_cut",
    "C75_whole_data_again_refuted",
    "C75_unwritten_refuted",
    "C75_accepted",
    "C75_user_accepted",
    "C75_user_bins"
   ],
   "note": "Calls with discard_last=False: results are those of a single aggregation of all rows given, for any way to cut them, with keys with bins of time, of rows, or of the user. Calls are accepted under stated conditions (C75_accepted, C75_user_accepted). Refuted: the whole data given again with default parameters (rows counted twice, although the documentation gives True as default for trim_start and discard_last); new instance without written results."
  },
  {
   "property": "C76",
   "status": "proved",
   "theorems": [
    "C76_grown_is_batch",
    "C76_any_bins",
    "C76_late_rows_refuted",
    "C76_duplicates_refuted",
    "C76_accepted",
    "C76_any_accepted"
   ],
   "note": "Composition of writer.py and aggstream.py. With duplicates to drop, incomplete row groups are coalesced only when there is a single row for each value of the ordered column. Steps are accepted under stated conditions (C76_accepted, C76_any_accepted). Late rows and duplicates in data making the dataset are refuted as stated in C76_late_rows_refuted and C76_duplicates_refuted."
  },
  {
   "property": "C77",
   "status": "proved",
   "theorems": [
    "C77_chained_is_batch",
    "C77_any_bins",
    "C77_unwritten_refuted",
    "C77_accepted",
    "C77_any_accepted"
   ],
   "note": "Composition of two streams through the store. Both streams are those of C50 (bins of time or of a number of rows), or of C68 (any bins). Steps are accepted under stated conditions (C77_accepted, C77_any_accepted). The 1st stream writes its results at the end of each step (C77_unwritten_refuted otherwise)."
  },
  {
   "property": "C78",
   "status": "proved",
   "theorems": [
    "C78_round_trip",
    "C78_injective",
    "C78_validation",
    "C78_bordered_refuted",
    "C78_exact",
    "C78_dot_refuted",
    "C78_slash_refuted",
    "C78_empty",
    "C78_one_character"
   ],
   "note": "Any separator string of literal characters; the exact set of separators for which keys round trip is given (C78_exact). Special characters of regular expressions other than '.' are not modelled."
  },
  {
   "property": "C79",
   "status": "proved",
   "theorems": [
    "C79_read_back",
    "C79_typed",
    "C79_exact",
    "C79_reopened_refuted"
   ],
   "note": "All int and str values, for classes nested to any depth. Values with another number of levels than the class (a nested instance given for an int or str) are not considered."
  },
  {
   "property": "C80",
   "status": "proved",
   "theorems": [
    "C80_same_order",
    "C80_column",
    "C80_units",
    "C80_rounding_refuted",
    "C80_other_order_refuted"
   ],
   "note": "Model of write of C14 to C29. C80_same_order is for one write and any change of rows; C80_column and C80_units for whole histories. Rounding and a column ordered otherwise are refuted."
  },
  {
   "property": "C81",
   "status": "proved",
   "theorems": [
    "C81_streamed_is_batch",
    "C81_interrupted_is_batch",
    "C81_accepted",
    "C81_first_value",
    "C81_last_value_refuted",
    "C81_duplicates_refuted",
    "C81_dropped_labels_refuted",
    "C81_fed_is_batch",
    "C81_fed_accepted",
    "C81_user_streamed",
    "C81_user_interrupted",
    "C81_user_accepted",
    "C81_user_first_value",
    "C81_user_fed",
    "C81_user_fed_accepted"
   ],
   "note": "C81_first_value gives the usual case of the condition used by C81_streamed_is_batch and C81_interrupted_is_batch. C81_last_value_refuted: ordered on the last time stamp of bins, results hold a bin twice. C81_duplicates_refuted: the same with a column of sums in 'duplicates_on'. C81_dropped_labels_refuted: KeyError at the second run. Null values in the column (periods of time without row) are not covered. C81_accepted and C81_fed_accepted: no coalescing (max_n_off_target_rgs None), memory enough for the rows of results and the number of calls. Theorems C81_user_*: streams whose keys all have bins made by functions of the user, C81_user_first_value giving the condition from bins of all rows. Bins with the same label, as in unit test test_by_callable_with_bin_on (run on the model in TestsStream2.v), are not covered by them."
  }
 ]
}