# Formal model of yohplala/oups: design

Everything is in `rocq/theories`. `*Model` files hold definitions, each citing the lines of /repo it
models and what it simplifies. `*Spec` files hold small specifications which do not use the helpers of
the model. `*Proofs` files hold lemmas. `Prop*` files hold the final theorems `Cxx_...`, each followed by
`Print Assumptions`, with examples `ex_...` next to them: concrete cases which meet the hypotheses.
Theorems named `Cxx_..._refuted` show, with a witness, that a natural stronger statement is false of the
code. `Tests*` files run unit tests of the repository on the model, with the expected values of these
tests, to check that the model is faithful.

The method is the same everywhere: functions of the code are small total computable functions, exceptions
being values; properties are proved by induction over data, chunks, histories of calls, schedules or crash
points, without any bound.

## Trusted base

- Coq 8.16.1: its kernel, `vm_compute` included, and `coqchk` as run by the checker.
- Axioms: none. `Print Assumptions` answers "Closed under the global context" for each theorem of the
  manifest. `coqchk` on the whole development lists seven fields of `Coq.ssr.ssrunder.Under_rel` (a module
  of the standard library sealed by a signature), loaded along with the standard library; no theorem
  depends on them.
- Only the standard library is used. There is no plugin, no functor, no module type, no `Admitted`,
  no axiom, no section variable left as an axiom.
- The model itself: that definitions of `*Model` files say what the code says. They are cited line by
  line, and checked against unit tests of the repository (`Tests*` files).
- Behaviour of the environment, as modelled (see "External behaviour which is assumed").

## What is modelled

| code | model |
|------|-------|
| `store/indexer.py` `_dataclass_instance_to_lists`, `_validate_toplevel_instance`, `_dataclass_instance_to_str`, `_dataclass_fields_types_to_lists`, `_dataclass_instance_from_str`, `_get_depth`, `_reduce`, constructor and `to_path`, `from_path`, `from_str`, `str` of `@toplevel` classes | `IdxModel.v` (separator of one character), `SepModel.v` (any separator) |
| `store/utils.py` `files_at_depth`, `strip_path_tail` | `ColModel.v` |
| `store/utils.py` `conform_cmidx`; `store/writer.py` `to_midx`, `check_cmidx` | `ColumnsModel.v` |
| `store/collection.py` `is_parquet_file`, `get_keys`, `ParquetSet` (opening, `set`, `[]=`, `del`, `in`, `len`, iteration) | `ColModel.v` |
| `store/writer.py` `iter_dataframe`, `write` (all branches, on rows) | `WrModel.v` |
| `store/writer.py` `write`: order of actions on files, interruptions | `CrashModel.v` |
| `store/writer.py` `write_metadata` | `MetaModel.v`, and its steps in `ParModel.v` |
| `store/writer.py` `write`: list `duplicates_on` of the caller modified in place | `ArgModel.v` |
| `store/router.py` `pdf`, `vdf`, `min_max` | `RouterModel.v` |
| `store/router.py` `pf` (opened once and kept), `metadata` through it, after other writes | `HandleModel.v` |
| `aggstream/utils.py` `dataframe_filter` | `FilterModel.v` |
| `aggstream/segmentby.py` `_next_chunk_starts`, `by_scale`, `by_x_rows`, `mergesort`, `setup_segmentby`, `setup_mainbuffer`, `segmentby` | `SegModel.v` |
| `aggstream/segmentby.py` `by_scale` with a calendar frequency (months, weeks...) | `SegModel.v`, calendars in `CalModel.v` |
| `aggstream/jcumsegagg.py` `jfirst`, `jlast`, `jmin`, `jmax`, `jsum`, `jcsagg` | `AggModel.v` |
| `aggstream/cumsegagg.py` `setup_cumsegagg`, `setup_chunk_res`, `cumsegagg` | `CsaModel.v` |
| `aggstream/aggstream.py` `_init_buffers`, `_reset_agg_buffers`, `_iter_data`, `_concat_agg_res`, `_post_n_write_agg_chunks`, `agg_iter`, `AggStream.agg` | `StreamModel.v`; `RaiseModel.v` for the store left by a call which raises; `RetryModel.v` for pending metadata kept by the process after it; `ReuseModel.v` for the instance left by it |
| `aggstream/aggstream.py` `AggStream.__init__`, `_init_keys_config` (values of parameters; without number of jobs) | `ConfModel.v` |
| `aggstream/aggstream.py` `_init_keys_config` (defaults used for writing, kind of results) and the call of `cumsegagg` in `agg_iter` | `KeyModel.v` |
| `aggstream/aggstream.py` keys of an AggStream with a binning function of the user | `UserKeyModel.v` |
| `aggstream/aggstream.py` keys of an AggStream whose results are ordered on another column than labels | `OrderModel.v`, `OrderUserModel.v` |
| `aggstream/aggstream.py` `AggStream._init_agg_cs`, and kinds of `seed` in `AggStream.agg` | `SetupModel.v` |
| `aggstream/aggstream.py` parallel jobs of `AggStream.agg` | `ParModel.v` |

Not modelled:

- `__repr__`, plain properties giving back an attribute, decorators
  `toplevel` and `sublevel` as transformations of classes (only the class they yield).
- Compression, encodings and bytes of parquet files.
- Values of aggregated columns are of any type `V`, with any addition and comparison: no law is required of
  them, so that rounding, overflow of int64 and comparisons with NaN are covered. In the writer, values are
  integers. Index values are integers: time stamps are numbers of nanoseconds.
- Segmentation functions written by the user are covered in single calls (C61, C73) and in streams (C68, C73),
  with snapshots or not. A Series is refused as `bin_by` by the code: only a `TimeGrouper` or a function is accepted. `post` is any
  function; C50 and C51 are stated for those which work row by row.
- Time zones and changes of hour.

## External behaviour which is assumed

- pandas: `is_monotonic_increasing`, `iloc`, `loc`, `concat`, `drop_duplicates(keep="last")`, `isin`,
  `_get_timestamp_range_edges` and `date_range` for fixed frequencies, origins "start_day", "start", "epoch"
  or a given time stamp (modelled in `SegModel.v`), and for calendar frequencies (modelled in `CalModel.v`), `MultiIndex.set_levels` and `from_tuples` (modelled in
  `ColumnsModel.v`).
- vaex: `open_many` and `concat` give rows in order, `sort` is stable.
- numpy: `searchsorted`, `unique`, comparison of an array with a list.
- fastparquet: row groups are appended and read in the order of the list of row groups; names and order of
  actions on files of `write_row_groups`, `remove_row_groups`, `_sort_part_names`, `_write_common_metadata` and
  `write` (modelled in `CrashModel.v`); statistics are exact; `filter_row_groups` leaves out a row group only
  if its statistics exclude a condition; `update_custom_metadata` (modelled in `MetaModel.v`).
- `cloudpickle`/`pickle`: `loads(dumps(x))` is `x`, and is a copy.
- Operating system: actions on files are on disk in the order they are made; a file which is being written is
  unreadable.
- joblib: `Parallel` waits for its jobs, and raises the exception of one of them. Once there is an exception, jobs
  which are not started may not be run, those which are running go on, to their end or until the process stops. Reads and writes of Python
  dictionaries are atomic (global interpreter lock).

## Properties

Each property has a plan, and its theorems. All are expressed in the model.

| id | property | how it is modelled and proved | theorems |
|----|----------|-------------------------------|----------|
| C01 | Key <-> path and key <-> string round trip | IdxModel: keys and schemas as inductive values, strings as lists of characters, Python split/join/int()/str(). Proof: split of a join, levels peeled from the end. | `C01_round_trip`, `C01_exception`; false variants: `C01_letter_separator_refuted` |
| C02 | Distinct keys never share a directory | Corollary of the split-of-join lemma, with a separate argument for the degenerate keys. | `C02_injective`, `C02_directories`; false variants: `C02_untyped_refuted`, `C02_empty_names_refuted` |
| C03 | Constructor validation is exact | Independent inductive well-formedness predicate, equivalence with the modelled validation. | `C03_validation`, `C03_refusals` |
| C04 | Dataset directories stay below the base path | Component-wise view of to_path; os.path.join modelled; escape shown by witness. | `C04_containment`; false variants: `C04_escape_refuted`, `C04_dot_separator_refuted` |
| C05 | Discovered keys point back at the directory they were discovered from | Inverse direction of C01 under canonical-form hypotheses; refutations by witness. | `C05_canonical`; false variants: `C05_refuted` |
| C06 | Keys produced by from_path may be unconstructible | Character-set invariant of split; witness for '.'. | `C06_fields`; false variants: `C06_unconstructible_refuted` |
| C07 | The in-memory key set always equals what a reopened store would find | ColModel: file system as a finite list of paths, transition system over store operations. Invariant by induction on histories. | `C07_reopen`, `C07_from_empty`; false variants: `C07_failed_write_refuted` |
| C08 | Operations on one key leave every other dataset untouched | Same transition system, frame lemma. | `C08_write`, `C08_delete` |
| C09 | Deletion prunes only empty parent directories below the base path | String-level model of the deletion loop; refutation for trailing slash / Path. | `C09_pruning`, `C09_base_kept`; false variants: `C09_base_removed_refuted` |
| C10 | Key collection semantics | Same transition system; sorted-set invariant. | `C10_collection` |
| C11 | A rejected write registers nothing | Same transition system. | `C11_rejected`, `C11_accepted` |
| C12 | Directory scan is exact | Model of files_at_depth on the flat file system; exactness in both directions. | `C12_scan`, `C12_names`, `C12_paths`, `C12_missing`, `C12_opening`, `C12_parquet_names` |
| C13 | Row-group splitting loses and reorders nothing | WrModel: rows as lists of integers. Concatenation of slices. | `C13_lossless` |
| C14 | Row-group size bound | Integer division arithmetic; witness for the sharp_on case. | `C14_bound`, `C14_accepted`; false variants: `C14_sharp_refuted` |
| C15 | sharp_on never lets a value straddle two row groups | searchsorted-left on sorted data, boundaries between different values. | `C15_sharp`, `C15_sharp_dedup` |
| C16 | Dropping duplicates keeps exactly the last row of each duplicate key | keep-last filter per chunk + C15. | `C16_dedup` |
| C17 | Writing without duplicates_on neither loses nor invents rows | Full model of write(); permutation proof over all branches. | `C17_permutation` |
| C18 | Writing with duplicates_on never loses a key | Same, sub-multiset and key preservation. | `C18_keys` |
| C19 | Last writer wins on overlapping writes | Same, positive theorem under layout hypotheses, refutations by witness. | `C19_newest`; false variants: `C19_coalescing_refuted`, `C19_creation_refuted` |
| C20 | A dataset ordered on ordered_on stays ordered | Same. | `C20_ordered`; false variants: `C20_gap_refuted`, `C20_coalescing_refuted`, `C20_straddling_refuted` |
| C21 | Any history of keyed writes behaves as an ordered map | Refinement to an ordered association list; induction over histories. | `C21_map`, `C21_function`, `C21_progress` |
| C22 | Coalescing of incomplete row groups | Model of the backward scan; arithmetic bound; refutation by witness. | `C22_bound`, `C22_rewritten`, `C22_single`; false variants: `C22_coalesced_refuted`, `C22_complete_refuted` |
| C23 | Row groups not concerned by a write are left untouched | Prefix/suffix decomposition of the row-group list. | `C23_prefix`, `C23_suffix`; false variants: `C23_single_refuted` |
| C24 | Metadata merge semantics | Association-list dictionaries, lookup-wise characterisation. | `C24_custom`, `C24_oups`, `C24_first`, `C24_kept`; false variants: `C24_falsy_refuted`, `C24_none_refuted` |
| C25 | Pending oups metadata goes to its own dataset only, once | Pending-table model with histories; aliasing model for the shared dict. | `C25_isolation`, `C25_other_keys`; false variants: `C25_shared_refuted` |
| C26 | An interrupted append leaves the previous dataset readable | Crash model: a write is a list of atomic file operations, a crash point is a prefix. | `C26_complete`, `C26_history`, `C26_append`, `C26_append_rerun`, `C26_creation`, `C26_update`; false variants: `C26_update_refuted`, `C26_creation_refuted`, `C26_orphan_refuted`, `C26_torn_refuted` |
| C27 | Refused parameters change nothing on disk | Error table of the write model; no effect on error before the first file operation. | `C27_no_action`, `C27_tuple`, `C27_missing_column`, `C27_duplicates`, `C27_max_nirgs`, `C27_empty_data`, `C27_iter`, `C27_accepted` |
| C28 | Column multi-index normalisation | ColumnsModel, direct. | `C28_conform`, `C28_refused`, `C28_distinct`, `C28_check`, `C28_errors`, `C28_unchanged`; false variants: `C28_unused_refuted` |
| C29 | Column name expansion | ColumnsModel, `literal_eval` being any function. | `C29_levels`, `C29_tuples`, `C29_distinct`, `C29_plain`; false variants: `C29_padding_refuted`, `C29_plain_refuted` |
| C30 | Part files are read in numeric order | RouterModel on names of files, sorted by the number in the name. | `C30_order`; false variants: `C30_foreign_refuted` |
| C31 | min_max reports the true extreme values | RouterModel, minimum of minima. | `C31_extremes`, `C31_history` |
| C32 | Chunk starts are exact | SegModel: faithful loop model, induction over edges and values. | `C32_chunk_starts_exact` |
| C33 | Compiled aggregation writes within its arrays | Writes out of an array are the value OutOfBounds of the model of the loop. Counting argument over the merged event list. MemSpec.v states what is asked of bins (empty ones announced, ends in order and after rows) without the code; MemProofs.v proves that it is enough for any segmentation with snapshots, whatever the buffers; MemCallProofs.v that the segmentations of the library, and those of a user meeting their specification, ensure it. PropMemory.v: theorems, and counter-examples with functions of a user which do not. | `C33_time_bins`, `C33_row_bins`, `C33_pieces`, `C33_any_bins`, `C33_time_calls`, `C33_calendar_calls`, `C33_row_calls`, `C33_user_calls`; false variants: `C33_wrong_ends_refuted`, `C33_null_count_refuted` |
| C34 | by_x_rows bins count rows globally | Arithmetic on row counters; induction over the list of pieces. | `C34_row_bins_are_global`, `C34_row_number` |
| C35 | Time binning is the mathematical floor binning | Model of the pandas range computation + next_chunk_starts; floor-division spec. | `C35_time_bins_are_floor_bins`, `C35_one_period` |
| C36 | Time binning is restart-stable | Invariant linking restart key to bin index; refutations by witness. | `C36_time_bins_restart`; false variants: `C36_start_day_refuted`, `C36_start_refuted` |
| C37 | Bins and snapshots are merged stably | Stable merge. | `C37_merge` |
| C38 | Bin ends and snapshots are processed in row order | Monotonicity via keys; refutation by witness. | `C38_time_bins_row_order`, `C38_row_bins_row_order`; false variants: `C38_right_closed_ties_refuted` |
| C39 | Elementary aggregations compose over pieces | Left folds, generic over the number type. | `C39_meaning`, `C39_compose`, `C39_integers` |
| C40 | Cumulative segmented aggregation is exact | Independent token semantics (row / bin end / snapshot). | `C40_jcsagg_exact` |
| C41 | Aggregation specification is mapped to the right columns | Model of the configuration builder; uniqueness of result column indices. | `C41_mapping`, `C41_refused` |
| C42 | One-call cumsegagg result | Composition of C35/C34, C40, C41: each kind of bins, with and without each kind of snapshots. | `C42_time_bins`, `C42_time_bins_periodic_snaps`, `C42_time_bins_snaps_at`, `C42_row_bins`, `C42_row_bins_periodic_snaps`, `C42_row_bins_snaps_at`, `C42_empty`; false variants: `C42_right_closed_ties_refuted` |
| C43 | cumsegagg in pieces equals cumsegagg at once | Token-stream concatenation. | `C43_time_bins`, `C43_row_bins` |
| C44 | Zero results are refused by default | Direct from the model of the final check. | `C44_time_bins`, `C44_row_bins`; false variants: `C44_legitimate_zero_refuted`, `C44_provisional_zero_refuted` |
| C45 | Row filters are a disjunction of conjunctions | Boolean semantics. | `C45_rows`, `C45_pieces`, `C45_refused`, `C45_empty_group`; false variants: `C45_listed_refuted` |
| C46 | Each seed row is delivered exactly once | Generator as list-producing function; induction over chunks and runs. | `C46_empty_chunks`, `C46_empty_first`, `C46_empty_kept_last`, `C46_exactly_once`, `C46_one_run`, `C46_restart_index`; false variants: `C46_kept_last_refuted` |
| C47 | Every filter sees exactly its own rows | filter distributes over concatenation. | `C47_chunks`, `C47_own_rows` |
| C48 | Unordered seed chunks are refused | Sortedness check of the model. | `C48_refused`, `C48_run`; false variants: `C48_across_chunks_refuted` |
| C49 | A failing pre-check keeps everything aggregated so far | Exception outcome of the iterator; state comparison. | `C49_kept` |
| C50 | Streamed results equal batch results | BatchSpec: table of results of a single aggregation. Invariant linking what is stored, what is in buffers, and that table, preserved by each chunk, intermediate write and final write; the writer is used through C21. | `C50_streamed_is_batch`, `C50_accepted`; false variants: `C50_ties_refuted`, `C50_coalescing_refuted`, `C50_small_chunks_refuted` |
| C51 | Crash and re-run is idempotent | Same invariant with a run being cut after any number of writes of each key, not only a prefix of a sequence of writes: final writes are always made in threads, whatever 'parallel' is. The run may also raise: RaiseModel.v restates the functions of StreamModel.v so that modifications made before an exception are kept (jobs of other keys go on), RaiseProofs.v proves both agree when nothing is raised. | `C51_interrupted_is_batch`, `C51_same_as_uninterrupted`, `C51_first_run_refused`, `C51_single_key_accepted`; false variants: `C51_several_keys_refuted`, `C51_absent_key_refuted`, `C51_snapshots_refuted` |
| C52 | The restart index is recorded with each final write | Model of the metadata set-up; refutation for index 0. | `C52_recorded`, `C52_restarted`, `C52_falsy`; false variants: `C52_zero_refuted` |
| C53 | Keys of one stream must agree on the restart index | Model of _init_buffers; refutation witness. | `C53_refused`, `C53_foreign_refused`, `C53_common`, `C53_new`, `C53_new_key_misses` |
| C54 | Parallel aggregation is schedule independent | ParModel: jobs as programs of atomic reads and writes. Non-interference for disjoint footprints, then simulation by the stream model. | `C54_chunk_schedules`, `C54_final_schedules`, `C54_chunk_sequential`, `C54_final_sequential`, `C54_no_deadlock`, `C54_parallel_run`, `C54_parallel_failure`; false variants: `C54_shared_metadata_refuted`, `C54_shared_dataset_refuted`, `C54_stale_metadata_refuted` |
| C55 | In-memory result buffer bound | Arithmetic over the sequence of sizes; witness for exceeding. | `C55_bound`, `C55_start`, `C55_flushed` |
| C56 | Reading through pandas or vaex gives the same rows | RouterModel + CrashModel: after any history, files in the directory are those of the row groups, in order. | `C56_same_rows` |
| C57 | Columns used for segmentation are unambiguous | SegModel `setup_segmentby`: case analysis against a relation naming the single column (ConfSpec). | `C57_time`, `C57_time_one`, `C57_callable`, `C57_refused`; false variants: `C57_order_missing_refuted` |
| C58 | Configuration of a key depends on its own parameters and common ones only | ConfModel: dicts of parameters as association lists, `_init_keys_config` step by step, the dict of the user being modified in place. Each parameter of the result is compared with a function of the dict of the key and of the parameters of AggStream. | `C58_configured`, `C58_duplicates`, `C58_time_bins`, `C58_write_called`, `C58_sizes`, `C58_filters`, `C58_points`; false variants: `C58_points_refuted`, `C58_reserved_refuted` |
| C59 | Inconsistent parameters are refused when AggStream is set | ConfModel `agg_stream`: acceptance equivalent to a predicate on parameters (ConfSpec `consistent`). | `C59_accepted`; false variants: `C59_reuse_refuted`, `C59_same_dataset_refuted`, `C59_no_filter_entry_refuted` |
| C60 | Snapshots at given times do not depend on the cut of data | SnapValsSpec: label-based stitching of results. Induction over calls; each call of the points iterator is related to the points not yet closed. | `C60_time_bins`, `C60_row_bins`, `C60_missing_point`, `C60_late_point`; false variants: `C60_series_refuted` |
| C61 | Any binning function can be used | UserBinsSpec `binning`: what a binning function is, without reference to how bins are made. Reuse of the invariant of successive calls for built-in bins. Any growing way to make bins is shown to be one of some binning function. | `C61_user_bins`, `C61_user_bins_pieces`, `C61_checks`; false variants: `C61_unchecked_refuted` |
| C62 | Post-processing is given each row of results, in order | PostSpec: a 'post' which records its arguments in its own buffer, any function otherwise; inductive relation `passed` between the rows of a single aggregation and the list of calls. Invariant over iterations, writes and interruptions: the recorded calls give all rows of the table of rows aggregated so far but those in memory. | `C62_post_arguments`, `C62_interrupted`; false variants: `C62_rows_in_each_call_refuted` |
| C63 | Calls given new data only | NewSpec: calls with any flags (`call`), rows taken by a call (`taken`), order of rows over calls (`new_data`). Invariant of keys (BatchProofs.kinv) with rows taken so far, over calls and over new instances once results are written; then as for C50. | `C63_new_data`; false variants: `C63_unwritten_refuted`, `C63_trimmed_overlap_refuted` |
| C64 | Results of post-processing in an unexpected form | Results of 'post' are values POne/PTwo, unpacked as Python does (a data frame is unpacked into names of its columns). From the jobs run on keys in a call (agg_log), and for data left unchanged by induction over what iteration over seed data yields. | `C64_single_refused`, `C64_unusable_unwritten`; false variants: `C64_two_columns_refuted` |
| C65 | Calls given data from the restart index only | CutSpec: rows from an index, chunk by chunk (`rows_from`), and histories in which each step is given all data or recent data (`feed_all`). Equality of the iterations over both seeds by induction over chunks, then of calls and of histories; then C50 and C51 apply. | `C65_same_call`, `C65_rows_given`, `C65_same_history`, `C65_is_batch`, `C65_interrupted_is_batch`; false variants: `C65_after_refuted` |
| C66 | A list of columns given to several writes | Lists of the caller are part of the state (ArgModel): each write reads its list and leaves it modified. By induction over writes, the list in use is the initial one with possibly the column of order, which changes nothing to the write. Witnesses with two columns of order. | `C66_copies`, `C66_list`; false variants: `C66_other_order_refuted`, `C66_missing_column_refuted` |
| C67 | Handles kept while a dataset changes | The store is a disk (CrashModel) with metadata; a handle is what it keeps open (HandleModel). By induction over events for what the handle keeps, then from the trace of file actions of writes (C30 to C32) for reading through an old file. | `C67_answers`, `C67_new_handle`, `C67_no_mix`, `C67_snapshot`; false variants: `C67_stale_refuted`, `C67_updated_refuted` |
| C68 | Streamed aggregation with binning functions of the user | UserKeyModel.v: a key whose bins are made by a function of the user, next to keys of KeyModel.v. The successive calls of C61, or of C73 with snapshots, give the table of one call, grown by each chunk: this is the only thing the generic theorems on runs (BatchRunProofs.v) ask of a key, so they are reused. Ascending labels are used where rows of bins are written again. | `C68_streamed_is_batch`, `C68_accepted`, `C68_interrupted_is_batch`; false variants: `C68_labels_refuted` |
| C69 | Calls made again after a failure, in a same process | RetryModel.v: the functions of RaiseModel.v with the dictionary of pending metadata, and a store which fails, for each key, after any number of modifications. Without pending metadata, a call makes, for each key, a prefix of the modifications it would make without failure, and leaves pending metadata only if it raises; with pending metadata, a call which returns with a final write leaves the same keys as without. So calls in a same process are simulated by runs of C51. | `C69_same_process`, `C69_retried_is_batch`; false variants: `C69_twice_refuted` |
| C70 | Aggregations are set by the first chunk of data | SetupModel.v: 'agg' with the dictionary of aggregations of keys, empty in a new instance, filled key by key from data types of the first chunk, and kinds of seed data. An instance is related to the stream of C50 with data types known from the start, by equality of what is raised and of all the rest of the state; once a key is set and another not, no call changes this. | `C70_same_as_set_before`, `C70_is_batch`, `C70_refused`, `C70_empty_iterator`, `C70_stuck`; false variants: `C70_used_after_refused_refuted` |
| C71 | A final write made again with the same instance | ReuseModel.v: the functions of StreamModel.v with the buffers left by a job which raises, as these are modified in place, pending metadata, and a store which fails for each key before a modification or before the next one. An instance is related to an instance whose records are erased from store, with the same buffers and data, for which the invariant of C50 holds: a failed final write keeps the invariant, a successful one ends it with all results in store, and records them again when the restart index is 'true'. Two counterexamples, for records in between and for failures while iterating. | `C71_final_write_again`, `C71_then_runs`; false variants: `C71_record_refuted`, `C71_loop_refuted` |
| C72 | Bins by month, week or other calendar frequency | CalModel.v: pandas range edges for a frequency which is not a Tick, over an abstract calendar (points, and number of the last point at or before a time stamp), and 'by_scale' on top of the same end as in SegModel.v. CalSpec.v says what a calendar is and which bins are expected; CalProofs.v proves the expected result of a call for bins between any edges in order, then that successive calls make a binning in the sense of C61, so that C61 and C68 apply. MonthProofs.v: month starts follow the Gregorian calendar, and month starts, month ends, weeks, quarters and years are calendars. Counterexamples for multiples closed on the left and for month ends. | `C72_calendar_bins`, `C72_all_rows`, `C72_months`, `C72_pieces`, `C72_streamed_is_batch`, `C72_accepted`, `C72_interrupted_is_batch`; false variants: `C72_month_end_refuted`, `C72_multiple_refuted` |
| C73 | Snapshots along with any bins | UserSnapSpec.v states ends of bins ('bin_ends') and points of snapshots ('snap_points', 'snapping') independently of the code; UserSnapProofs.v proves one call and the step of successive calls for any such pair, with the invariant of the buffers (last bin, running aggregation, restart of snapshots). GridProofs.v proves both for any increasing grid of points, instantiated to fixed periods and calendars in UserSnapInst.v; RowBinsProofs.v for bins of rows. PropSnapUser.v: theorems, a function of the user, and the counter-example for multiples closed on the left. PropSnapStream.v: keys whose bins are periods, with snapshots at the end of other periods, in streams; C68 is stated for any function of the user with snapshots, and gives the results once 'bin_ends' and 'snapping' are met. | `C73_streamed_is_batch`, `C73_accepted`, `C73_interrupted_is_batch`, `C73_snapshots`, `C73_snapshots_pieces`, `C73_points`, `C73_bins`, `C73_calendar_snapshots`, `C73_calendar_snapshots_time_bins`; false variants: `C73_multiple_refuted` |
| C74 | Provisional last rows of seed data | StreamSpec.v: 'extends' lets rows at the last index be replaced from a run to the next; all theorems on streams (C46, C50, C51, C62, C65, C68, C69, C71, C72, C73) are stated with it. RecordProofs.v: rows before a recorded restart index are those of any later seed data. PropProv.v: explicit form with old, provisional and new rows, independence from provisional rows, and counter-examples for rows before the last index and without 'discard_last'. | `C74_provisional_is_batch`, `C74_last_seed_only`; false variants: `C74_earlier_rows_refuted`, `C74_kept_last_refuted` |
| C75 | Calls to agg given new data only | FeedSpec.v: calls to the model of 'agg' with discard_last=False, on the same instance or a new one. FeedProofs.v: invariant 'the key has been given exactly the rows of its filter in the data so far' (kinv of BatchProofs.v, with H the filtered data), kept by a call because a row is delivered whenever its index is not below the restart index, which is an index of former data. PropFeed.v: bins of time and of a number of rows, any two ways to cut the data, counter-examples; PropFeedUser.v: bins made by functions of the user. FeedOkProofs.v, PropFeedOk.v: calls are accepted, by the same invariant with bounds on what is held in memory. | `C75_fed_is_batch`, `C75_any_cut`, `C75_accepted`, `C75_user_accepted`, `C75_user_bins`; false variants: `C75_whole_data_again_refuted`, `C75_unwritten_refuted` |
| C76 | A dataset of the store which grows, and is aggregated | GrowSpec.v: steps made of the model of 'write' on the seed dataset, then of the model of 'agg' with its row groups as chunks. GrowProofs.v: a write at the end of an ordered dataset leaves its former rows as they are, but those at the last index (write_at_end, write_at_end_keys, on top of WrProofs.v), hence seed data grows in the sense of C50 (grow_runs). PropGrow.v: C50 and C68 applied to these runs; counter-examples. GrowOkProofs.v, PropGrowOk.v: steps are accepted, writes by definition of the model, calls by C50_accepted and C68_accepted with as many row groups as rows at most. | `C76_grown_is_batch`, `C76_any_bins`, `C76_accepted`, `C76_any_accepted`; false variants: `C76_late_rows_refuted`, `C76_duplicates_refuted` |
| C77 | Results of a stream are seed data of another one | ChainSpec.v: steps made of calls to 'agg' of a 1st stream, then of a call to 'agg' of a 2nd one, given the row groups of results of a key of the 1st one. ChainProofs.v: tables of results of growing seed data extend each other but for their last row (table_extends, results_extend), hence results are growing seed data in the sense of C50 (chain_runs). PropChain.v: C50 and C68 applied to both streams; counter-example. chain_new_ok in ChainProofs.v and PropChainOk.v: steps are accepted as soon as the 1st stream by itself is, tables of results being shorter than the last one. | `C77_chained_is_batch`, `C77_any_bins`, `C77_accepted`, `C77_any_accepted`; false variants: `C77_unwritten_refuted` |
| C78 | Separators of fields of several characters | SepModel.v is IdxModel.v with a string as separator: substring check of the constructor, join, and re.split with the regular expression made of '/' or the escaped separator (leftmost match, '.' after the first character matching anything). SepProofs.v: an occurrence of the separator which starts within a value and ends after it gives a border of the separator, so that an unbordered separator is only found where it was written; then tokens of keys as for C01 and C02. Conversely a border a.b = b.c of any separator gives the keys ('a'+a, '') and ('a', c), which have one path. C78_exact is the equivalence; C78_one_character links with the model of C01 to C06. | `C78_round_trip`, `C78_injective`, `C78_validation`, `C78_exact`, `C78_empty`, `C78_one_character`; false variants: `C78_bordered_refuted`, `C78_dot_refuted`, `C78_slash_refuted` |
| C79 | Keys with values which are not of the declared types | RetypeSpec.v: values with as many fields and levels as the class, of any type among int and str, and what they are read as. RetypeProofs.v: such values are those of a key of another class, so that their strings are known from C01; the loop of from_path over levels is followed by induction over the class, each level being read or raising. C79_reopened_refuted runs the model of the store of C07. | `C79_read_back`, `C79_typed`, `C79_exact`; false variants: `C79_reopened_refuted` |
| C80 | Writes depend on the ordered column through its order only | ScaleSpec.v: rows changed by a function, columns which order rows alike and identify duplicates alike, histories of calls. ScaleProofs.v: each step of 'write' (statistics of row groups, overlap, sort of rows and of row groups, splitting with boundaries where values change, duplicates, numbers of files) is shown to commute with the change of rows, or not to depend on it; induction over the history, row groups being never empty. Histories ordered on two columns, or with changed values, are instances. | `C80_same_order`, `C80_column`, `C80_units`; false variants: `C80_rounding_refuted`, `C80_other_order_refuted` |
| C81 | Results ordered on another column than labels of bins | OrderModel.v gives keys whose results are written in order of any of their columns, with any 'duplicates_on'. The proofs of C50 and C51 are over writes which act as writes in order of labels (LabelProofs.v); a write in order of a column which orders rows as labels do is such a write, which follows from C80's lemma (writes depend on the order of values only). OrderSpec.v states the condition over results of a single aggregation of the first rows, however many; it is proved for the first value of a bin. Concrete runs refute it for the last value, for 'duplicates_on' with an aggregated column and for a 'post' which drops labels. C81_accepted: proofs of acceptance of C50 and C75 are over any columns a write uses, 'post' keeping enough columns. C81_fed_is_batch and C81_fed_accepted follow from the invariant of C75. OrderUserModel.v and OrderUserSpec.v do the same for bins made by a function of the user, labels of which are in ascending order: C81_user_streamed, C81_user_interrupted, C81_user_accepted (PropOrderUser.v), C81_user_fed and C81_user_fed_accepted (PropOrderUserFeed.v) are proved as C68 and C75. C81_user_first_value: bins of first rows are bins of all rows but the last one, which starts with the same row. | `C81_streamed_is_batch`, `C81_interrupted_is_batch`, `C81_accepted`, `C81_first_value`, `C81_fed_is_batch`, `C81_fed_accepted`, `C81_user_streamed`, `C81_user_interrupted`, `C81_user_accepted`, `C81_user_first_value`, `C81_user_fed`, `C81_user_fed_accepted`; false variants: `C81_last_value_refuted`, `C81_duplicates_refuted`, `C81_dropped_labels_refuted` |

## What was found

Statements one would expect and which are false of the code. Those with a theorem are proved with a witness.

Keys and directories
- A key whose last level has two fields, the first being an empty string, is not read back (`C01_exception`).
- A letter as separator of fields breaks the round trip (`C01_letter_separator_refuted`).
- A separator of several characters which ends as it starts, '--' for instance, makes two keys share a directory; '.' after
  its first character, or '/', breaks the round trip (`C78_bordered_refuted`, `C78_dot_refuted`, `C78_slash_refuted`).
- Values which are not of the declared type, or empty names, make two keys share a directory
  (`C02_untyped_refuted`, `C02_empty_names_refuted`).
- Values which are not of the declared types are accepted: the dataset is found with another key, or is not found, when the
  store is opened again (`C79_reopened_refuted`).
- An empty first component gives an absolute path, out of the store; '.' as separator gives '..'
  (`C04_escape_refuted`, `C04_dot_separator_refuted`).
- A directory "007" is read as key 7, extra fields are ignored (`C05_refuted`); keys may be read which cannot be
  constructed (`C06_unconstructible_refuted`).
- A base path given as `pathlib.Path` or with a trailing '/' is removed with the last dataset
  (`C09_base_removed_refuted`).
- A first write which fails after having created a file gives a key at next opening (`C07_failed_write_refuted`).

Writer
- Overlap with row group 0 is ignored when coalescing: duplicates stay, order is lost (`C19_coalescing_refuted`,
  `C20_coalescing_refuted`).
- Data falling in a gap between row groups, or before all of them, is appended at the end (`C20_gap_refuted`).
- Insertion in the middle with a value in two row groups loses order (`C20_straddling_refuted`).
- Duplicates are not dropped at creation or when appending (`C19_creation_refuted`).
- `sharp_on` lets row groups exceed their maximum size (`C14_sharp_refuted`).
- Coalescing raises if the last row group is complete, and does not ensure `max_nirgs`
  (`C22_complete_refuted`, `C22_coalesced_refuted`).
- A single overlapping row group leads to rewriting all the following ones (`C23_single_refuted`).
- An interrupted update can leave a dataset which cannot be read; an interrupted creation shows its first row
  groups only; files of an interrupted append are read by vaex (`C26_update_refuted`, `C26_creation_refuted`,
  `C26_orphan_refuted`, `C26_torn_refuted`).
- `metadata` given by the caller is modified in place: reused for another key, it carries metadata of the first
  one (`C25_shared_refuted`). A `None` item is stored by a first write, a falsy one is never added
  (`C24_none_refuted`, `C24_falsy_refuted`).
- A list `duplicates_on` given by the caller gets the column data is ordered on, for later writes: with another dataset,
  duplicates stay or the write fails (`C66_other_order_refuted`, `C66_missing_column_refuted`).
- A handle (`store[key]`) opens its `ParquetFile` once: metadata is that of the time, rows read by `pdf` are current ones;
  after an update it cannot be read (`C67_stale_refuted`, `C67_updated_refuted`).
- Another `.parquet` file in the directory makes `vdf` fail (`C30_foreign_refuted`).
- Column names: `C28_unused_refuted`, `C29_padding_refuted`, `C29_plain_refuted`.
- Rounding the column data is ordered on keeps its order, but makes duplicates: rows are lost (`C80_rounding_refuted`).

Segmentation and aggregation
- Restart is refused with the default origin "start_day" and a frequency which does not divide a day, or with
  origin "start" (`C36_start_day_refuted`, `C36_start_refuted`).
- Right-closed bins by rows with ties at a snapshot (`C38_right_closed_ties_refuted`,
  `C42_right_closed_ties_refuted`).
- Snapshots at points given as a pandas Series (the documented type) cannot be restarted once a point is passed:
  the label 0 is looked up in what is left of the Series (`C60_series_refuted`). It works with a DatetimeIndex.
- What a binning function of the user returns is only checked when a buffer is given; without one, the last rows may
  be in no bin silently (`C61_unchecked_refuted`).
- A binning function of the user whose ends of bins are before rows of the bins, or which does not count its empty bins, makes the
  compiled loop write out of its arrays: nothing checks it (`C33_wrong_ends_refuted`, `C33_null_count_refuted`).
- `error_on_0` refuses legitimate zeros, and AggStream always sets it (`C44_legitimate_zero_refuted`,
  `C44_provisional_zero_refuted`).
- Filters: an empty group accepts everything (`C45_empty_group`); comparison with a list depends on chunks
  (`C45_listed_refuted`).

Streams
- `discard_last=False` and then `trim_start=True` counts rows twice (`C46_kept_last_refuted`).
- A chunk without rows is refused, except after a chunk with rows and with `discard_last` (`C46_empty_first`, `C46_empty_kept_last`,
  `C46_empty_chunks`).
- Disorder from a chunk to the next one is not detected (`C48_across_chunks_refuted`).
- Chunks which do not complete a bin with a small memory limit lead to an exception when writing empty results
  (`C50_small_chunks_refuted`); coalescing parameters and ties duplicate bins or snapshots
  (`C50_coalescing_refuted`, `C50_ties_refuted`).
- Interruption: a first run interrupted leaves keys which are refused (`C51_first_run_refused`); several keys, an
  absent key, snapshots (`C51_several_keys_refuted`, `C51_absent_key_refuted`, `C51_snapshots_refuted`).
- A restart index equal to 0 is not recorded (`C52_zero_refuted`); a key added to existing ones silently misses
  earlier rows (`C53_new_key_misses`).
- A dictionary `metadata` given to AggStream is common to all keys, and final writes are always made with threads:
  a key may be written with buffers of another one (`C54_shared_metadata_refuted`); a stale restart index may be
  written (`C54_stale_metadata_refuted`). A dataset used by two keys is not detected (`C54_shared_dataset_refuted`).
- A new instance used while results are not written loses the rows given since, in the mode where only new data is given; rows
  given again are counted twice despite `trim_start` (`C63_unwritten_refuted`, `C63_trimmed_overlap_refuted`).
- Seed data restarted strictly after the restart index loses rows (`C65_after_refuted`).
- `post` may be called without any row (`C62_rows_in_each_call_refuted`). For a pair of keys, a `post` returning a single data frame
  with 2 columns is accepted: nothing is written, the restart index moves (`C64_two_columns_refuted`). So is a pair returned for a
  single key (`C64_unusable_unwritten`).
- With a binning function of the user, labels which do not increase lead to a bin stored twice (`C68_labels_refuted`).
- Two calls failing in the same process may store a restart index without its results, so that rows are never aggregated
  (`C69_twice_refuted`).
- A first chunk refused by a key other than the first one makes the instance unusable (`C70_used_after_refused_refuted`); an empty
  iterator as first seed data raises `StopIteration`, without final write (`C70_empty_iterator`).

Configuration
- `snap_by` given as a Series or a DatetimeIndex is silently ignored by AggStream (`C58_points`, `C58_points_refuted`).
- `AggStream` removes `bin_by` from the dicts of the caller, which are refused if used again (`C59_reuse_refuted`).
- `filters={"_": None}`, which the code means to accept, raises `TypeError` (`C59_no_filter_entry_refuted`).
- Parameters `data`, `dirpath` or `md_key` are accepted by AggStream and every write fails then
  (`C58_reserved_refuted`).
- A key alone and the same one in a tuple are not seen as duplicates (`C59_same_dataset_refuted`).
- A callable with snapshots by time and no name of column at all is accepted (`C57_order_missing_refuted`).

Seen when reading, without a theorem: a chunk which is fully filtered out does not move the restart index (harmless: its rows
are filtered out again at next run).

## Wrong programs

`seeded/LOG.jsonl` lists edits of the model, made in a copy, which make a claim false, with the theorems which fail
then, and those which were tightened.
