{"id": "C01", "title": "Key <-> path and key <-> string round trip", "statement": "For a key accepted by an indexer class whose field values have the declared types, cls.from_path(key.to_path) and cls.from_str(str(key)) (hence pickling and un-pickling) give back an equal key. The only exceptions are keys whose last level has exactly two fields, the first being the empty string: for those both return None.", "quantifier": "every indexer schema (any nesting depth, any field list), every key of it, every admissible separator character", "why_tests_cant": "keys are arbitrary strings and integers at any nesting depth; a test samples a few", "anchors": ["oups/store/indexer.py:_dataclass_instance_to_str", "oups/store/indexer.py:_dataclass_instance_from_str", "oups/store/indexer.py:_reduce", "oups/store/indexer.py:toplevel"]}
{"id": "C02", "title": "Distinct keys never share a directory", "statement": "Two different keys of the same indexer class accepted by validation have different to_path (and different str()), so datasets of two keys can never overwrite each other.", "quantifier": "every pair of valid keys of every schema and separator", "why_tests_cant": "injectivity is a statement about all pairs of unbounded strings", "anchors": ["oups/store/indexer.py:_dataclass_instance_to_str", "oups/store/indexer.py:_validate_toplevel_instance"]}
{"id": "C03", "title": "Constructor validation is exact", "statement": "Building an indexer instance with validation on succeeds exactly when every non-last field at each level is an int or a str (bool and others refused), no field text contains the separator, '/' or '.', and a nested dataclass is only used as last field of a level having at least one other field.", "quantifier": "every instance tree, nested to any depth", "why_tests_cant": "the set of rejected instances is infinite; tests list a few bad ones", "anchors": ["oups/store/indexer.py:_validate_toplevel_instance"]}
{"id": "C04", "title": "Dataset directories stay below the base path", "statement": "For every valid key the directory used for its dataset lies strictly below basepath at exactly the class depth, and no path component is '.' or '..'. The exceptions are keys for which some path component is empty: an empty first component of a nested key gives an absolute path, which escapes basepath.", "quantifier": "every valid key, schema, separator and base path", "why_tests_cant": "path traversal safety has to hold for every user-supplied string", "anchors": ["oups/store/indexer.py:_dataclass_instance_to_str", "oups/store/indexer.py:_get_depth", "oups/store/collection.py:ParquetSet.set", "oups/store/collection.py:ParquetSet._update"]}
{"id": "C05", "title": "Discovered keys point back at the directory they were discovered from", "statement": "When from_path turns a directory name into a key, that key's to_path is the same directory, provided the name has exactly the expected number of fields, integer fields are in canonical decimal form and the two-field/empty-first exception does not occur. Without these provisos it is false: leading extra fields are ignored, '007' is read as 7, so a discovered key may point at another or absent directory.", "quantifier": "every directory name and schema", "why_tests_cant": "ranges over all directory names left on disk by anything", "anchors": ["oups/store/indexer.py:_dataclass_instance_from_str", "oups/store/collection.py:get_keys"]}
{"id": "C06", "title": "Keys produced by from_path may be unconstructible", "statement": "A key returned by from_str/from_path never contains the separator or '/' in its str fields, but may contain '.', so the store can expose keys that the class constructor refuses.", "quantifier": "every string given to from_path", "why_tests_cant": "ranges over all strings", "anchors": ["oups/store/indexer.py:_dataclass_instance_from_str", "oups/store/indexer.py:_validate_toplevel_instance"]}
{"id": "C07", "title": "The in-memory key set always equals what a reopened store would find", "statement": "Starting from an empty directory, after any sequence of dataset writes and deletions with valid round-trippable keys through a ParquetSet, the keys it lists are exactly those a new ParquetSet opened on the same directory lists.", "quantifier": "every finite history of set / delete / reopen operations on any keys", "why_tests_cant": "histories are unbounded", "anchors": ["oups/store/collection.py:ParquetSet.set", "oups/store/collection.py:ParquetSet.__delitem__", "oups/store/collection.py:get_keys", "oups/store/utils.py:files_at_depth"]}
{"id": "C08", "title": "Operations on one key leave every other dataset untouched", "statement": "Writing or deleting the dataset of one key changes no file of any other key's dataset directory.", "quantifier": "every store state, every pair of distinct valid keys, every written content", "why_tests_cant": "frame property over all file system states", "anchors": ["oups/store/collection.py:ParquetSet.set", "oups/store/collection.py:ParquetSet.__delitem__"]}
{"id": "C09", "title": "Deletion prunes only empty parent directories below the base path", "statement": "Deleting a key removes its dataset directory and then only directories that are empty and strictly between it and basepath; basepath itself remains. This relies on basepath being given as a str without trailing '/': with a trailing '/' or a pathlib.Path, deleting the last dataset removes the base directory too and goes on upwards while parents are empty.", "quantifier": "every file system state, key and base path", "why_tests_cant": "depends on the whole directory tree", "anchors": ["oups/store/collection.py:ParquetSet.__delitem__", "oups/store/utils.py:strip_path_tail"]}
{"id": "C10", "title": "Key collection semantics", "statement": "After any history the key collection is sorted without repetition, a key is member iff its last operation was a successful write, len() counts the members, and iteration yields them in order.", "quantifier": "every finite history of operations", "why_tests_cant": "unbounded histories", "anchors": ["oups/store/collection.py:ParquetSet.set", "oups/store/collection.py:ParquetSet.__delitem__", "oups/store/collection.py:ParquetSet.__contains__", "oups/store/collection.py:ParquetSet.__iter__"]}
{"id": "C11", "title": "A rejected write registers nothing", "statement": "When writing raises an exception (wrong key type, wrong data type, writer error) the key collection is unchanged.", "quantifier": "every state, key and failing write", "why_tests_cant": "all failure modes", "anchors": ["oups/store/collection.py:ParquetSet.set", "oups/store/collection.py:ParquetSet.__setitem__"]}
{"id": "C12", "title": "Directory scan is exact", "statement": "The scan used at store opening yields exactly the directories at the requested depth below the base path that hold at least one file, each once, with the names of all their files, whatever the rest of the tree; a missing base path yields nothing.", "quantifier": "every directory tree and depth", "why_tests_cant": "all trees", "anchors": ["oups/store/utils.py:files_at_depth", "oups/store/collection.py:get_keys", "oups/store/collection.py:is_parquet_file"]}
{"id": "C13", "title": "Row-group splitting loses and reorders nothing", "statement": "The chunks produced from a data frame are, in order, exactly its rows (when duplicates are not dropped), none empty if the frame is not.", "quantifier": "every data frame, row group size and sharp_on column", "why_tests_cant": "all sizes", "anchors": ["oups/store/writer.py:iter_dataframe"]}
{"id": "C14", "title": "Row-group size bound", "statement": "Without sharp_on every chunk has at most max_row_group_size rows, and the number of chunks is the least possible given that bound or fewer. With sharp_on the bound can be exceeded.", "quantifier": "every data length and row group size", "why_tests_cant": "integer arithmetic over all sizes", "anchors": ["oups/store/writer.py:iter_dataframe"]}
{"id": "C15", "title": "sharp_on never lets a value straddle two row groups", "statement": "When sharp_on is given and the data is sorted on it, all rows sharing a value of that column are in one chunk.", "quantifier": "every sorted data frame and size", "why_tests_cant": "all duplicate layouts", "anchors": ["oups/store/writer.py:iter_dataframe"]}
{"id": "C16", "title": "Dropping duplicates keeps exactly the last row of each duplicate key", "statement": "When duplicates_on is given and includes sharp_on, over the entire output (not only per chunk) there is exactly one row per duplicate key, it is the last such row of the input, and the order is kept.", "quantifier": "every sorted data frame, size and duplicates_on", "why_tests_cant": "interaction of chunk boundaries with duplicates for all inputs", "anchors": ["oups/store/writer.py:iter_dataframe"]}
{"id": "C17", "title": "Writing without duplicates_on neither loses nor invents rows", "statement": "If write succeeds and duplicates_on is None, the dataset read back has exactly the rows of the previous dataset plus the new rows, with multiplicity.", "quantifier": "every dataset, every row-group layout, new data and parameter combination", "why_tests_cant": "layouts x parameters are unbounded", "anchors": ["oups/store/writer.py:write"]}
{"id": "C18", "title": "Writing with duplicates_on never loses a key", "statement": "If write succeeds with duplicates_on, every row afterwards was in the old dataset or the new data with no greater multiplicity, and every duplicate key of the old or new rows is still present.", "quantifier": "every dataset, new data, parameters", "why_tests_cant": "unbounded layouts", "anchors": ["oups/store/writer.py:write"]}
{"id": "C19", "title": "Last writer wins on overlapping writes", "statement": "When new data sorted on ordered_on overlaps the existing rows, and duplicates_on is given, exactly one row remains for each duplicate key of the new data: the newest. It fails when the first row group overlaps and coalescing (max_nirgs) is triggered. Duplicates inside data creating a dataset or written after its end are not dropped.", "quantifier": "every ordered dataset, sorted new data", "why_tests_cant": "row-group layout dependent", "anchors": ["oups/store/writer.py:write"]}
{"id": "C20", "title": "A dataset ordered on ordered_on stays ordered", "statement": "If the existing dataset is ordered on ordered_on and new data is sorted, the dataset is still ordered after write whenever the new data overlaps a row group or starts after the end. It is false when the new data falls in a gap between row groups or before all of them, when coalescing is triggered while the overlap starts at row group 0, and when data is merged in the middle of a dataset in which a value lies in two row groups.", "quantifier": "every ordered dataset, layout and sorted data", "why_tests_cant": "layouts unbounded", "anchors": ["oups/store/writer.py:write"]}
{"id": "C21", "title": "Any history of keyed writes behaves as an ordered map", "statement": "Creating a dataset and repeatedly writing strictly increasing data with ordered_on = duplicates_on, each write overlapping the existing rows or lying after them, gives a dataset that is at any time the sorted map from key to most recent row.", "quantifier": "every finite history of such writes, every row group size", "why_tests_cant": "unbounded histories", "anchors": ["oups/store/writer.py:write", "oups/store/writer.py:iter_dataframe"]}
{"id": "C22", "title": "Coalescing of incomplete row groups", "statement": "A write with max_nirgs that does not trigger coalescing leaves at most max_nirgs incomplete trailing row groups; a triggered coalescing rewrites only the trailing incomplete row groups (and those overlapping). The advertised bound is not guaranteed after a triggered coalescing.", "quantifier": "every layout, size and max_nirgs", "why_tests_cant": "layouts unbounded", "anchors": ["oups/store/writer.py:write"]}
{"id": "C23", "title": "Row groups not concerned by a write are left untouched", "statement": "Row groups before the first rewritten one keep content and position; when several row groups overlap, those after the last overlapping one are kept as they are.", "quantifier": "every layout and write", "why_tests_cant": "layouts unbounded", "anchors": ["oups/store/writer.py:write"]}
{"id": "C24", "title": "Metadata merge semantics", "statement": "After writing metadata on a dataset having some, a key is: replaced if given with a value, removed if given as None, kept otherwise; other keys are unaffected. On a dataset without oups metadata everything given is stored.", "quantifier": "every existing and new metadata dictionaries", "why_tests_cant": "all dictionaries", "anchors": ["oups/store/writer.py:write_metadata"]}
{"id": "C25", "title": "Pending oups metadata goes to its own dataset only, once", "statement": "Metadata registered for a key is attached to the dataset written with that md_key, removed from the pending table, and no other pending entry is touched; after any history of writes a dataset's oups metadata only ever comes from its own key. False when the caller reuses one metadata dict for two writes.", "quantifier": "every history of writes over any keys", "why_tests_cant": "unbounded histories, aliasing", "anchors": ["oups/store/writer.py:write_metadata", "oups/store/defines.py:KEY_METADATA"]}
{"id": "C26", "title": "An interrupted append leaves the previous dataset readable", "statement": "If the process stops at any point of an appending write, the dataset read through its metadata file is either the old or the new one, unless the metadata file itself is being written. For an overlapping (updating) write this is false: there are points at which the metadata file refers to removed files.", "quantifier": "every crash point of every write", "why_tests_cant": "crash points cannot be enumerated by unit tests", "anchors": ["oups/store/writer.py:write"]}
{"id": "C27", "title": "Refused parameters change nothing on disk", "statement": "Calls refused for inconsistent parameters (duplicates_on without ordered_on, max_nirgs given without a numeric row group size, ...) raise before any file of the dataset is modified.", "quantifier": "every parameter combination and dataset", "why_tests_cant": "all combinations", "anchors": ["oups/store/writer.py:write", "oups/store/writer.py:iter_dataframe"]}
{"id": "C28", "title": "Column multi-index normalisation", "statement": "conform_cmidx yields level names and labels that are all strings, keeps the labels' text and order, and check_cmidx accepts the result; check_cmidx accepts nothing else.", "quantifier": "every column multi-index", "why_tests_cant": "all multi-indexes", "anchors": ["oups/store/utils.py:conform_cmidx", "oups/store/writer.py:check_cmidx"]}
{"id": "C29", "title": "Column name expansion", "statement": "to_midx gives every column name the same number of levels, distinct names staying distinct whenever their field tuples are; plain string names are exploded in characters.", "quantifier": "every list of column names", "why_tests_cant": "all names", "anchors": ["oups/store/writer.py:to_midx"]}
{"id": "C30", "title": "Part files are read in numeric order", "statement": "The list of part files opened for a vaex read is ordered by part number (part.10 after part.9), contains each file once, and nothing but .parquet files.", "quantifier": "every set of part numbers", "why_tests_cant": "lexicographic vs numeric order over all numbers", "anchors": ["oups/store/router.py:ParquetHandle.vdf"]}
{"id": "C31", "title": "min_max reports the true extreme values", "statement": "min_max of a column is the least and greatest value over the whole dataset, whatever the row groups.", "quantifier": "every row-group layout", "why_tests_cant": "layouts unbounded", "anchors": ["oups/store/router.py:ParquetHandle.min_max"]}
{"id": "C32", "title": "Chunk starts are exact", "statement": "For sorted values and sorted right edges, the chunk starts are, for each edge until the data is traversed, the number of values before (closed left) or up to (closed right) the edge, and the traversed flag and number of empty chunks are exact.", "quantifier": "every sorted array and edges", "why_tests_cant": "all arrays", "anchors": ["oups/aggstream/segmentby.py:_next_chunk_starts"]}
{"id": "C33", "title": "Compiled aggregation writes within its arrays", "statement": "The number of empty chunks predicted by segmentation is at least the number the aggregation loop records, and each chunk has its line in the results, so that the compiled loop of cumsegagg, which checks no bounds, never writes out of the arrays allocated for it: whatever data, bins and snapshots, with any buffer for time and calendar bins, from one call to the next for bins of rows, and for any function of the user which announces its empty bins and gives ends of bins which are in order and not before their rows.", "quantifier": "every data, sorted or not, every bins and snapshots (time, calendar, points, rows, function of the user), every sequence of calls", "why_tests_cant": "an out-of-bounds write in compiled code for an unlucky layout", "anchors": ["oups/aggstream/segmentby.py:segmentby", "oups/aggstream/jcumsegagg.py:jcsagg", "oups/aggstream/cumsegagg.py:cumsegagg"]}
{"id": "C34", "title": "by_x_rows bins count rows globally", "statement": "Binning by x rows puts row number i of the whole stream in bin i // x, whether the stream comes in one piece or in any number of non-empty pieces with the buffer passed along.", "quantifier": "every length, x, and every partition in pieces", "why_tests_cant": "all partitions", "anchors": ["oups/aggstream/segmentby.py:by_x_rows"]}
{"id": "C35", "title": "Time binning is the mathematical floor binning", "statement": "Binning by a TimeGrouper puts each row in the unique period interval containing its time stamp (closed side respected), yields all periods from that of the first row to that of the last row, empty ones included, with the left or right end as label.", "quantifier": "every sorted time stamps, frequency, closed and label sides, origin", "why_tests_cant": "all time stamps and frequencies", "anchors": ["oups/aggstream/segmentby.py:by_scale", "oups/aggstream/segmentby.py:_next_chunk_starts"]}
{"id": "C36", "title": "Time binning is restart-stable", "statement": "When the stream is cut in pieces with the buffer passed along, the first bin of a piece is the last one of the previous piece, with the same label, provided period limits do not depend on the first time stamp of the piece (fixed origin, or start_day with a frequency dividing a day). With the default start_day origin and another frequency, or origin start, a restart can be refused with an error.", "quantifier": "every cut of every stream, frequency, side, origin", "why_tests_cant": "all cuts", "anchors": ["oups/aggstream/segmentby.py:by_scale", "oups/aggstream/segmentby.py:segmentby"]}
{"id": "C37", "title": "Bins and snapshots are merged stably", "statement": "The merge of snapshot and bin ends is sorted on their keys, keeps each family in order, puts snapshots before bins on ties (unless the last is forced), and the returned positions are those of the bins.", "quantifier": "every pair of key arrays", "why_tests_cant": "all ties layouts", "anchors": ["oups/aggstream/segmentby.py:mergesort"]}
{"id": "C38", "title": "Bin ends and snapshots are processed in row order", "statement": "After merging bins and snapshots, the sequence of row positions is non-decreasing for time bins and for left-closed row bins. It is not for right-closed row bins when a repeated time stamp straddles a bin end at which a snapshot falls.", "quantifier": "every sorted data, bins and snapshot edges", "why_tests_cant": "tie layouts", "anchors": ["oups/aggstream/segmentby.py:segmentby", "oups/aggstream/segmentby.py:mergesort"]}
{"id": "C39", "title": "Elementary aggregations compose over pieces", "statement": "first, last, min, max, sum over a concatenation equals the aggregation of the second piece started from the result of the first, for any number type and any rounding of its addition; and they are the mathematical first/last/min/max/sum.", "quantifier": "every column content and every cut", "why_tests_cant": "all arrays and cuts", "anchors": ["oups/aggstream/jcumsegagg.py:jfirst", "oups/aggstream/jcumsegagg.py:jlast", "oups/aggstream/jcumsegagg.py:jmin", "oups/aggstream/jcumsegagg.py:jmax", "oups/aggstream/jcumsegagg.py:jsum"]}
{"id": "C40", "title": "Cumulative segmented aggregation is exact", "statement": "For non-decreasing positions, each bin result is the aggregation of exactly the rows since the previous bin end, each snapshot result is the aggregation of the rows since the last bin end before it, and exactly the bins and snapshots without any row are reported as null.", "quantifier": "every data, positions, bin/snapshot layout and set of aggregations", "why_tests_cant": "all layouts", "anchors": ["oups/aggstream/jcumsegagg.py:jcsagg"]}
{"id": "C41", "title": "Aggregation specification is mapped to the right columns", "statement": "For every requested output column the result column of that name is computed with the requested function on the requested input column, whatever the mix of dtypes, functions and order; unknown columns or functions are refused.", "quantifier": "every aggregation dictionary and column dtypes", "why_tests_cant": "all mixes", "anchors": ["oups/aggstream/cumsegagg.py:setup_cumsegagg"]}
{"id": "C42", "title": "One-call cumsegagg result", "statement": "cumsegagg on sorted data gives one row per bin with label, the aggregation of the rows of the bin for each output column, and null rows exactly for empty bins; empty data gives None.", "quantifier": "every data frame, aggregation and bin specification", "why_tests_cant": "all data", "anchors": ["oups/aggstream/cumsegagg.py:cumsegagg", "oups/aggstream/segmentby.py:segmentby", "oups/aggstream/jcumsegagg.py:jcsagg"]}
{"id": "C43", "title": "cumsegagg in pieces equals cumsegagg at once", "statement": "Feeding the data in any number of non-empty pieces with one buffer, and keeping of each piece but the last all bins but its last one, gives the same bins (and the same snapshots) as a single call on the whole data.", "quantifier": "every data, every partition, every aggregation", "why_tests_cant": "all partitions", "anchors": ["oups/aggstream/cumsegagg.py:cumsegagg", "oups/aggstream/segmentby.py:segmentby", "oups/aggstream/jcumsegagg.py:jcsagg"]}
{"id": "C44", "title": "Zero results are refused by default", "statement": "With error_on_0 set, cumsegagg raises iff some aggregated value of a non-empty bin or snapshot is 0; without it never for that reason. The streaming aggregation always sets it, so seed data whose aggregation is legitimately 0 cannot be aggregated.", "quantifier": "every data", "why_tests_cant": "all data", "anchors": ["oups/aggstream/cumsegagg.py:cumsegagg", "oups/aggstream/aggstream.py:agg_iter"]}
{"id": "C45", "title": "Row filters are a disjunction of conjunctions", "statement": "The filter keeps exactly the rows satisfying all conditions of at least one group, in order; malformed filters are refused.", "quantifier": "every filter and data frame", "why_tests_cant": "all filters", "anchors": ["oups/aggstream/utils.py:dataframe_filter"]}
{"id": "C46", "title": "Each seed row is delivered exactly once", "statement": "With trim_start and discard_last, over any chunking of an ordered seed and any number of successive runs with the seed growing at its end (rows at its last index being provisional: they may be replaced at the next run), each row whose index is before the last index of the seed is delivered once, in order, to aggregation. Chunks without rows after a first chunk with rows to aggregate change nothing; before it, or without discard_last, they have the call raise.", "quantifier": "every chunking, every number of restarts", "why_tests_cant": "all chunkings and histories", "anchors": ["oups/aggstream/aggstream.py:_iter_data", "oups/aggstream/aggstream.py:AggStream.agg", "oups/aggstream/aggstream.py:AggStream._init_agg_cs"]}
{"id": "C47", "title": "Every filter sees exactly its own rows", "statement": "For each filter, the concatenation of the delivered chunks is the filter applied to the concatenation of the trimmed seed, whatever the chunking.", "quantifier": "every chunking and filter", "why_tests_cant": "all chunkings", "anchors": ["oups/aggstream/aggstream.py:_iter_data", "oups/aggstream/utils.py:dataframe_filter"]}
{"id": "C48", "title": "Unordered seed chunks are refused", "statement": "A seed chunk not sorted on ordered_on raises before any of its rows is delivered, what has been delivered before being what the previous chunks alone give. Order from one chunk to the next is not checked.", "quantifier": "every chunking", "why_tests_cant": "all chunkings", "anchors": ["oups/aggstream/aggstream.py:_iter_data"]}
{"id": "C49", "title": "A failing pre-check keeps everything aggregated so far", "statement": "When pre raises on a chunk, the results in the store and the restart index are those of the chunks before it (up to the discarded last index), the exception is then raised to the caller.", "quantifier": "every chunking and every failing position", "why_tests_cant": "all failing positions", "anchors": ["oups/aggstream/aggstream.py:_iter_data", "oups/aggstream/aggstream.py:AggStream.agg", "oups/aggstream/aggstream.py:_post_n_write_agg_chunks"]}
{"id": "C50", "title": "Streamed results equal batch results", "statement": "For bins of time or of a number of rows, with or without snapshots and a post-processing working row by row, whatever the chunking of the seed, the memory threshold triggering intermediate writes, the row group size and the number of successive runs, the store holds for each key exactly the results a single aggregation of all delivered rows gives, after post-processing. Nothing is raised in these runs when no aggregated value is 0 and the memory threshold leaves room for the chunks given between two final writes.", "quantifier": "every seed, chunking, threshold, number of runs", "why_tests_cant": "all schedules", "anchors": ["oups/aggstream/aggstream.py:agg_iter", "oups/aggstream/aggstream.py:_post_n_write_agg_chunks", "oups/aggstream/aggstream.py:AggStream.agg", "oups/store/writer.py:write", "oups/aggstream/cumsegagg.py:cumsegagg"]}
{"id": "C51", "title": "Crash and re-run is idempotent", "statement": "If a run is interrupted between two writes of any keys (they are made in threads: each key may be left at any point between its own writes), or stopped by an exception raised at any point (seed, filter, aggregation, post, write), re-running in a new process over the seed with trim_start gives the same final store content as an uninterrupted run, provided the key has results of a previous complete run. If the very first run is interrupted after an intermediate write, the key is refused at the next start.", "quantifier": "every crash point between writes", "why_tests_cant": "crash points x chunkings", "anchors": ["oups/aggstream/aggstream.py:_post_n_write_agg_chunks", "oups/aggstream/aggstream.py:_init_buffers"]}
{"id": "C52", "title": "The restart index is recorded with each final write", "statement": "After a run with final write, the store metadata of each key holds the index to restart from, except when that index is falsy (0), in which case it is not recorded.", "quantifier": "every run", "why_tests_cant": "all index values", "anchors": ["oups/aggstream/aggstream.py:_post_n_write_agg_chunks", "oups/aggstream/aggstream.py:_init_buffers", "oups/aggstream/aggstream.py:AggStream.agg"]}
{"id": "C53", "title": "Keys of one stream must agree on the restart index", "statement": "At start, if the keys existing in store have different restart indices an error is raised; otherwise the common value is used for trimming. A key absent from store does not prevent it, and its earlier rows are then skipped silently.", "quantifier": "every set of keys and stored metadata", "why_tests_cant": "all combinations", "anchors": ["oups/aggstream/aggstream.py:_init_buffers"]}
{"id": "C54", "title": "Parallel aggregation is schedule independent", "statement": "Whatever the interleaving of the per-key aggregation jobs of an iteration, results, buffers and pending metadata are those of the sequential run, as each job only touches the entries of its own key. False when the write configurations share a user metadata dict.", "quantifier": "every interleaving of the jobs", "why_tests_cant": "all schedules", "anchors": ["oups/aggstream/aggstream.py:AggStream.agg", "oups/aggstream/aggstream.py:agg_iter", "oups/store/writer.py:write_metadata"]}
{"id": "C55", "title": "In-memory result buffer bound", "statement": "Intermediate results are flushed to store once their recorded size exceeds max_in_memory_size; as the check precedes the accounting of the newest result, the buffer can exceed it by one result but never by more.", "quantifier": "every sequence of results", "why_tests_cant": "all sequences", "anchors": ["oups/aggstream/aggstream.py:agg_iter"]}
{"id": "C56", "title": "Reading through pandas or vaex gives the same rows", "statement": "After any history of write calls on a dataset, refused ones included, the rows read from the list of part files of its directory (vaex) are those read from its metadata file (pandas), in the same order.", "quantifier": "every history of writes, every listing order of the directory", "why_tests_cant": "unbounded histories, file renaming", "anchors": ["oups/store/router.py:ParquetHandle.vdf", "oups/store/router.py:ParquetHandle.pdf", "oups/store/writer.py:write"]}
{"id": "C57", "title": "Columns used for segmentation are unambiguous", "statement": "For bins by time, parameters are accepted exactly when the grouper, bin_on, ordered_on and the grouper of snapshots name one and the same column (sides of intervals being the same for bins and snapshots), and this column is then the one which is binned and the one which is checked for order. For bins by a function, the columns given to it are those named by bin_on and ordered_on, once each. Anything else raises ValueError. False in one case: a function with snapshots by time without any column name is accepted without column of order.", "quantifier": "every combination of parameters and column names", "why_tests_cant": "all combinations", "anchors": ["oups/aggstream/segmentby.py:setup_segmentby"]}
{"id": "C58", "title": "Configuration of a key depends on its own parameters and common ones only", "statement": "Each key given to AggStream is configured with its own value of a parameter if given, otherwise with the value given to AggStream, whatever the other keys and filters. Parameters used to write its results are those of write, with a column of order and columns of duplicates (by default the column of bins). Bins and snapshots of a same key each have their own size of row groups. A filter given as a list of conditions is one group of conditions, and each key is given the rows of the filter it is set in. The call to write is well formed, except if a name reserved by the store (data, dirpath, md_key) is given, which is accepted at initialization. Snapshots are made if asked with a TimeGrouper; asked at given points (Series, DatetimeIndex), which is documented, they are not made, silently.", "quantifier": "every set of keys, filters and parameters", "why_tests_cant": "all combinations", "anchors": ["oups/aggstream/aggstream.py:_init_keys_config", "oups/aggstream/aggstream.py:AggStream.__init__", "oups/store/collection.py:ParquetSet.set"]}
{"id": "C59", "title": "Inconsistent parameters are refused when AggStream is set", "statement": "AggStream accepts parameters if and only if names are known, filters are given for exactly the filter ids of keys, no key is given twice, each key has bins, an aggregation, unambiguous columns, and a name of bin column which is not the one of a result. Dicts of keys are altered: they are refused when used a second time.", "quantifier": "every set of keys, filters and parameters", "why_tests_cant": "all combinations", "anchors": ["oups/aggstream/aggstream.py:AggStream.__init__", "oups/aggstream/aggstream.py:_init_keys_config"]}
{"id": "C60", "title": "Snapshots at given times do not depend on the cut of data", "statement": "When snapshots are asked at given points in time, and data is given in successive calls, each call repeating the points already given and possibly adding points which are after all rows seen so far, the rows of snapshots of all calls, put one after the other (a snapshot repeated by the next call with more rows replacing the first one), are those of a single call with all rows and all points: one row per point, each with all rows of its bin up to it. A call whose points do not contain the last one in use raises, and so does one adding a point which is not after all rows seen so far. False when points are given as a pandas Series (the documented type): restart raises KeyError once a point has been passed.", "quantifier": "every data, cut in calls, and growing list of points", "why_tests_cant": "all cuts and points", "anchors": ["oups/aggstream/segmentby.py:by_scale", "oups/aggstream/segmentby.py:segmentby", "oups/aggstream/cumsegagg.py:cumsegagg"]}
{"id": "C61", "title": "Any binning function can be used", "statement": "For any binning function which describes bins consistently (labels, ends, positions), on data it is made for, the aggregation of each bin is that of its rows, in one call; and if the function can be called on successive pieces of data, results of successive calls put together are those of one call, whatever the cut. With a buffer, what the function returns is accepted if and only if numbers of labels, ends and positions are the same, the last bin stops at the last row and has rows, and the first label is the last one of the previous call. False without buffer: a function leaving out the last rows is accepted, these rows being in no bin.", "quantifier": "every binning function, data and cut in calls", "why_tests_cant": "all functions, all cuts", "anchors": ["oups/aggstream/segmentby.py:segmentby", "oups/aggstream/cumsegagg.py:cumsegagg"]}
{"id": "C62", "title": "Post-processing is given each row of results, in order", "statement": "Over any runs (same or new instance, with or without final write, interrupted at any point or stopped by any exception once keys are in store), whatever 'post' returns or raises and whatever is written, the successive calls to 'post' which its buffer remembers give each row of bins of a single aggregation, once and in order, and so do rows of snapshots. A row is given twice only if it was the last row of a final write, not complete then: it is the first row of the next call giving rows, with its new values. False: each call gives at least a row (an intermediate write before any bin is complete calls 'post' with an empty data frame).", "quantifier": "every seed data, cut in chunks and runs, interruption, key configuration and post function", "why_tests_cant": "unbounded histories, memory-triggered writes", "anchors": ["oups/aggstream/aggstream.py:_post_n_write_agg_chunks", "oups/aggstream/aggstream.py:agg_iter", "oups/aggstream/aggstream.py:AggStream.agg"]}
{"id": "C63", "title": "Calls given new data only", "statement": "When each call to 'agg' is given only rows which come after those of previous calls (or share their last index), then with any values of trim_start, discard_last and final_write, after a call with a final write each key holds the results of a single aggregation of all rows taken (rows at the last index of a call discarding them are not taken, unless given again), provided results are written before a new AggStream instance is used. False without this last condition (rows are lost), and false that trim_start makes it harmless to give rows again after a call which did not discard its last rows (they are counted twice).", "quantifier": "every sequence of calls with any flags, seed data, chunks, filters and key configuration", "why_tests_cant": "unbounded sequences of calls", "anchors": ["oups/aggstream/aggstream.py:AggStream.agg", "oups/aggstream/aggstream.py:_iter_data"]}
{"id": "C64", "title": "Results of post-processing in an unexpected form", "statement": "With a key for bins and another one for snapshots, a 'post' function which returns a single data frame has the call raise, provided this data frame has not exactly 2 columns; nothing is written for a key whose 'post' never returns data frames as expected (a single data frame for a single key, a pair for two keys). It is false that a single result is refused in any case: with 2 columns (labels and one aggregation) the call is accepted, nothing is written, and the restart index is recorded, so that rows are lost. Similarly a pair returned for a single key is accepted and not written.", "quantifier": "every stream, call and flags, seed data, configuration and post-processing function", "why_tests_cant": "all functions", "anchors": ["oups/aggstream/aggstream.py:_post_n_write_agg_chunks", "oups/aggstream/aggstream.py:AggStream.agg"]}
{"id": "C65", "title": "Calls given data from the restart index only", "statement": "With trim_start, giving only rows from the restart index of the AggStream instance (included), chunk by chunk, does exactly what giving all seed data does: same state, same modifications of the store, same exceptions. So that over any history of calls, interrupted (or stopped by an exception) or not, in which each call is given all data or rows from the restart index only, results are those of a single aggregation of all rows (as in C50 and C51). 'pre' is assumed not to modify data nor its buffer. It is false for rows strictly after the restart index: rows at this index are never aggregated.", "quantifier": "every stream state, seed data, chunks and history of calls", "why_tests_cant": "all histories of calls and interruptions", "anchors": ["oups/aggstream/aggstream.py:AggStream.agg", "oups/aggstream/aggstream.py:_iter_data", "oups/aggstream/aggstream.py:AggStream.restart_index"]}
{"id": "C66", "title": "A list of columns given to several writes", "statement": "A list given as 'duplicates_on' is modified by 'write' when the dataset exists: the column of order is added at its end if it is not in it, and the list is not empty. Using the same list for several writes has the same effect on datasets as giving a new list each time, provided it is always used with the same column of order. Columns of the list stay in it, in order, and only columns of order are added. False without this condition: with datasets ordered on different columns, duplicates are not dropped as asked, or the write raises because the added column does not exist.", "quantifier": "every sequence of writes, datasets, lists and parameters", "why_tests_cant": "all sequences of writes sharing arguments", "anchors": ["oups/store/writer.py:write"]}
{"id": "C67", "title": "Handles kept while a dataset changes", "statement": "With a handle on a dataset kept while the dataset is written again: rows given by 'pdf' and extreme values by 'min_max' are those of the dataset at present; metadata is that of the dataset when the handle has been first used for metadata or through 'pf'; rows read from 'pf' are those of the dataset at this same time, or an error is raised, never a mix of old and new rows. They can be read as long as later writes only add row groups. A new handle is always up to date. It is false that a kept handle gives current metadata, and that rows can always be read from its 'pf'.", "quantifier": "every sequence of writes and uses of a handle", "why_tests_cant": "all interleavings of uses and writes", "anchors": ["oups/store/router.py:ParquetHandle.pf", "oups/store/router.py:ParquetHandle.pdf", "oups/store/router.py:ParquetHandle.min_max", "oups/store/router.py:ParquetHandle.metadata"]}
{"id": "C68", "title": "Streamed aggregation with binning functions of the user", "statement": "With keys whose bins are made by a function of the user, with or without snapshots (and others with built-in bins), over any runs (same or new AggStream instance, with or without final write, interrupted at any point or stopped by any exception once keys are in store), after a run with a final write each key holds the results of a single aggregation of all rows, bins and snapshots, provided the function makes bins growing with data, and labels of successive bins are in ascending order. Under bounds on memory and configuration, nothing is raised. It is false that distinct labels are enough: with labels in another order, a bin is stored twice.", "quantifier": "every seed data, cut in chunks and runs, interruption, binning function and set of keys", "why_tests_cant": "all functions, unbounded histories", "anchors": ["oups/aggstream/aggstream.py:agg_iter", "oups/aggstream/aggstream.py:AggStream.agg", "oups/aggstream/segmentby.py:segmentby", "oups/aggstream/cumsegagg.py:cumsegagg", "oups/store/writer.py:write"]}
{"id": "C69", "title": "Calls made again after a failure, in a same process", "statement": "When calls to 'agg' raise, because the store fails at any writes of any keys (jobs of keys being run in threads), or for any other reason, and are made again with a new AggStream instance in the same process or in another one, then after a call which returns and has written its results each key holds the results of a single aggregation of all rows, provided keys are in store beforehand, indexes are time stamps, and after a call failing in its final write (whose metadata is then still pending in the process) the next call in the same process returns, with a final write. It is false without this last condition: if this next call fails as well after an intermediate write, the restart index of the first failed call has been stored without its results, and some rows are never aggregated.", "quantifier": "every sequence of calls, position of failures, seed data and key configuration", "why_tests_cant": "all positions of failures, unbounded histories", "anchors": ["oups/aggstream/aggstream.py:_post_n_write_agg_chunks", "oups/aggstream/aggstream.py:AggStream.agg", "oups/store/writer.py:write_metadata", "oups/store/writer.py:OUPS_METADATA"]}
{"id": "C70", "title": "Aggregations are set by the first chunk of data", "statement": "Keys are configured without data types: an AggStream instance takes them from the first chunk it is given. For chunks with the same data types, which have the columns of all keys, calls to 'agg', with the same instance or with new ones, with data frames, lists or iterators as seed data, return or raise as if data types were known from the start, and leave the same datasets: results are those of a single aggregation. If a column of a key is missing in the first chunk, or its function is unknown, the call raises ValueError and neither buffers nor datasets change. An iterator without any chunk, as first seed data, raises StopIteration, and nothing is written even with a final write. Once some keys are set and not others (refused first chunk), this remains so: any later call with rows for the keys which are not set raises, even with the right columns.", "quantifier": "every configuration of keys, data types, kind of seed data and sequence of calls", "why_tests_cant": "unbounded histories of calls and instances; state left by a refused chunk", "anchors": ["oups/aggstream/aggstream.py:AggStream._init_agg_cs", "oups/aggstream/aggstream.py:AggStream.agg", "oups/aggstream/cumsegagg.py:setup_cumsegagg"]}
{"id": "C71", "title": "A final write made again with the same instance", "statement": "When calls to 'agg' of a same AggStream instance raise in their final write (the store fails for any keys, before any modification or between bins and snapshots, or jobs of keys are not started), and others follow, with more data or without any, with a final write or not, then after a call which returns with a final write each key holds the results of a single aggregation of all rows given before the last index: results of failed writes are neither lost nor counted twice. When the restart index is a time stamp, nothing is then pending in the process, and runs made afterwards, with this instance or new ones, give such results too. It is false that, in between, what is recorded in store is consistent: an intermediate write of a later call records the restart index of the failed call with a newer state, and a process starting from there counts rows twice. It is false as well after a failure while iterating over data: rows are counted twice, or written twice, by the same instance.", "quantifier": "every sequence of calls to an instance, set of keys whose final write fails, seed data and key configuration", "why_tests_cant": "all positions of failures, unbounded histories of calls", "anchors": ["oups/aggstream/aggstream.py:_post_n_write_agg_chunks", "oups/aggstream/aggstream.py:AggStream.agg", "oups/aggstream/aggstream.py:agg_iter", "oups/store/writer.py:OUPS_METADATA"]}
{"id": "C72", "title": "Bins by month, week or other calendar frequency", "statement": "With a TimeGrouper whose frequency is not a fixed duration (month starts, month ends, weeks, quarters, years, or multiples), bins of ordered rows are consecutive intervals between every n-th point of the calendar, each row is in exactly one bin, the one between whose points it lies, and labels are in order; months are those of the Gregorian calendar. Aggregating data piece by piece, or in a stream with any chunks, runs and interruptions, gives the results of a single aggregation, for single steps, and for multiples when bins are closed on the right. Nothing is raised in a stream when no aggregated value is 0 and the memory threshold leaves room for the chunks given between two final writes. It is false for multiples with bins closed on the left: once a piece of data lies in a single bin, the next bins are shifted and an exception is raised. It is false that bins by month end hold the rows of their month: rows of the last day, after midnight, go to the next month, and the first bin may have no row.", "quantifier": "every calendar whose points are at midnight, multiple, closed side, label side, ordered rows, and way to cut them", "why_tests_cant": "all time stamps (leap years, month lengths) and all ways to cut data", "anchors": ["oups/aggstream/segmentby.py:by_scale", "oups/aggstream/segmentby.py:segmentby", "oups/aggstream/cumsegagg.py:cumsegagg", "oups/aggstream/aggstream.py:AggStream.agg"]}
{"id": "C73", "title": "Snapshots along with any bins", "statement": "With bins made in any way (fixed periods, calendar, number of rows, function of the user which gives the ends of bins) and snapshots at fixed periods, at periods of a calendar or at given values, a snapshot has the rows before its point of the bin in progress at this point: with bins by periods, rows before this point and not before the end of a bin which ended earlier. Aggregating data piece by piece gives the bins and snapshots of a single aggregation, for any pieces (periods; multiples of a calendar if bins are closed on the right); a stream too, for any chunks, runs and interruptions. It is false for multiples of a calendar with bins closed on the left: labels of snapshots are then other ones.", "quantifier": "every way of making bins, of placing snapshots, ordered rows, and way to cut them in pieces, chunks and runs", "why_tests_cant": "all functions, all time stamps, all ways to cut data", "anchors": ["oups/aggstream/segmentby.py:by_scale", "oups/aggstream/segmentby.py:segmentby", "oups/aggstream/segmentby.py:mergesort", "oups/aggstream/cumsegagg.py:cumsegagg", "oups/aggstream/jcumsegagg.py:jcumsegagg", "oups/aggstream/aggstream.py:AggStream.agg"]}
{"id": "C74", "title": "Provisional last rows of seed data", "statement": "With trim_start and discard_last, rows at the last index of seed data may be replaced by any others, at this index or later (one at least), before the next call to 'agg': results are then those of a single aggregation of the last seed data, whatever the values of provisional rows, over any number of calls. Hence two histories of calls with the same last seed data lead to the same rows in datasets. It is false for rows before the last index: if they are modified, results keep their former values; and it is false without discard_last: provisional rows are kept in results.", "quantifier": "every seed data, provisional rows and history of calls", "why_tests_cant": "all values of provisional rows, all histories of calls", "anchors": ["oups/aggstream/aggstream.py:AggStream.agg", "oups/aggstream/aggstream.py:_iter_data"]}
{"id": "C75", "title": "Calls to agg given new data only", "statement": "When successive calls to 'agg' are given rows which follow those of the former calls (discard_last=False, as by default, trim_start being False or True), in any number of chunks, possibly none (final write only), then once the last call has written its results each key holds those of a single aggregation of all rows of its filter, the very last included, whatever the way data is cut into calls; rows with the same index may be given by two successive calls. Calls are made with the same instance, or with a new one once results have been written. Such calls raise nothing when no aggregated value is 0, sizes of row groups are positive and memory is enough for the chunks given between two final writes. It is false if the whole data is given again with default parameters: rows are then counted twice (the documentation says that trim_start and discard_last are True by default, they are False); and it is false with a new instance when results have not been written.", "quantifier": "every data, way to cut it in calls and chunks, instance kept or not, and key configuration", "why_tests_cant": "all ways to cut data, unbounded histories of calls", "anchors": ["oups/aggstream/aggstream.py:AggStream.agg", "oups/aggstream/aggstream.py:_iter_data", "oups/aggstream/aggstream.py:agg_iter", "oups/aggstream/aggstream.py:_post_n_write_agg_chunks"]}
{"id": "C76", "title": "A dataset of the store which grows, and is aggregated", "statement": "When data is written again and again at the end of a dataset of the store ('ordered_on' the index, rows not before those written beforehand, any row group sizes, as pandas or vaex data, with or without coalescing of incomplete row groups, with or without 'duplicates_on'), and all row groups of this dataset are given each time to 'agg' (trim_start and discard_last), with the same AggStream instance or a new one, with final write or not: the dataset holds all rows written, in order (the latest one for each key if duplicates are dropped, data having no duplicate by itself), and once the last call has written its results each key holds those of a single aggregation of the rows of this dataset, before their last index, for any bins. Such steps raise nothing when row groups of the dataset have a positive size, no aggregated value is 0, and memory is enough for the row groups given between two final writes. It is false for rows written before the last index: they are in the dataset but not in results; and it is false when data making the dataset has duplicates: they are aggregated, then dropped from the dataset by a later write.", "quantifier": "every sequence of writes and calls to agg, data, write parameters and key configuration", "why_tests_cant": "unbounded histories mixing writes and aggregations", "anchors": ["oups/store/writer.py:write", "oups/store/writer.py:iter_dataframe", "oups/aggstream/aggstream.py:AggStream.agg", "oups/aggstream/aggstream.py:_iter_data"]}
{"id": "C77", "title": "Results of a stream are seed data of another one", "statement": "When results of a key of a stream (those of its main key, or those of snapshots if it has both) are given as seed data to 'agg' of another stream (trim_start and discard_last), again and again as seed data of the 1st stream grows, each time after the 1st stream has written its results, with the same AggStream instances or new ones, with any chunks, row group sizes and final writes: once the last call has written its results, keys of the 1st stream hold the results of a single aggregation of its seed data, and keys of the 2nd one those of a single aggregation of these results, before their last label, though rows of bins in progress have been replaced in between. Such steps raise nothing when no aggregated value is 0 in any of the streams, sizes of row groups are positive and memory is enough for the chunks given between two final writes. If the 1st stream does not write its results before they are read, the 2nd one misses bins.", "quantifier": "every pair of streams, seed data, history of calls and key configuration", "why_tests_cant": "unbounded histories mixing two streams; results which are replaced in between", "anchors": ["oups/aggstream/aggstream.py:AggStream.agg", "oups/aggstream/aggstream.py:_iter_data", "oups/aggstream/aggstream.py:_post_n_write_agg_chunks", "oups/store/writer.py:write"]}
{"id": "C78", "title": "Separators of fields of several characters", "statement": "Whatever string is given as fields_sep (characters standing for themselves in a regular expression, no '/'), strings and paths of keys give the keys back and distinct keys have distinct paths if and only if the separator does not end as it starts ('-_' can be used, '--' and '-_-' cannot: two keys then share a directory). With an empty separator no key can be made. '.' after the first character and '/' in the separator break the round trip.", "quantifier": "every separator string, every class of keys (int, str fields, nested to any depth), every field values accepted by the constructor", "why_tests_cant": "tests only use '-' and '.' as separators, with a few keys; which separators are safe is a question about all strings and all pairs of keys", "anchors": ["oups/store/indexer.py:toplevel", "oups/store/indexer.py:_validate_toplevel_instance", "oups/store/indexer.py:_dataclass_instance_to_str", "oups/store/indexer.py:_dataclass_instance_from_str", "oups/store/indexer.py:_reduce"]}
{"id": "C79", "title": "Keys with values which are not of the declared types", "statement": "The constructor of a key accepts int and str values whatever the types declared. Reading the path or the string of such a key ('from_path', 'from_str', pickle) gives a key with values of the declared types: an int read as str is its decimal form, a str read as int is int() of it, and nothing is returned if it is not possible. A key is given back by its strings if and only if its values are of the declared types (but for an empty string as first of two fields in last level). A dataset written with such a key is found with another key, or is not found, when the store is opened again.", "quantifier": "every class of keys, nested to any depth, all int and str values accepted by the constructor", "why_tests_cant": "all values and classes; the round trip must be characterised, not sampled", "anchors": ["oups/store/indexer.py:toplevel", "oups/store/indexer.py:_validate_toplevel_instance", "oups/store/indexer.py:_dataclass_instance_to_str", "oups/store/indexer.py:_dataclass_instance_from_str", "oups/store/indexer.py:_reduce", "oups/store/collection.py:get_keys"]}
{"id": "C80", "title": "Writes depend on the ordered column through its order only", "statement": "If two columns order rows of all data written in a dataset the same way, then calls to 'write' ordered on one or on the other, each with any row group size, 'max_nirgs', 'duplicates_on' (existing columns) and kind of data frame, make the same row groups, with the same rows, in the same files, and raise the same exceptions, over any history of calls. If values of the ordered column are changed by a strictly increasing function (other time unit, other origin), row groups are the same ones with values changed. More generally it holds for any change of rows which keeps the order and which rows are duplicates. It is false if values are rounded, even if their order is kept: rows are lost as duplicates.", "quantifier": "every pair of columns, strictly increasing function, history of calls to write and parameters", "why_tests_cant": "all data and all functions; equality of two executions over unbounded histories", "anchors": ["oups/store/writer.py:write", "oups/store/writer.py:iter_dataframe"]}
{"id": "C81", "title": "Results ordered on another column than labels of bins", "statement": "With 'bin_on' given as a tuple (or 'ordered_on' given for a key), results of streamed aggregation are ordered on an aggregated column, labels of bins being in another one. Whatever the runs, chunks, filters, memory limits, interruptions and restarts, recorded results are those of a single aggregation as long as this column has the same order as labels in all results which may be recorded, those of bins in progress included. This holds in particular when the column is the first value, in each bin, of the column seed data is ordered on, for bins of a number of rows, and for periods of time which all have rows. With the last value (as in a unit test of the repository) it does not: a bin in progress at the end of a run is recorded, and stays in results, twice then, once the bin is complete. 'duplicates_on' can be the column of labels (default), the one results are ordered on, or both: with a column of aggregated values in it, bins in progress are kept as well, and if 'post' drops the column of labels (as in another unit test) results can be recorded once, but the next run raises KeyError. With bins made by a function of the user, whose labels ascend, results are also those of a single aggregation under this condition on the order of the column, the interruptions, calls with new data only and conditions for nothing to be raised being the same. The same holds when each call is given new data only, with the same instance or new ones. Nothing is raised if the column is one of those of results, sizes of row groups are positive, there is no coalescing, no aggregated value is 0 and the memory threshold leaves room for the results and the calls, as for other streams.", "quantifier": "all configurations of keys, post-processings, seed data, sequences of runs and interruptions", "why_tests_cant": "a unit test has one sequence of runs; the one of the repository ends its first run at the limit of a bin, which hides that bins in progress are kept", "anchors": ["oups/aggstream/aggstream.py:_init_keys_config", "oups/aggstream/aggstream.py:_post_n_write_agg_chunks", "oups/store/writer.py:write"]}
