#!/usr/bin/env python3
"""Writes ../properties.jsonl from the table below (one tuple per property)."""
import json, os
P = []
def p(title, statement, quantifier, why, anchors):
    P.append(dict(id="C%02d" % (len(P)+1), title=title, statement=statement,
                  quantifier=quantifier, why_tests_cant=why, anchors=anchors))
S="src/storage/src/"; M="src/metadata/src/"; Q="src/query/src/"; PL="src/platform/src/"; C="src/common/src/"; I="src/ingester/src/"

# ---------------------------------------------------------------- storage
p("Write-ahead log record round trip",
  "A row written to a table's write-ahead log is read back, on reopening, as exactly the same key and values, whatever the column types (including nulls, negative numbers, strings and list values).",
  "every key vector and every value vector over all value variants",
  "the set of value vectors is infinite and nested; a few sample rows do not cover all variants, lengths and sign patterns",
  [S+"db.rs: log_op, recover_op, LogOp", S+"lib.rs: KeyValue, Value"])
p("Reopening replays every complete log record in order",
  "If the log file of a table holds any number of completely written records, reopening the table yields exactly those inserts, in the order they were written, and nothing else.",
  "every finite sequence of inserts",
  "needs induction over logs of unbounded length and over all record contents",
  [S+"db.rs: try_recover_table, log_op, recover_op"])
p("A torn last log record costs at most the unfinished insert",
  "If the process dies while appending a record, leaving any strict prefix of its bytes at the end of the log, the table still opens and shows all earlier inserts; in no case does recovery show an insert that was never written.",
  "every log, every record, every cut position inside the record",
  "every byte position of every record is a crash point",
  [S+"db.rs: try_recover_table"])
p("Columnar memtable is a faithful list of rows",
  "After any sequence of inserts and added columns, the i-th row held in memory has, for every column, the value supplied by the i-th insert, or null if the insert did not supply it or the column was added later.",
  "every sequence of inserts and column additions",
  "columns are stored separately; alignment between them must hold after every history",
  [S+"memtable.rs: Memtable::push_value, Memtable::add_column, Memtable::create_empty", S+"db.rs: insert, add_field"])
p("A reopened table holds the same unflushed rows",
  "Closing and reopening a table reproduces exactly the unflushed rows it held before, including rows written before a column was added.",
  "every history of inserts and column additions followed by a reopen",
  "the interleaving of schema changes and inserts is unbounded",
  [S+"db.rs: try_recover_table, recover_op, add_field"])
p("Flush preserves table contents",
  "For tables with integer or timestamp keys (replacing tables: two 64-bit ones), flushing in-memory rows to a part file succeeds and changes no scan result: the same rows (as a multiset) are returned before and after.",
  "every table state of an append-only table",
  "must hold for every memtable content and every number of already existing parts",
  [S+"db.rs: flush, flush_log_, write_level0, scan", S+"memtable.rs: Memtable::chunk"])
p("Acknowledged inserts survive restarts",
  "For an append-only table with a fixed schema and integer or timestamp keys, after any history of inserts, flushes and restarts between operations, a scan returns exactly the acknowledged rows, each once.",
  "every history of insert / flush / automatic flush / restart operations",
  "unbounded histories; a lost or duplicated row may need a specific sequence of flush and restart",
  [S+"db.rs: insert, flush, flush_log_, try_recover_table, scan"])
p("A crash during a flush neither loses nor duplicates rows",
  "If the process dies at any point inside a flush, the table opens again and a scan returns exactly the acknowledged rows, each once.",
  "every table state and every crash point between two file-system effects of a flush",
  "crash points between file-system effects cannot be scheduled by a unit test",
  [S+"db.rs: flush_log_, write_level0, write_metadata, try_recover_table"])
p("Concurrent inserts and flushes lose no acknowledged row",
  "With any number of threads inserting and flushing the same table, every acknowledged row is returned by a later scan exactly once as long as the process keeps running.",
  "every number of threads and every interleaving of their lock-protected steps",
  "the number of interleavings is unbounded; races show up only under particular schedules",
  [S+"db.rs: insert, flush, flush_log_, scan"])
p("Acknowledged inserts are durable under concurrency",
  "With concurrent inserters and flushes, a row whose insert has been acknowledged is still returned after a process crash and restart.",
  "every interleaving of inserts and flushes and every later crash",
  "requires a specific interleaving followed by a crash",
  [S+"db.rs: insert, flush_log_, try_recover_table"])
p("In-memory lookup returns the last write for a key",
  "A point lookup answered from memory returns the most recently inserted row whose key columns equal the requested key, and nothing if there is none.",
  "every sequence of inserted rows and every key",
  "needs all duplicate patterns of keys",
  [S+"memtable.rs: Memtable::get", S+"db.rs: get"])
p("Point lookup finds every stored key and its newest version",
  "get(key) returns the newest stored row for the key whenever the table contains one, wherever it is stored.",
  "every distribution of rows over memory, levels, parts and row groups",
  "the lookup path depends on ranges of parts that overlap; only particular layouts expose a miss",
  [S+"db.rs: get"])
p("Writing a part sorts but does not change rows",
  "The rows written out of memory for an append-only table are a permutation of the rows in memory and are ordered by the index columns.",
  "every set of rows, any number of index columns",
  "permutation and order must hold for every input, including ties and nulls",
  [S+"memtable.rs: Memtable::chunk"])
p("Replacing tables keep exactly one row per key, the newest",
  "When rows of a replacing table are written out of memory, exactly one row per key is kept, and it is the most recently inserted one.",
  "every sequence of inserts with arbitrary key repetitions and any declared number of index columns",
  "depends on duplicates and on the sort's treatment of ties",
  [S+"memtable.rs: Memtable::chunk"])
p("Scans over many parts merge rows without mixing them",
  "Scanning an append-only table returns every stored row exactly once, ordered by key, and every returned row carries exactly the values that were stored together.",
  "every number of parts, every row contents, every legal tie-breaking of the merge heap; keys of one or two 64-bit integer columns (other key types: see the property on scans that end early)",
  "key columns and payload columns are merged separately through per-part cursors; alignment must hold for all interleavings of parts",
  [S+"parquet/arrow_merger.rs: merge_one_primitive, merge_two_primitives, merge_chunks, MergingIterator::merge_queue, MergingIterator::next"])
p("Scans of replacing tables return whole rows, one per key",
  "Scanning a replacing table returns one row per key, and every returned row is one of the rows that was inserted.",
  "every set of parts with overlapping keys",
  "requires particular overlaps between parts",
  [S+"parquet/arrow_merger.rs: merge_two_primitives, merge_queue", S+"parquet/merge_data_arrays.rs: merge_arrays_inner"])
p("Compaction preserves table contents",
  "Running a compaction changes no scan result of an append-only table.",
  "every level layout and every table option",
  "the selection of parts depends on sizes and ranges over unboundedly many parts",
  [S+"compaction.rs: compact, determine_compaction, Compactor::run"])
p("Part identifiers are never reused",
  "A part file created by a flush or a compaction never has the path of a part file that a live table or scan refers to.",
  "every history of flushes and compactions",
  "collisions appear only after particular sequences",
  [S+"compaction.rs: compact", S+"db.rs: write_level0, flush_log_", S+"table.rs: Level::get_part, part_path"])
p("Files in use are never deleted",
  "A file that is held open by a scan or backup is not removed until every holder has released it, and a file nobody holds is removed on request.",
  "every interleaving of open / release / remove requests on any set of files",
  "reference counts must balance in every history",
  [S+"lib.rs: Fs::open, Fs::close, Fs::is_opened, Fs::try_remove_file, Fs::rename"])
p("Restore of a backup reproduces the database",
  "Restoring the byte stream produced by a backup of a quiescent database yields tables with the same names, schemas, parts and logs.",
  "every set of tables, parts and logs of any size",
  "length-prefixed layout must be inverted for every size and content",
  [S+"db.rs: full_backup, full_restore"])
p("A damaged backup leaves the database unchanged",
  "Restoring from a truncated or foreign byte stream fails and leaves the existing tables as they were.",
  "every invalid byte stream and every database state",
  "every prefix of every backup is an input",
  [S+"db.rs: full_restore, truncate_all"])
p("Table metadata survives serialization",
  "Version, log id, schema, level contents with part ranges and sizes, statistics and options of a table are read back unchanged after being stored.",
  "every table metadata value with scalar column types and a version below 2^32, and every earlier content of the metadata file",
  "signed key ranges and all type tags must round-trip for all values",
  [S+"table.rs: serialize_md, deserialize_md", S+"db.rs: write_metadata, try_recover_table"])
p("Rejected inserts have no effect",
  "An insert naming an unknown column or supplying a value of the wrong type is refused and changes neither the log nor memory; an accepted insert adds exactly one row, padded with nulls.",
  "every schema and every list of named values",
  "all subsets and orders of columns",
  [S+"db.rs: insert"])
p("Optimistic replace detects concurrent change",
  "After reading a row's version with get_cas, replace succeeds only when it supplies that same version; a row changed in between is not overwritten.",
  "every sequence of get_cas / replace / insert calls on any keys",
  "depends on histories across several keys and cache evictions",
  [S+"db.rs: get_cas, replace"])

# ---------------------------------------------------------------- metadata
p("Sequence numbers are unique and increasing",
  "Identifiers handed out by a sequence are consecutive, never repeat, and sequences of different namespaces do not influence each other.",
  "every history of allocations on any set of sequences",
  "uniqueness over unbounded histories",
  [M+"index.rs: next_seq, next_zero_seq"])
p("Sequence numbers are unique under concurrency",
  "Two requests served at the same time never obtain the same identifier from a sequence.",
  "every interleaving of two transactions",
  "needs a specific interleaving of reads and commits",
  [M+"index.rs: next_seq", M+"rocksdb.rs"])
p("Dictionary encoding is a stable bijection",
  "Encoding a string value returns the same number every time, different strings get different numbers, and decoding the number returns the string, forever after.",
  "every history of encode and decode calls over any projects, tables and columns",
  "bijection over unbounded histories and arbitrary strings",
  [M+"dictionaries.rs: get_key_or_create, get_value, get_key"])
p("Dictionaries of different projects, tables and columns are independent",
  "Encoding values for one project, table or column never changes what another project, table or column encodes or decodes.",
  "every history and every pair of distinct dictionaries",
  "needs injectivity of the key layout for all identifiers and names",
  [M+"dictionaries.rs: make_main_key, make_value_key, make_key_key, tbl_dict", M+"lib.rs: project_ns"])
p("Storage keys of different projects and entity kinds never collide",
  "No two entities of different projects, kinds or ids are stored under the same key, and listing one project's entities never touches another's.",
  "every pair of project ids, namespaces and entity ids",
  "string concatenation with separators must be injective for all numbers",
  [M+"lib.rs: project_ns, org_ns, make_data_value_key, make_data_key, make_index_key, make_id_seq_key, list_data"])
p("Unique names stay unique and lookups by name stay consistent",
  "Within a project no two events, and no two properties of one kind, share a name; looking an event or property up by its name returns the one that currently has it, and a freed name can be taken again.",
  "every history of create, rename and delete",
  "unbounded histories of renames and deletes",
  [M+"index.rs: check_insert_constraints, insert_index, check_update_constraints, update_index, delete_index, get_index", M+"events.rs: create_, update, delete, get_by_name"])
p("Event name dictionary follows renames",
  "The name shown for an event id in query results is the event's current name.",
  "every history of create and rename",
  "requires a rename followed by decoding",
  [M+"events.rs: create_, update"])
p("Custom events are never cyclic and nest at most three levels",
  "Creating or updating a custom event can never produce a cycle of custom events or a nesting deeper than the limit.",
  "every history of custom event creations and updates",
  "cycles and depth depend on the whole reference graph",
  [M+"custom_events.rs: validate_events, create, update, delete"])
p("A group value keeps one identifier",
  "Tracking the same user or group value again yields the same identifier, and different values of a group get different identifiers.",
  "every history of track and identify calls",
  "unbounded histories, interleaved groups",
  [M+"groups.rs: get_or_create, create_or_update, get_or_create_anonymous_id, merge_with_anonymous"])
p("At most GROUPS_COUNT group types exist per project",
  "A project never has more than the fixed number of group types, each name has one id below the limit, and asking for one more is refused without side effects.",
  "every history of group creations",
  "limit must hold after every history",
  [M+"groups.rs: get_or_create_group"])
p("Accounts and organizations agree on membership",
  "An account lists an organization with a role exactly when the organization lists the account as member with that role.",
  "every history of organization and membership operations",
  "the relation is stored twice and updated in separate places",
  [M+"organizations.rs: create, add_member, remove_member, change_member_role, delete", M+"accounts.rs: add_organization_, remove_organization_, change_organization_role_, delete"])
p("E-mail addresses identify accounts uniquely",
  "No two accounts share an e-mail address and lookup by e-mail returns the account that has it.",
  "every history of account creation, update and deletion",
  "unbounded histories",
  [M+"accounts.rs: create, update, delete, get_by_email"])
p("Only the project token gives ingest access",
  "A string accepted as ingest token for a project is that project's current token.",
  "every history of project creation, rename and deletion and every string",
  "the token index must not contain anything else after any history",
  [M+"projects.rs: create, update, delete, get_by_token, index_keys"])
p("A session is open exactly between its first event and its expiry",
  "Tracking an event reports a new session exactly when the user has no open session; expiry closes exactly the sessions older than the project's limit and no others.",
  "every history of tracks and clean-ups for any users and projects",
  "unbounded interleavings of users",
  [M+"sessions.rs: set_current_time, check_for_deletion, clear_project, get_by_user_id"])
p("Listing returns every entity of its namespace",
  "Listing the teams (or other entities) of an organization or project returns all of them and no others.",
  "every stored set of entities",
  "completeness over arbitrarily many entities",
  [M+"teams.rs: list", M+"lib.rs: list_data, list"])
p("Property columns are distinct",
  "Two different properties of a project never share a storage column.",
  "every history of property creations over all types and names",
  "column names are derived from per-type counters and from normalised names",
  [M+"properties.rs: create_, column_name", M+"index.rs: next_zero_seq"])

# ---------------------------------------------------------------- access control
p("Access is denied unless a role grants it",
  "A caller without global administrator role, without role in the organization and without role in the project is refused every operation; each higher role includes all permissions of the lower ones.",
  "every role assignment and every permission",
  "all combinations of the three role levels",
  [PL+"context.rs: check_permission, check_organization_permission, check_project_permission", C+"rbac.rs"])
p("Members of one organization cannot touch another organization's projects",
  "A caller can read, change or delete a project only through a role in the organization that owns the project or in the project itself.",
  "every caller, every project, every role assignment",
  "cross-tenant combinations are not enumerated by tests",
  [PL+"projects.rs: get_by_id, update, delete", PL+"context.rs: check_project_permission"])
p("Project listing shows only the caller's organization",
  "Listing projects returns exactly the projects owned by the organization the caller is acting in.",
  "every set of projects and callers",
  "filter must be exact for every set",
  [PL+"projects.rs: list"])

# ---------------------------------------------------------------- query
p("Truncating a time yields the start of its interval",
  "The bucket start of a timestamp is not later than the timestamp, truncating again changes nothing, two timestamps of the same hour/day/week/month/year get the same bucket, and later timestamps never get earlier buckets.",
  "every timestamp (including before 1970) and every interval unit",
  "calendar arithmetic over all dates, leap years and negative timestamps",
  [C+"query.rs: date_trunc"])
p("Time columns cover the requested range",
  "Every event time between from and to falls into exactly one of the time columns produced for the report, and the columns are in increasing order.",
  "every range and interval unit",
  "month and year lengths vary",
  [C+"query.rs: time_columns, date_trunc"])
p("Funnel report has a bucket for every event time",
  "Every funnel whose first step lies in the requested range is counted in the bucket of its interval.",
  "every range, every time in it and every interval unit",
  "buckets are generated by fixed-length steps over calendar units",
  [Q+"physical_plan/expressions/aggregate/partitioned/funnel/funnel.rs: try_new, push_result", C+"query.rs: TimeIntervalUnit::duration"])
p("Funnel step counts never increase",
  "In every funnel report, step k+1 counts at most as many as step k, and drop-off at a step equals the difference between consecutive steps.",
  "every event stream, every batch split and every funnel definition",
  "must hold after arbitrary event sequences",
  [Q+"physical_plan/expressions/aggregate/partitioned/funnel/funnel.rs: evaluate, push_result, finalize"])
p("Funnel results do not depend on batch boundaries",
  "Splitting the same ordered event stream into different record batches gives the same funnel report.",
  "every event stream and every way to split it",
  "all split positions",
  [Q+"physical_plan/expressions/aggregate/partitioned/funnel/funnel.rs: evaluate"])
p("Funnel counts what the definition says",
  "For a funnel with ordered steps and a time window, each user's events are matched greedily in time order; an attempt is counted up to the last step reached within the window, independently of other users' events.",
  "every stream of users' events, every number of steps and every window",
  "a state machine over unbounded streams",
  [Q+"physical_plan/expressions/aggregate/partitioned/funnel/funnel.rs: evaluate, push_result"])
p("Unique funnels count each user once",
  "With unique counting, no user contributes more than one to any step of a funnel report.",
  "every stream of events",
  "needs particular sequences (failed first attempts, batch boundaries)",
  [Q+"physical_plan/expressions/aggregate/partitioned/funnel/funnel.rs: evaluate"])
p("Excluded events invalidate a funnel attempt",
  "An event listed as excluded between given steps prevents the attempt in progress from being counted as converted.",
  "every stream and every exclusion definition",
  "depends on positions of excluded events",
  [Q+"physical_plan/expressions/aggregate/partitioned/funnel/funnel.rs: check_exclude, evaluate"])
p("Event counts equal the number of matching rows",
  "An event count report counts, for each group, exactly the rows that satisfy the filter and have the event column set, whatever the batch split.",
  "every row stream, grouping and batch split",
  "all streams and splits",
  [Q+"physical_plan/expressions/aggregate/count.rs: evaluate, finalize, merge"])
p("Unique counts equal the number of distinct users with a matching event",
  "A unique-users report counts, for each group, the number of distinct users having at least one matching row.",
  "every row stream ordered by user, every grouping and filter",
  "needs particular placements of non-matching rows",
  [Q+"physical_plan/expressions/aggregate/partitioned/count.rs: evaluate, finalize"])
p("Sums, minima, maxima and averages are those of the rows",
  "Aggregating a property returns the sum, minimum, maximum, count and average of the non-null values of the matching rows, independent of batch boundaries.",
  "every list of values and every split",
  "all lists, including empty and null-only ones",
  [Q+"physical_plan/expressions/aggregate/mod.rs", Q+"physical_plan/expressions/segmentation/aggregate.rs: AggregateFunction"])
p("A report with several metrics equals the single-metric reports",
  "Requesting several metrics of one event in one report gives for each metric the same numbers as requesting it alone, and the degree of parallelism does not matter.",
  "every set of metrics, every distribution of users over worker partitions",
  "combination of partial results depends on the number of partitions and metrics",
  [Q+"physical_plan/segmented_aggregate.rs: combine_results, PartialAggregateStream, FinalAggregateStream", Q+"physical_plan/funnel.rs: FinalFunnelStream, aggregate"])
p("A behavioural segment contains exactly the users meeting the condition",
  "The segment 'did event E with count op n in period T' contains a user exactly when the user's number of matching events in T satisfies the comparison.",
  "every event stream ordered by user, operator, threshold and period",
  "includes users without any matching event",
  [Q+"physical_plan/expressions/segmentation/count.rs: evaluate, finalize", Q+"physical_plan/expressions/segmentation/time_range.rs: check_bounds"])
p("Combined segment conditions are intersections and unions",
  "A segment requiring two conditions contains exactly the users in both, and one offering alternatives the users in either.",
  "every pair of condition results",
  "depends on the alignment of result lists of different lengths",
  [Q+"physical_plan/expressions/segmentation/comparison.rs: And, Or"])
p("Property filters mean what they say",
  "A filter 'property equals one of the values' selects rows having one of them, and 'not equal to any of the values' selects rows having none of them.",
  "every operator, every list of values, every row",
  "lists with several values are needed",
  [Q+"expr.rs: named_property_expression, property_expression"])
p("Custom events match exactly their definition",
  "A query on a custom event selects exactly the rows matched by one of its member events together with that member's filters, through all nesting levels; an event id selects only that event.",
  "every acyclic set of definitions and every row",
  "nested definitions and large identifiers",
  [Q+"expr.rs: event_expression"])
p("Group limit keeps the first rows of every group value",
  "Limiting a report to n rows per breakdown value never returns more than n rows for a value and never drops a row of a value that has fewer.",
  "every table, any number of breakdown columns, every limit",
  "several breakdown columns interact",
  [Q+"physical_plan/limit_groups.rs"])
p("Turning columns into rows and back loses nothing",
  "Unpivoting metric columns yields one row per original row and metric, in order, with the group values repeated; pivoting by time puts each value into the cell of its group and time.",
  "every table and every set of metric columns",
  "all shapes and orders",
  [Q+"physical_plan/unpivot.rs: unpivot", Q+"physical_plan/pivot.rs: pivot_batch, finish"])
p("Combined event reports keep every row under its event name",
  "Merging the reports of several events returns every row of every input under the name of the event it came from, with nulls for columns the event lacks.",
  "every list of inputs with any schemas and batches",
  "unbounded inputs",
  [Q+"physical_plan/merge.rs: MergeStream"])
p("Scan projection returns the requested columns",
  "Reading a set of columns from storage returns for each requested column the values of that column, whatever the order or repetition of the request.",
  "every projection list",
  "all orders and repetitions of columns",
  [Q+"physical_plan/db_parquet.rs", S+"db.rs: scan", S+"memtable.rs: Memtable::chunk", Q+"event_segmentation.rs: projection"])

# ---------------------------------------------------------------- ingest
p("Numeric property values are stored exactly",
  "A number sent as a property value is the number shown in reports.",
  "every decimal number the API accepts",
  "numbers with different scales",
  [I+"lib.rs: property_to_value", C+"lib.rs: DECIMAL_SCALE"])
p("Tracking an event stores it once with its own time",
  "Every accepted track call adds exactly one row for the event with the event's timestamp (plus, when a session starts, one session-begin row with the same timestamp) and counts one event.",
  "every track call and every session state",
  "depends on session state and units",
  [I+"destinations/local/track.rs: send", I+"executor.rs: Executor<Track>::execute", M+"projects.rs: increment_events_counter"])
p("Linking an anonymous visitor to a user unifies their events",
  "A track call carrying both a user id and an anonymous id assigns the event, and later events of either id, to the same user.",
  "every history of track calls with user and anonymous ids",
  "depends on the order of identification",
  [I+"executor.rs: Executor<Track>::execute", M+"groups.rs: merge_with_anonymous, get_or_create, get_or_create_anonymous_id"])
p("String properties of groups decode to what was sent",
  "A string property set with identify is shown in reports as the same string for every group type.",
  "every group type, property and string",
  "needs a group other than the user group",
  [I+"executor.rs: Executor<Identify>::execute", I+"lib.rs: property_to_value", Q+"lib.rs: decode_filter_single_dictionary"])
# ---------------------------------------------------------------- added while modelling
p("Every accepted key type can be flushed",
  "A table accepts inserts only if it can later write them to disk: whatever the type and number of its key columns, a flush of acknowledged rows succeeds and they stay visible.",
  "every choice of key columns and mode, every history",
  "flushes with unusual key types are never tried",
  [S+"db.rs: write_level0, flush_log_", S+"parquet/mod.rs: chunk_min_max", S+"memtable.rs: Memtable::chunk"])
p("Replaced part files are deleted once unused",
  "A part file that a compaction has replaced is deleted as soon as no scan or backup uses it, at the latest by the next garbage collection.",
  "every history of flushes, compactions, scans (also abandoned ones) and garbage collections",
  "counter leaks show only in long histories",
  [S+"lib.rs: Fs", S+"compaction.rs: compact, Compactor::run", S+"parquet/parquet_merger.rs: Merger::merge", S+"db.rs: ScanStream, gc"])
p("A failed restore can be retried",
  "After a restore that failed, restoring a correct backup succeeds.",
  "every failing byte stream and every correct backup",
  "depends on what the failed attempt left on disk",
  [S+"db.rs: full_restore, truncate_all"])
p("Garbage collection never deletes the output of a running compaction",
  "A part file being written by a compaction is not deleted before the compaction publishes it, also after the database has been restored from a backup.",
  "every interleaving of compaction and garbage collection, with and without an earlier restore",
  "depends on thread schedules",
  [S+"db.rs: gc, recover, full_restore", S+"lib.rs: Fs"])
p("A scan returns all rows or reports an error",
  "If a scan cannot deliver all stored rows, its consumer receives an error; it never sees a regular end of data with rows missing.",
  "every key type and number of key columns, every set of parts",
  "unmergeable key types and read errors are not exercised",
  [S+"parquet/arrow_merger.rs: merge_chunks, MergingIterator::next"])
p("Scans do not crash",
  "No scan of rows that were inserted through the API panics.",
  "every set of parts, both table modes, every configured slice size",
  "depends on the number of superseded rows relative to the slice size",
  [S+"parquet/arrow_merger.rs: MergingIterator::merge_queue"])
p("Scanning fewer columns returns the same rows",
  "Scanning any subset of the columns returns the rows of the full scan restricted to these columns.",
  "every subset of columns, every reachable table",
  "projections without the key columns are never tried",
  [S+"db.rs: scan", S+"memtable.rs: Memtable::chunk", S+"parquet/arrow_merger.rs: ArrowChunk::new"])
p("Property values of every kind the API accepts are stored as sent",
  "A string, boolean or date sent as a property value of an event is the value shown for that event.",
  "every value of every kind, every property type",
  "dates and mixed types are not exercised",
  [I+"lib.rs: property_to_value", I+"executor.rs: resolve_property"])
p("A rejected track call leaves no trace",
  "A track call that is answered with an error adds no event and changes nothing that later calls or reports see.",
  "every rejected call, whatever stage rejects it",
  "every failing stage after every history",
  [I+"executor.rs: Executor<Track>::execute", I+"destinations/local/track.rs: send"])
p("Counts per user are aggregated over users",
  "A report of the sum, minimum, maximum or average number of events per user returns that aggregate of the users' numbers of matching events, over the users who have at least one.",
  "every row stream ordered by user, every grouping and batch split",
  "users spread over batches in every way",
  [Q+"physical_plan/expressions/aggregate/partitioned/count.rs: evaluate, finalize"])
p("A property aggregated per user ignores events that lack the property",
  "Aggregating a numeric property per user and then over users uses exactly the values present, user by user.",
  "every row stream ordered by user, every pair of functions, every pattern of missing values",
  "missing values in every position",
  [Q+"physical_plan/expressions/aggregate/partitioned/aggregate.rs: evaluate, finalize"])
p("Per-user reports are answered when some events have no user",
  "A report counting or aggregating per group is answered, and leaves out the events that do not belong to any group.",
  "every row stream, every placement of rows without the group",
  "tests always fill the group column",
  [Q+"physical_plan/expressions/aggregate/partitioned/count.rs: evaluate", Q+"physical_plan/expressions/aggregate/partitioned/aggregate.rs: evaluate"])
p("A report restricted to segments is answered for exactly these segments",
  "An event report that names segments is answered, with one set of numbers per requested segment.",
  "every list of segments and conditions the API accepts",
  "no test plans a report with segments end to end",
  [Q+"event_segmentation.rs: LogicalPlanBuilder::build, build_segment_condition", Q+"logical_plan/segment.rs: From<&SegmentTime> for TimeRange", Q+"physical_plan/planner/mod.rs: ExtensionPlanner::plan_extension"])
p("A segment on an aggregated property contains exactly the users meeting it",
  "The segment 'the sum (minimum, maximum, average, count) of P over event E in period T compares to v' contains a user exactly when the user did E in T and the aggregate of their values satisfies the comparison.",
  "every event stream ordered by user, every function, operator, bound and period",
  "depends on which user's row comes first",
  [Q+"physical_plan/expressions/segmentation/aggregate.rs: evaluate, finalize"])
p("Filtering for a text nobody has sent is answered",
  "A report whose filter names a text that no event has had for the property yet is answered, with that filter selecting nothing (or, negated, everything).",
  "every text property, every list of filter values, every report",
  "tests filter by values they have just stored",
  [Q+"expr.rs: encode_property_dict_values, prop_expression"])
p("Order comparisons of text properties follow the texts",
  "A filter 'less than' or 'greater than' on a text property selects the rows whose text is before or after the given one.",
  "every set of texts, every order in which they were first seen",
  "depends on the order in which texts were first seen",
  [Q+"expr.rs: encode_property_dict_values, named_property_expression"])
p("Events carry what is known about their user",
  "An event of a user who has been identified is stored together with the user's properties as of that moment.",
  "every history of calls, every accepted track call naming an identified user",
  "depends on the history of identify calls and on the optional parts of the track call",
  [I+"executor.rs: track", I+"destinations/local/track.rs: send"])
p("Later identifications have larger versions",
  "Of two rows stored for one group type of one project, the one stored later has the larger version, whatever calls happened in between.",
  "every history of track and identify calls, accepted or rejected",
  "all histories",
  [I+"executor.rs: identify", M+"groups.rs: next_record_sequence"])
p("Columns can be added while rows are inserted",
  "Adding a column at any moment leaves the table readable: later scans return every acknowledged row, with null in the new column for rows whose insert did not name it.",
  "every interleaving of inserts, flushes, scans and column additions by any number of threads",
  "needs the addition to fall between two lock-protected steps of an insert",
  [S+"db.rs: insert, add_field, scan, flush"])
p("A crash during a compaction loses and duplicates nothing",
 "If the process dies at any point of a compaction of an append-only table, the reopened table returns exactly the acknowledged rows.",
 "every history, every crash point of a pass, whatever the half-written output files contain",
 "crash points lie between any two file operations of a pass over unboundedly many parts",
 [S+"compaction.rs: Compactor::run, compact", S+"db.rs: recover"])
p("A compaction pass always completes",
 "A compaction pass of a reachable append-only table completes and publishes its result, for every configured number of levels.",
 "every history, every level layout and every table option",
 "a failure needs particular combinations of sizes, ranges and levels",
 [S+"compaction.rs: compact, determine_compaction, Compactor::run"])
p("Report rows carry their average and come largest first",
  "Every row of a report carries the average of its values over the time columns, counting an empty cell as zero; the rows come in order of decreasing average and none is lost or repeated.",
  "every table, every number of rows and time columns, every sort that orders correctly",
  "all tables",
  [Q+"physical_plan/aggregate_and_sort_columns.rs: AggregateAndSortColumnsStream"])
p("The compact format answers the same reports",
  "An event report asked for in the compact format is answered with every group and time of the regular report.",
  "every metric, every number of breakdowns, every length of period",
  "tests use the regular format",
  [Q+"event_segmentation.rs: build_event_logical_plan", Q+"physical_plan/aggregate_and_sort_columns.rs"])
p("Event search returns the newest matching events",
  "Searching events returns the requested properties of the events of the project that lie in the time range, are one of the requested events with its filters met, and meet the filters of the request: at most 100, the newest, newest first.",
  "every table contents, every request with any number of events, filters and properties",
  "the combination of events, filters and requested properties is unbounded, and every stored row is a possible wrong match",
  [Q+"event_records.rs: EventRecordsProvider::search, LogicalPlanBuilder::build, fix_search_request, projection", PL+"event_records.rs"])
p("Group search returns the matching groups",
  "Searching groups returns the requested properties of the groups of the project that were created in the time range and meet all filters.",
  "every table contents, every time range, filter list and property list",
  "the effect of one part of the request on another shows only in combinations",
  [Q+"group_records.rs: GroupRecordsProvider::search, LogicalPlanBuilder::build, fix_search_request"])
p("A search without a property list returns every property under its own name",
  "Searching without saying which properties returns a column for every property of the project, labelled with that property.",
  "every set of properties of the project and of other projects, every order of their creation",
  "depends on the properties of all projects and on the order in which they were created",
  [Q+"event_records.rs: EventRecordsProvider::search, LogicalPlanBuilder::build"])
p("A record looked up by its number shows what was stored",
  "Looking up an event or group by its number returns the record's properties with the values it has, no values for properties it does not have, and an error if there is no such record.",
  "every table, every record, every set of properties present on it",
  "every pattern of absent properties",
  [Q+"event_records.rs: EventRecordsProvider::get_by_id", Q+"group_records.rs: GroupRecordsProvider::get_by_id"])
p("Filter groups of a request apply as given",
  "A request with groups of filters considers exactly the rows allowed by the groups combined as the request says.",
  "every list of groups, every combination of and/or inside and between them",
  "unboundedly many nestings of conditions",
  [PL+"event_segmentation.rs: filters", PL+"funnel.rs: filters", PL+"event_records.rs", PL+"group_records.rs", PL+"lib.rs: EventGroupedFilters"])
p("The values listed for a property are those the events have",
  "Listing the values of a property, for the project or for one event, returns each value that occurs on these events and passes the filter, once, in order, up to 1000.",
  "every table, every property, event and filter",
  "every set of values and every filter",
  [Q+"properties.rs: PropertiesProvider::values, LogicalPlanBuilder::build", Q+"expr.rs: property_expression"])
p("Funnel counts do not depend on how users are spread over workers",
  "The number of attempts reaching each step, the drop-offs and the total times of a funnel line are those of all users, whichever worker handles which user.",
  "every assignment of users to any number of workers, every split into batches",
  "the assignment depends on a hash and on the number of workers",
  [Q+"physical_plan/funnel.rs: FunnelPartialExec, FunnelFinalExec, aggregate"])
p("Conversion and drop-off ratios are shares of the users who entered",
  "The conversion ratio of a funnel step is 100 times the attempts that reached it divided by the attempts that entered, and the drop-off ratio is the rest to 100.",
  "every assignment of users to workers, every number of steps",
  "wrong only for uneven distributions of conversions over workers",
  [Q+"physical_plan/funnel.rs: aggregate, FinalFunnelStream::poll_next", Q+"physical_plan/expressions/aggregate/partitioned/funnel/funnel.rs: finalize"])
p("Average times to convert are averages",
  "The average time to convert of a funnel step is the total time to convert divided by the attempts that reached the step.",
  "every row stream",
  "needs the relation between several columns of every report",
  [Q+"physical_plan/expressions/aggregate/partitioned/funnel/funnel.rs: finalize"])
p("A funnel counts the events of the project only",
  "A funnel requested for a project counts only events stored for that project.",
  "every table holding events of several projects",
  "tests store one project",
  [Q+"funnel.rs: FunnelProvider::funnel, build"])
p("A funnel window is as long as its unit says",
  "A funnel window given in hours, days, weeks, months or years has that length, and a session window covers the session.",
  "every unit and number",
  "every number of units",
  ["src/common/src/funnel.rs: TimeIntervalUnitSession::duration", PL+"funnel.rs: validate_request"])
p("Merging part files page by page keeps every row whole",
  "Merging the part files of an append-only table, however they are cut into row groups and pages, succeeds, writes exactly the rows of the inputs, each with its own values and nulls for columns it lacked, sorted by key from the first file to the last, and records key ranges that bound the rows of each file.",
  "every set of sorted files with integer or timestamp keys (one to three columns), every cut into row groups and pages, every size limit, every choice among equal keys",
  "depends on how pages of several files overlap; keys and data columns are merged by different code in several batches",
  [S+"parquet/parquet_merger.rs: merge, next_index_chunk, merge_queue, merge_chunks, check_intersection", S+"parquet/merge_data_arrays.rs: merge_data_arrays", S+"parquet/mod.rs: CompressedPageIterator, ParquetStreamReader"])
p("Merging part files of a replacing table keeps each record",
  "After part files of a replacing table are merged every record that was in one of them is still there once, with its own values, and the file is sorted by key.",
  "every set of part files of a table keyed by two columns",
  "needs records of one project in overlapping parts of different flushes",
  [S+"parquet/parquet_merger.rs: merge_two_primitives, check_intersection", S+"parquet/merge_data_arrays.rs: merge_data_arrays", "src/cmd/src/lib.rs: init_system"])
p("Server settings are kept as given",
  "Settings that are saved are read back as they were saved, and settings that would make backups unusable (encryption without password, a cloud destination without bucket or keys) are refused and leave the stored ones in place.",
  "every value of every setting",
  "every combination of values, over a hand-written encoding of nineteen fields",
  ["src/metadata/src/settings.rs: Settings::save, load, serialize, deserialize, validate"])
p("A change of settings changes what it names and nothing else",
  "A settings request that is accepted gives each setting it names the value it names and leaves the others; a refused one changes nothing.",
  "every stored settings, every request naming any subset of the settings",
  "needs every subset of fields",
  ["src/platform/src/settings.rs: Settings::get, set", "src/cmd/src/lib.rs: init_settings"])
p("A completed backup is stored",
  "A backup shown as completed has its complete archive at its destination.",
  "every history of scheduler rounds, crashes at any point of a round, restarts, requests and settings, every outcome of the storage engine and of moving or uploading the archive",
  "crash points, failures and the order of backups",
  ["src/cmd/src/backup.rs: init, run_backup, backup_to_tmp, backup_local, backup_gcp", "src/metadata/src/backups.rs: create, update_status, Backup::path"])
p("A scheduled time starts exactly one backup",
  "In a scheduled minute the scheduler starts one backup, and only one; at other times none.",
  "every history with a clock that does not go back, every schedule, every number of earlier backups",
  "needs the scheduler to run over many days; the number of backups matters",
  ["src/cmd/src/backup.rs: init, truncate_to_minute, create_backup", "src/metadata/src/backups.rs: list"])
p("No backup stays unfinished",
  "At most one backup waits; the next round of the scheduler finishes it; after a restart no backup is shown as running; finished backups keep their records.",
  "every history of scheduler rounds, crashes at any point, restarts, requests and settings",
  "crash points in the middle of a backup",
  ["src/cmd/src/backup.rs: init, run_backup", "src/metadata/src/backups.rs: create, update_status"])
p("A token means that somebody gave the password",
  "Every token the server hands out is for an account that was signed up, or opened with its e-mail address and password, before; a request is let in only with an access token handed out under the current key not longer ago than its lifetime (and a minute), for an account that exists, with the roles the account has at that moment.",
  "every history of sign-ups, log-ins, refreshes, changes of name, e-mail, password and organization, administration of accounts, changes of membership and of keys",
  "ranges over histories in which tokens are derived from tokens",
  [PL+"auth/provider.rs: sign_up, log_in, refresh_token, make_token_pair", PL+"auth/token.rs: parse_access_token, parse_refresh_token", PL+"context.rs: from_request_parts"])
p("Rights that are taken away are gone",
  "When an account is deleted no token lets anybody in for it any more, in any later history; when it leaves an organization its tokens lose that organization at once; when its role is changed it has the new role; only administrators make administrators.",
  "every history after the deletion, removal or change, every token ever handed out",
  "ranges over everything that may happen afterwards, including new accounts",
  [PL+"accounts.rs: create, update, delete", M+"accounts.rs: create, update, delete", PL+"context.rs: from_request_parts, check_permission"])
p("A session can be renewed",
  "A client that holds a refresh token which has not expired gets a new pair of tokens for its account and its organization.",
  "every history, every pair of tokens, every moment",
  "needs tokens that expire at different times and belong to different accounts",
  [PL+"auth/provider.rs: refresh_token", PL+"http/auth.rs: refresh_token"])
p("Changing a password locks others out",
  "After a password is changed only the new one opens the account, and whoever was in without knowing it is out; a password changes only at its owner's request with the old password, when its owner was told to set one, or by an administrator; an administrator can order a user to set a new one.",
  "every history, every account, every call",
  "ranges over every call that may write an account and every token handed out",
  [PL+"auth/provider.rs: update_password, set_password", PL+"accounts.rs: update", M+"accounts.rs: update"])
p("The right password opens the account and a wrong one does not",
  "A log-in is let in exactly if an account has the e-mail address and the password given; no two accounts share an address; a sign-up with a password that was mistyped when repeated is refused.",
  "every history, every address, password and remembered organization",
  "needs every combination of addresses, changes of address and organizations that come and go",
  [PL+"auth/provider.rs: sign_up, log_in", PL+"http/auth.rs: log_in", M+"accounts.rs: get_by_email, create, update"])
p("The server can be started again",
  "Whatever has been done through the API, the server can be stopped and started again.",
  "every history of metadata calls after the first start, every number of starts",
  "tests start a server once, on an empty store",
  ["src/cmd/src/command/server.rs: start", M+"accounts.rs: create, delete", M+"organizations.rs: create"])
p("Metadata reads back what was written",
  "An account, organization, team, project, session, dashboard, event, property, group, backup record or set of group values that was stored is read back with the same content by every later call.",
  "every record the program can hold, every value of every field",
  "tests compare a few records made with round numbers; the exact set of records that survive is a statement about all of them",
  [M+"accounts.rs: serialize, deserialize", M+"organizations.rs: serialize, deserialize", M+"teams.rs: serialize, deserialize", M+"projects.rs: serialize, deserialize", M+"sessions.rs: serialize, deserialize", M+"dashboards.rs: serialize, deserialize", M+"events.rs: serialize, deserialize, try_attach_properties", M+"properties.rs: serialize, deserialize", M+"groups.rs: serialize_group_values, deserialize_group_values", M+"backups.rs: serialize, deserialize"])
p("Saved reports and bookmarks hold the query that was saved",
  "The query of a report or bookmark that is opened is, part by part, the query that was saved.",
  "every query of either kind with any steps, filters, values, breakdowns, segments and times",
  "the encoding is nested; every combination of optional parts matters",
  [M+"reports.rs: serialize_report, deserialize_report", M+"bookmarks.rs: serialize, deserialize", "src/common/src/query.rs", "src/common/src/event_segmentation.rs", "src/common/src/funnel.rs"])
p("The filters of a custom event are kept",
  "A custom event that was saved is evaluated later with the same events and the same filters, operators and values.",
  "every custom event, every filter value of every type",
  "depends on the value: numbers without decimals, with decimals, absent values",
  [M+"custom_events.rs: serialize, deserialize", PL+"lib.rs: json_value_to_scalar", "src/common/src/types.rs: DECIMAL_PRECISION, DECIMAL_SCALE"])
p("Dashboards and saved reports are kept as last changed until deleted",
  "A dashboard or report that is created gets a number never used before in its project, is read back as the request says until it is changed or deleted, is changed only in the fields a request names, is listed exactly once while it exists and in order of creation, and no call about something else touches it; a deleted report is shown by no dashboard.",
  "every history of calls on dashboards, reports and bookmarks of any projects, every request",
  "needs every interleaving of creations, changes and deletions in many projects",
  [M+"dashboards.rs: create, get_by_id, list, update, delete", M+"reports.rs: create, get_by_id, list, update, delete", PL+"dashboards.rs", PL+"reports.rs"])
p("A bookmark opens the query it was made of",
  "A bookmark that was made is opened by its maker with the query it was made of, for ever, and by nobody else.",
  "every history of calls, every account, project, query and drawn text",
  "the text is drawn at random; what happens when it is drawn twice is not seen in a test",
  [M+"bookmarks.rs: create, get_by_id, delete", PL+"bookmarks.rs: create, get"])
p("Whoever has a role can open what it is a role in",
  "An account with a role in an organization can read it, switch to it and list its projects; an account with a role in a project can read the project.",
  "every account with any roles in any organizations and projects",
  "needs every combination of roles; the tests act as administrators of the server",
  ["src/common/src/rbac.rs: ORGANIZATION_PERMISSIONS, PROJECT_PERMISSIONS", PL+"context.rs: check_organization_permission, check_project_permission", PL+"organizations.rs: get_by_id", PL+"auth/provider.rs: switch_organization", PL+"projects.rs: get_by_id, list"])
p("A saved report is given back as it was written",
  "After a report was saved, reading it, now or later, gives the request it was saved with: the same events, filters, groups of filters, exclusions, steps and values.",
  "every report request of both kinds, every history of saves, reads and deletions",
  "the two conversions must undo each other on every request, with lists nested in lists; and over any number of saves",
  [PL+"reports.rs: create, get_by_id", PL+"event_segmentation.rs: From conversions", PL+"funnel.rs: From conversions", PL+"lib.rs: json_value_to_scalar, scalar_to_json_value", M+"reports.rs: create, get_by_id"])
p("A request that passes the checks does not stop the worker",
  "A report request is either refused with an error or turned into a query; no request that passes the checks makes the server panic.",
  "every request of both kinds and every set of known events and properties",
  "needs every combination of nested optional parts, values and groups",
  [PL+"event_segmentation.rs: validate_request, From conversions", PL+"funnel.rs: validate_request, From conversions", PL+"lib.rs: validate_event_property, validate_filter_property, json_value_to_scalar"])
p("The query that runs is the one asked for",
  "The query made of a report request names the same events, filters, operations, values, steps, exclusions and breakdowns, and applies all the groups of filters that were given.",
  "every report request of both kinds",
  "needs every shape of request",
  [PL+"event_segmentation.rs: From conversions", PL+"funnel.rs: From conversions"])
p("A filter is accepted when its operation and values suit the property",
  "A filter on an existing property is accepted exactly when the operation suits the type of the property and the values suit both; ordered operations suit all numbers and operations without operand need no value.",
  "every filter and every set of known properties",
  "needs every operation with every type and every kind of value",
  [PL+"lib.rs: validate_filter_property, validate_event_property, validate_event_filter", PL+"funnel.rs: validate_request"])
p("One bad call does not stop the calls of the others",
  "After a track or identify call that fails in any way, the calls of other clients are answered as if the bad one had never been made.",
  "every history of track and identify calls, metadata changes and restarts",
  "depends on what a panic leaves behind; the tests drive the executor directly, one call each",
  [I+"sources/http/mod.rs: App, track, identify, attach_routes", I+"executor.rs: execute", I+"destinations/local/track.rs: send"])
p("A project goes on accepting new users",
  "Whatever calls were accepted before, a call in order for a user or visitor not seen yet is accepted.",
  "every history of calls, metadata changes and restarts",
  "needs the whole history: an accepted call may spoil a counter that only a later new user reads",
  [I+"executor.rs: execute", M+"groups.rs: merge_with_anonymous, get_or_create", M+"index.rs: next_seq"])
p("A call in order is accepted",
  "A track call with a valid token, one id, and values that suit the properties they name is accepted and stored, whatever was stored before.",
  "every history of metadata calls and every stored state, every call in order, at every moment",
  "acceptance goes through a dozen reads of shared state, each of which may fail in some history",
  [I+"executor.rs: execute, resolve_properties", I+"destinations/local/track.rs: send", M+"properties.rs: get_or_create", M+"events.rs: get_or_create", M+"sessions.rs: set_current_time"])
p("An answer shows the figures that were computed",
  "The answer of a report or search has the columns of the result in order, and in every row the value that was computed: texts, truth values, times and whole numbers as they are, decimals to the nearest thousandth, nothing where there is no value; both formats hold the same data.",
  "every table of columns of every type, with missing values anywhere, both formats",
  "rounding, sizes and missing values in every cell of every type",
  [PL+"lib.rs: array_ref_to_json_values, scalar_to_json, columns_to_json, columns_to_json_compact", PL+"event_segmentation.rs: event_segmentation", PL+"event_records.rs: search", PL+"group_records.rs: search"])
p("A funnel's answer shows each figure under its own name",
  "For every step and every row the answer of a funnel shows the totals, ratios, drop-offs and times computed for that step, and names the row by its breakdown values so that different rows have different names.",
  "every number of steps and rows, every figure and every breakdown value",
  "the figures are found by their places among columns of two kinds; needs any number of steps",
  [Q+"funnel.rs: funnel, StepData", PL+"funnel.rs: funnel"])
p("A refused call leaves the record usable",
  "After an identify call that was refused, later calls about the same user or group are answered as if the refused call had not been made: in particular one that is in order is accepted.",
  "every history of calls, metadata changes and restarts, every record, every property and value",
  "the values of a refused call stay in a record that only later calls read; needs every later history",
  [I+"executor.rs: execute, property_to_value", I+"destinations/local/identify.rs: send", I+"destinations/local/track.rs: send", M+"groups.rs: create_or_update", PL+"projects.rs: init_project"])
p("A new project is ready for use",
  "Creating a project whose name is free succeeds as a whole and leaves a project its token leads to, with all standard columns of the events table and the five group tables, the standard events and text properties, the kind 'user' as kind 0, and its name shown for its number in every table. From then on, whatever history of calls, metadata changes and restarts follows - as long as it deletes or changes no event or property of the project, writes no record behind the ingester's back, sends no dates in identify calls and links no ids - every event call naming one user and known kinds of groups, with properties that fit, is accepted whatever user agent, place and campaign the ingester adds to it, and so is every identify call about a user with properties that fit. After a rename every table shows the new name.",
  "every earlier history of the metadata, every name and token, every later history, every call, every answer of the user-agent and geo libraries",
  "sixty-seven creations must each go through after any earlier history, and the properties added by the ingester must be found after any later one",
  [PL+"projects.rs: create, update, init_project", M+"util.rs: create_property, create_event", "src/ingester/src/transformers: user_agent, geo", I+"destinations/local/track.rs: send"])
p("A search is refused or run as asked, and never stops the worker",
  "A search for events or groups or a request for the values of a property is either refused with an error or run, at the moment the request gives or now; what runs has the events, filters, properties, groups of filters and sorting of the request.",
  "every request of the three kinds, every set of known events and properties, every timestamp",
  "needs every combination of optional parts, values, groups and timestamps; the tests send a few well-formed ones",
  [PL + "event_records.rs: validate_search_request, Into conversions, search", PL + "group_records.rs: validate_search_request, Into conversions, search", PL + "properties.rs: values, validate_request, Into conversions", PL + "lib.rs: QueryParams, json_value_to_scalar"])
p("The table of an event report has the columns and rows asked for",
  "The table of an event report begins with the columns Event, Segment, one for each property it is broken down by, and Formula, each under a title of its own, and goes on with the average and the times. Its rows are those of the events in order; every row stands under the name of its event and of its metric, a metric that the user named under that name, and every value under the title of its column.",
  "every set of events with their tables, every list of breakdowns, every display name, every list of metrics",
  "a title can collide with any other title or column, in any order; the tests break down by a few properties with distinct names",
  [Q+"event_segmentation.rs: LogicalPlanBuilder::build, build_event_logical_plan", Q+"physical_plan/reorder_columns.rs", Q+"physical_plan/rename_columns.rs", Q+"physical_plan/add_string_column.rs", Q+"physical_plan/rename_column_rows.rs", Q+"lib.rs: execute", C+"event_segmentation.rs: Query::name, initial_name"])
p("A refused account request says why, and changes nothing",
  "An account request (sign-up, log-in, renewal, profile, organization switch, administration of accounts) is refused exactly when there is a reason: 400 with the field for an address, name, password or body that cannot be taken, 401 for a missing, unknown or expired token and for wrong credentials, 403 for a call the account may not make, 404 for something that does not exist, 409 for an address in use. A refused request changes nothing on the server or in the browser; every other is carried out and answered 200 or 201; no request is answered with a server error; a failed log-in does not tell whether the address has an account; the browser's cookie is always the refresh token that goes with the access token just sent.",
  "every history of account calls, membership changes and key changes, every request, every token presented, every body, every cookie",
  "the order of the checks decides the status; needs every combination of reasons at every moment of every history",
  [PL+"error.rs: PlatformError, into_api_error", PL+"auth/provider.rs: Auth", PL+"accounts.rs: Accounts", PL+"context.rs: from_request_parts", PL+"http/auth.rs: handlers, set_refresh_token_cookie", PL+"http/accounts.rs: handlers", "src/common/src/http.rs: Json, ApiError"])
p("An aggregated property shows the aggregate of its values, whatever number type the property has",
  "Whatever the type of a property - whole numbers of 8 to 64 bits, decimals or fractions - a report of the sum, minimum, maximum, average or number of its values, directly or first per user and then over the users, and of the number of events per user, shows that aggregate of the values the events have, on every number of workers: no value is cut off, scaled twice or left unscaled on its way through the machine types the server chooses. A report the server cannot compute is refused.",
  "every property type, every pair of functions, every list of values and users on every number of workers",
  "two tables with hundreds of combinations of column, per-user and result types, each with its own multiplier; the tests run a few of them on small values",
  [Q+"physical_plan/planner/partitioned_aggregate.rs: build_partitioned_aggregate_partial_expr, get_return_type, build_partitioned_aggregate_final_expr", Q+"logical_plan/partitioned_aggregate.rs: return_type, field", Q+"physical_plan/expressions/aggregate: Aggregate, partitioned::aggregate::Aggregate, partitioned::count::PartitionedCount", Q+"physical_plan/segmented_aggregate.rs: combine_results", Q+"physical_plan/unpivot.rs: unpivot"])
p("The status of a track or identify call tells whether it was carried out, and why not",
  "A track call that is carried out is answered 201 and an identify call 204, and no other call is. A call that is not carried out is answered with a status that says whose mistake it was: 400 for a body that cannot be read, a call that names nobody, a value or a kind of groups that cannot be taken; 404 for an unknown token; never a server error, and always something. A refused call leaves nothing behind.",
  "every history of calls and metadata operations, every request and body, every property list",
  "the status depends on which of a dozen fallible steps fails first, on what is already registered and on whether an earlier call broke off",
  ["src/ingester/src/error.rs: IngesterError, into_response", "src/ingester/src/sources/http/mod.rs: track, identify, App", "src/ingester/src/executor.rs: Executor::execute", "src/ingester/src/transformers", "src/ingester/src/destinations/local"])
p("The text of a time names its moment, in requests, replies and saved queries",
  "A time written by the server (in a reply, or in a saved query) is a date, time of day and Z that name the moment, whatever year it is in, and reads back as the same moment. A time in a request that is a date of the calendar, a time of day with up to nine digits of a fraction, and Z or an offset is taken for the moment it names; a text of this form that names no date or time of day is refused.",
  "every moment of the years -262143 to 262142, every text",
  "leap years, years before 0 and after 9999, fractions of every length and offsets that change the date; the tests use a few texts of the years 2020 to 2022",
  [C+"query.rs: QueryTime, SegmentTime", "src/metadata/src/reports.rs: serialize_report, deserialize_report", "src/metadata/src/bookmarks.rs: serialize, deserialize", PL+"lib.rs: QueryTime"])
p("A request about dashboards, reports or bookmarks is carried out for those who may make it, and otherwise says why not",
  "A request to make, open, list, change or delete a dashboard, saved report or bookmark is refused exactly when there is a reason: 401 without a good access token, 404 if the account behind it is gone, 400 for a body that cannot be read, 403 without a role in the project (for changes: with no more than a reader's), 404 for something that does not exist. It then changes nothing, and to somebody without the role the answer is the same whatever is stored. Every other request is carried out and answered 201 if it makes something and 200 otherwise, with what was asked for; what is made belongs to the caller for good. Dashboards and reports of a project change only by requests of people with more than a reader's role there, bookmarks only by their makers.",
  "every history of account calls, role and key changes and such requests, every request, token, body, project, record",
  "the answer depends on the token, the roles, the body and everything stored before, in that order; needs every combination at every moment of every history",
  [PL+"dashboards.rs: Dashboards", PL+"reports.rs: Reports", PL+"bookmarks.rs: Bookmarks", PL+"http/dashboards.rs: handlers", PL+"http/reports.rs: handlers", PL+"http/bookmarks.rs: handlers", PL+"context.rs: Context", M+"dashboards.rs: Dashboards", M+"reports.rs: Reports", M+"bookmarks.rs: Bookmarks"])
p("A log that was damaged on disk is noticed, not shown",
  "If bytes of a table's log change on disk after they were written, opening the table either fails or shows exactly the inserts that were written: no change is silently taken for data, and no insert is silently lost.",
  "every log, every record, every place and content of the change",
  "every byte of every record can change to every other; tests try one changed byte at most",
  [S+"db.rs: hash_crc32, log_op, try_recover_table, recover_op"])
p("A request about the events of a project is carried out for those who may make it, and otherwise says why not",
  "A request to make, open (by number or name), list, rename or delete an event of a project, or to attach or detach one of its properties, is refused exactly when there is a reason: 401 without a good access token, 404 if the account behind it is gone, 400 for a body that cannot be read, 403 without the role (a reader's to look, a member's to change, an owner's to delete), 404 for an event that does not exist, 409 for a name or display name another event of the project has. A refused request changes nothing, and to somebody without the role the answer is the same whatever is stored. Every other request is carried out, answered 201 if it makes an event and 200 otherwise, with what was asked for, stays visible, and leaves all other events as they were.",
  "every history of account calls, role and key changes, tracked events, other metadata calls and such requests; every request, token, body, project, event",
  "the answer depends on the token, the roles, the body and everything stored before, in that order; needs every combination at every moment of every history",
  [PL+"events.rs: Events", PL+"http/events.rs: handlers", PL+"context.rs: Context", PL+"error.rs: into_api_error", M+"events.rs: Events"])
p("A request about the properties of events or groups is carried out for those who may make it, and otherwise says why not",
  "A request to open a property of a project's events or of one of its kinds of groups (by number or name), to list them, to change the display name of one or to delete one is refused exactly when there is a reason: 401 without a good access token, 404 if the account behind it is gone, 400 for a body that cannot be read, 403 without the role (a reader's to look, a member's to change, an owner's to delete), 404 for a property that does not exist, 409 for a display name another property of the kind has. A refused request changes nothing, and to somebody without the role the answer is the same whatever is stored. Every other request is answered 200 with the property asked for, stays visible, and leaves all other properties as they were.",
  "every history of account calls, role and key changes, tracked events, other metadata calls and such requests; every request, token, body, project, kind, property",
  "the answer depends on the token, the roles, the body and everything stored before, in that order; needs every combination at every moment of every history",
  [PL+"properties.rs: Properties", PL+"http/properties.rs: handlers, attach_group_routes, attach_event_routes", PL+"context.rs: Context", PL+"error.rs: into_api_error", M+"properties.rs: Properties"])
p("A custom event can be made of any existing events up to three levels deep",
  "Making a custom event, or giving one new parts, is accepted exactly when there is at least one part, every event and custom event it is made of, directly or through others, exists in the project, custom events are nested at most three levels deep, it is not made of itself, and its name is not that of another custom event.",
  "every history of metadata operations, every name, every list of parts",
  "the check walks the whole graph of custom events; what it refuses depends on every shape the graph can have",
  [M+"custom_events.rs: validate_events, create, update", PL+"custom_events.rs: create, update"])
p("A project can be named freely, and deleting it removes it",
  "A project is made or renamed unless a project of the same organization has the name or token already; otherwise nothing changes. A deleted project is found neither by its number nor by its token, its name and token are free again, its events and other contents are gone, and the other projects stay as they are.",
  "every history of metadata operations, every organization, name and token",
  "names and tokens of all projects of all organizations share one index; what is free depends on every earlier creation, renaming and deletion",
  [M+"projects.rs: create, update, delete, get_by_token", PL+"projects.rs: create, update, delete"])
with open(os.path.join(os.path.dirname(__file__), "..", "properties.jsonl"), "w") as f:
    for q in P: f.write(json.dumps(q)+"\n")
print(len(P))
