{"id": "C01", "title": "Write-ahead log record round trip", "statement": "A row written to a table's write-ahead log is read back, on reopening, as exactly the same key and values, whatever the column types (including nulls, negative numbers, strings and list values).", "quantifier": "every key vector and every value vector over all value variants", "why_tests_cant": "the set of value vectors is infinite and nested; a few sample rows do not cover all variants, lengths and sign patterns", "anchors": ["src/storage/src/db.rs: log_op, recover_op, LogOp", "src/storage/src/lib.rs: KeyValue, Value"]}
{"id": "C02", "title": "Reopening replays every complete log record in order", "statement": "If the log file of a table holds any number of completely written records, reopening the table yields exactly those inserts, in the order they were written, and nothing else.", "quantifier": "every finite sequence of inserts", "why_tests_cant": "needs induction over logs of unbounded length and over all record contents", "anchors": ["src/storage/src/db.rs: try_recover_table, log_op, recover_op"]}
{"id": "C03", "title": "A torn last log record costs at most the unfinished insert", "statement": "If the process dies while appending a record, leaving any strict prefix of its bytes at the end of the log, the table still opens and shows all earlier inserts; in no case does recovery show an insert that was never written.", "quantifier": "every log, every record, every cut position inside the record", "why_tests_cant": "every byte position of every record is a crash point", "anchors": ["src/storage/src/db.rs: try_recover_table"]}
{"id": "C04", "title": "Columnar memtable is a faithful list of rows", "statement": "After any sequence of inserts and added columns, the i-th row held in memory has, for every column, the value supplied by the i-th insert, or null if the insert did not supply it or the column was added later.", "quantifier": "every sequence of inserts and column additions", "why_tests_cant": "columns are stored separately; alignment between them must hold after every history", "anchors": ["src/storage/src/memtable.rs: Memtable::push_value, Memtable::add_column, Memtable::create_empty", "src/storage/src/db.rs: insert, add_field"]}
{"id": "C05", "title": "A reopened table holds the same unflushed rows", "statement": "Closing and reopening a table reproduces exactly the unflushed rows it held before, including rows written before a column was added.", "quantifier": "every history of inserts and column additions followed by a reopen", "why_tests_cant": "the interleaving of schema changes and inserts is unbounded", "anchors": ["src/storage/src/db.rs: try_recover_table, recover_op, add_field"]}
{"id": "C06", "title": "Flush preserves table contents", "statement": "For tables with integer or timestamp keys (replacing tables: two 64-bit ones), flushing in-memory rows to a part file succeeds and changes no scan result: the same rows (as a multiset) are returned before and after.", "quantifier": "every table state of an append-only table", "why_tests_cant": "must hold for every memtable content and every number of already existing parts", "anchors": ["src/storage/src/db.rs: flush, flush_log_, write_level0, scan", "src/storage/src/memtable.rs: Memtable::chunk"]}
{"id": "C07", "title": "Acknowledged inserts survive restarts", "statement": "For an append-only table with a fixed schema and integer or timestamp keys, after any history of inserts, flushes and restarts between operations, a scan returns exactly the acknowledged rows, each once.", "quantifier": "every history of insert / flush / automatic flush / restart operations", "why_tests_cant": "unbounded histories; a lost or duplicated row may need a specific sequence of flush and restart", "anchors": ["src/storage/src/db.rs: insert, flush, flush_log_, try_recover_table, scan"]}
{"id": "C08", "title": "A crash during a flush neither loses nor duplicates rows", "statement": "If the process dies at any point inside a flush, the table opens again and a scan returns exactly the acknowledged rows, each once.", "quantifier": "every table state and every crash point between two file-system effects of a flush", "why_tests_cant": "crash points between file-system effects cannot be scheduled by a unit test", "anchors": ["src/storage/src/db.rs: flush_log_, write_level0, write_metadata, try_recover_table"]}
{"id": "C09", "title": "Concurrent inserts and flushes lose no acknowledged row", "statement": "With any number of threads inserting and flushing the same table, every acknowledged row is returned by a later scan exactly once as long as the process keeps running.", "quantifier": "every number of threads and every interleaving of their lock-protected steps", "why_tests_cant": "the number of interleavings is unbounded; races show up only under particular schedules", "anchors": ["src/storage/src/db.rs: insert, flush, flush_log_, scan"]}
{"id": "C10", "title": "Acknowledged inserts are durable under concurrency", "statement": "With concurrent inserters and flushes, a row whose insert has been acknowledged is still returned after a process crash and restart.", "quantifier": "every interleaving of inserts and flushes and every later crash", "why_tests_cant": "requires a specific interleaving followed by a crash", "anchors": ["src/storage/src/db.rs: insert, flush_log_, try_recover_table"]}
{"id": "C11", "title": "In-memory lookup returns the last write for a key", "statement": "A point lookup answered from memory returns the most recently inserted row whose key columns equal the requested key, and nothing if there is none.", "quantifier": "every sequence of inserted rows and every key", "why_tests_cant": "needs all duplicate patterns of keys", "anchors": ["src/storage/src/memtable.rs: Memtable::get", "src/storage/src/db.rs: get"]}
{"id": "C12", "title": "Point lookup finds every stored key and its newest version", "statement": "get(key) returns the newest stored row for the key whenever the table contains one, wherever it is stored.", "quantifier": "every distribution of rows over memory, levels, parts and row groups", "why_tests_cant": "the lookup path depends on ranges of parts that overlap; only particular layouts expose a miss", "anchors": ["src/storage/src/db.rs: get"]}
{"id": "C13", "title": "Writing a part sorts but does not change rows", "statement": "The rows written out of memory for an append-only table are a permutation of the rows in memory and are ordered by the index columns.", "quantifier": "every set of rows, any number of index columns", "why_tests_cant": "permutation and order must hold for every input, including ties and nulls", "anchors": ["src/storage/src/memtable.rs: Memtable::chunk"]}
{"id": "C14", "title": "Replacing tables keep exactly one row per key, the newest", "statement": "When rows of a replacing table are written out of memory, exactly one row per key is kept, and it is the most recently inserted one.", "quantifier": "every sequence of inserts with arbitrary key repetitions and any declared number of index columns", "why_tests_cant": "depends on duplicates and on the sort's treatment of ties", "anchors": ["src/storage/src/memtable.rs: Memtable::chunk"]}
{"id": "C15", "title": "Scans over many parts merge rows without mixing them", "statement": "Scanning an append-only table returns every stored row exactly once, ordered by key, and every returned row carries exactly the values that were stored together.", "quantifier": "every number of parts, every row contents, every legal tie-breaking of the merge heap; keys of one or two 64-bit integer columns (other key types: see the property on scans that end early)", "why_tests_cant": "key columns and payload columns are merged separately through per-part cursors; alignment must hold for all interleavings of parts", "anchors": ["src/storage/src/parquet/arrow_merger.rs: merge_one_primitive, merge_two_primitives, merge_chunks, MergingIterator::merge_queue, MergingIterator::next"]}
{"id": "C16", "title": "Scans of replacing tables return whole rows, one per key", "statement": "Scanning a replacing table returns one row per key, and every returned row is one of the rows that was inserted.", "quantifier": "every set of parts with overlapping keys", "why_tests_cant": "requires particular overlaps between parts", "anchors": ["src/storage/src/parquet/arrow_merger.rs: merge_two_primitives, merge_queue", "src/storage/src/parquet/merge_data_arrays.rs: merge_arrays_inner"]}
{"id": "C17", "title": "Compaction preserves table contents", "statement": "Running a compaction changes no scan result of an append-only table.", "quantifier": "every level layout and every table option", "why_tests_cant": "the selection of parts depends on sizes and ranges over unboundedly many parts", "anchors": ["src/storage/src/compaction.rs: compact, determine_compaction, Compactor::run"]}
{"id": "C18", "title": "Part identifiers are never reused", "statement": "A part file created by a flush or a compaction never has the path of a part file that a live table or scan refers to.", "quantifier": "every history of flushes and compactions", "why_tests_cant": "collisions appear only after particular sequences", "anchors": ["src/storage/src/compaction.rs: compact", "src/storage/src/db.rs: write_level0, flush_log_", "src/storage/src/table.rs: Level::get_part, part_path"]}
{"id": "C19", "title": "Files in use are never deleted", "statement": "A file that is held open by a scan or backup is not removed until every holder has released it, and a file nobody holds is removed on request.", "quantifier": "every interleaving of open / release / remove requests on any set of files", "why_tests_cant": "reference counts must balance in every history", "anchors": ["src/storage/src/lib.rs: Fs::open, Fs::close, Fs::is_opened, Fs::try_remove_file, Fs::rename"]}
{"id": "C20", "title": "Restore of a backup reproduces the database", "statement": "Restoring the byte stream produced by a backup of a quiescent database yields tables with the same names, schemas, parts and logs.", "quantifier": "every set of tables, parts and logs of any size", "why_tests_cant": "length-prefixed layout must be inverted for every size and content", "anchors": ["src/storage/src/db.rs: full_backup, full_restore"]}
{"id": "C21", "title": "A damaged backup leaves the database unchanged", "statement": "Restoring from a truncated or foreign byte stream fails and leaves the existing tables as they were.", "quantifier": "every invalid byte stream and every database state", "why_tests_cant": "every prefix of every backup is an input", "anchors": ["src/storage/src/db.rs: full_restore, truncate_all"]}
{"id": "C22", "title": "Table metadata survives serialization", "statement": "Version, log id, schema, level contents with part ranges and sizes, statistics and options of a table are read back unchanged after being stored.", "quantifier": "every table metadata value with scalar column types and a version below 2^32, and every earlier content of the metadata file", "why_tests_cant": "signed key ranges and all type tags must round-trip for all values", "anchors": ["src/storage/src/table.rs: serialize_md, deserialize_md", "src/storage/src/db.rs: write_metadata, try_recover_table"]}
{"id": "C23", "title": "Rejected inserts have no effect", "statement": "An insert naming an unknown column or supplying a value of the wrong type is refused and changes neither the log nor memory; an accepted insert adds exactly one row, padded with nulls.", "quantifier": "every schema and every list of named values", "why_tests_cant": "all subsets and orders of columns", "anchors": ["src/storage/src/db.rs: insert"]}
{"id": "C24", "title": "Optimistic replace detects concurrent change", "statement": "After reading a row's version with get_cas, replace succeeds only when it supplies that same version; a row changed in between is not overwritten.", "quantifier": "every sequence of get_cas / replace / insert calls on any keys", "why_tests_cant": "depends on histories across several keys and cache evictions", "anchors": ["src/storage/src/db.rs: get_cas, replace"]}
{"id": "C25", "title": "Sequence numbers are unique and increasing", "statement": "Identifiers handed out by a sequence are consecutive, never repeat, and sequences of different namespaces do not influence each other.", "quantifier": "every history of allocations on any set of sequences", "why_tests_cant": "uniqueness over unbounded histories", "anchors": ["src/metadata/src/index.rs: next_seq, next_zero_seq"]}
{"id": "C26", "title": "Sequence numbers are unique under concurrency", "statement": "Two requests served at the same time never obtain the same identifier from a sequence.", "quantifier": "every interleaving of two transactions", "why_tests_cant": "needs a specific interleaving of reads and commits", "anchors": ["src/metadata/src/index.rs: next_seq", "src/metadata/src/rocksdb.rs"]}
{"id": "C27", "title": "Dictionary encoding is a stable bijection", "statement": "Encoding a string value returns the same number every time, different strings get different numbers, and decoding the number returns the string, forever after.", "quantifier": "every history of encode and decode calls over any projects, tables and columns", "why_tests_cant": "bijection over unbounded histories and arbitrary strings", "anchors": ["src/metadata/src/dictionaries.rs: get_key_or_create, get_value, get_key"]}
{"id": "C28", "title": "Dictionaries of different projects, tables and columns are independent", "statement": "Encoding values for one project, table or column never changes what another project, table or column encodes or decodes.", "quantifier": "every history and every pair of distinct dictionaries", "why_tests_cant": "needs injectivity of the key layout for all identifiers and names", "anchors": ["src/metadata/src/dictionaries.rs: make_main_key, make_value_key, make_key_key, tbl_dict", "src/metadata/src/lib.rs: project_ns"]}
{"id": "C29", "title": "Storage keys of different projects and entity kinds never collide", "statement": "No two entities of different projects, kinds or ids are stored under the same key, and listing one project's entities never touches another's.", "quantifier": "every pair of project ids, namespaces and entity ids", "why_tests_cant": "string concatenation with separators must be injective for all numbers", "anchors": ["src/metadata/src/lib.rs: project_ns, org_ns, make_data_value_key, make_data_key, make_index_key, make_id_seq_key, list_data"]}
{"id": "C30", "title": "Unique names stay unique and lookups by name stay consistent", "statement": "Within a project no two events, and no two properties of one kind, share a name; looking an event or property up by its name returns the one that currently has it, and a freed name can be taken again.", "quantifier": "every history of create, rename and delete", "why_tests_cant": "unbounded histories of renames and deletes", "anchors": ["src/metadata/src/index.rs: check_insert_constraints, insert_index, check_update_constraints, update_index, delete_index, get_index", "src/metadata/src/events.rs: create_, update, delete, get_by_name"]}
{"id": "C31", "title": "Event name dictionary follows renames", "statement": "The name shown for an event id in query results is the event's current name.", "quantifier": "every history of create and rename", "why_tests_cant": "requires a rename followed by decoding", "anchors": ["src/metadata/src/events.rs: create_, update"]}
{"id": "C32", "title": "Custom events are never cyclic and nest at most three levels", "statement": "Creating or updating a custom event can never produce a cycle of custom events or a nesting deeper than the limit.", "quantifier": "every history of custom event creations and updates", "why_tests_cant": "cycles and depth depend on the whole reference graph", "anchors": ["src/metadata/src/custom_events.rs: validate_events, create, update, delete"]}
{"id": "C33", "title": "A group value keeps one identifier", "statement": "Tracking the same user or group value again yields the same identifier, and different values of a group get different identifiers.", "quantifier": "every history of track and identify calls", "why_tests_cant": "unbounded histories, interleaved groups", "anchors": ["src/metadata/src/groups.rs: get_or_create, create_or_update, get_or_create_anonymous_id, merge_with_anonymous"]}
{"id": "C34", "title": "At most GROUPS_COUNT group types exist per project", "statement": "A project never has more than the fixed number of group types, each name has one id below the limit, and asking for one more is refused without side effects.", "quantifier": "every history of group creations", "why_tests_cant": "limit must hold after every history", "anchors": ["src/metadata/src/groups.rs: get_or_create_group"]}
{"id": "C35", "title": "Accounts and organizations agree on membership", "statement": "An account lists an organization with a role exactly when the organization lists the account as member with that role.", "quantifier": "every history of organization and membership operations", "why_tests_cant": "the relation is stored twice and updated in separate places", "anchors": ["src/metadata/src/organizations.rs: create, add_member, remove_member, change_member_role, delete", "src/metadata/src/accounts.rs: add_organization_, remove_organization_, change_organization_role_, delete"]}
{"id": "C36", "title": "E-mail addresses identify accounts uniquely", "statement": "No two accounts share an e-mail address and lookup by e-mail returns the account that has it.", "quantifier": "every history of account creation, update and deletion", "why_tests_cant": "unbounded histories", "anchors": ["src/metadata/src/accounts.rs: create, update, delete, get_by_email"]}
{"id": "C37", "title": "Only the project token gives ingest access", "statement": "A string accepted as ingest token for a project is that project's current token.", "quantifier": "every history of project creation, rename and deletion and every string", "why_tests_cant": "the token index must not contain anything else after any history", "anchors": ["src/metadata/src/projects.rs: create, update, delete, get_by_token, index_keys"]}
{"id": "C38", "title": "A session is open exactly between its first event and its expiry", "statement": "Tracking an event reports a new session exactly when the user has no open session; expiry closes exactly the sessions older than the project's limit and no others.", "quantifier": "every history of tracks and clean-ups for any users and projects", "why_tests_cant": "unbounded interleavings of users", "anchors": ["src/metadata/src/sessions.rs: set_current_time, check_for_deletion, clear_project, get_by_user_id"]}
{"id": "C39", "title": "Listing returns every entity of its namespace", "statement": "Listing the teams (or other entities) of an organization or project returns all of them and no others.", "quantifier": "every stored set of entities", "why_tests_cant": "completeness over arbitrarily many entities", "anchors": ["src/metadata/src/teams.rs: list", "src/metadata/src/lib.rs: list_data, list"]}
{"id": "C40", "title": "Property columns are distinct", "statement": "Two different properties of a project never share a storage column.", "quantifier": "every history of property creations over all types and names", "why_tests_cant": "column names are derived from per-type counters and from normalised names", "anchors": ["src/metadata/src/properties.rs: create_, column_name", "src/metadata/src/index.rs: next_zero_seq"]}
{"id": "C41", "title": "Access is denied unless a role grants it", "statement": "A caller without global administrator role, without role in the organization and without role in the project is refused every operation; each higher role includes all permissions of the lower ones.", "quantifier": "every role assignment and every permission", "why_tests_cant": "all combinations of the three role levels", "anchors": ["src/platform/src/context.rs: check_permission, check_organization_permission, check_project_permission", "src/common/src/rbac.rs"]}
{"id": "C42", "title": "Members of one organization cannot touch another organization's projects", "statement": "A caller can read, change or delete a project only through a role in the organization that owns the project or in the project itself.", "quantifier": "every caller, every project, every role assignment", "why_tests_cant": "cross-tenant combinations are not enumerated by tests", "anchors": ["src/platform/src/projects.rs: get_by_id, update, delete", "src/platform/src/context.rs: check_project_permission"]}
{"id": "C43", "title": "Project listing shows only the caller's organization", "statement": "Listing projects returns exactly the projects owned by the organization the caller is acting in.", "quantifier": "every set of projects and callers", "why_tests_cant": "filter must be exact for every set", "anchors": ["src/platform/src/projects.rs: list"]}
{"id": "C44", "title": "Truncating a time yields the start of its interval", "statement": "The bucket start of a timestamp is not later than the timestamp, truncating again changes nothing, two timestamps of the same hour/day/week/month/year get the same bucket, and later timestamps never get earlier buckets.", "quantifier": "every timestamp (including before 1970) and every interval unit", "why_tests_cant": "calendar arithmetic over all dates, leap years and negative timestamps", "anchors": ["src/common/src/query.rs: date_trunc"]}
{"id": "C45", "title": "Time columns cover the requested range", "statement": "Every event time between from and to falls into exactly one of the time columns produced for the report, and the columns are in increasing order.", "quantifier": "every range and interval unit", "why_tests_cant": "month and year lengths vary", "anchors": ["src/common/src/query.rs: time_columns, date_trunc"]}
{"id": "C46", "title": "Funnel report has a bucket for every event time", "statement": "Every funnel whose first step lies in the requested range is counted in the bucket of its interval.", "quantifier": "every range, every time in it and every interval unit", "why_tests_cant": "buckets are generated by fixed-length steps over calendar units", "anchors": ["src/query/src/physical_plan/expressions/aggregate/partitioned/funnel/funnel.rs: try_new, push_result", "src/common/src/query.rs: TimeIntervalUnit::duration"]}
{"id": "C47", "title": "Funnel step counts never increase", "statement": "In every funnel report, step k+1 counts at most as many as step k, and drop-off at a step equals the difference between consecutive steps.", "quantifier": "every event stream, every batch split and every funnel definition", "why_tests_cant": "must hold after arbitrary event sequences", "anchors": ["src/query/src/physical_plan/expressions/aggregate/partitioned/funnel/funnel.rs: evaluate, push_result, finalize"]}
{"id": "C48", "title": "Funnel results do not depend on batch boundaries", "statement": "Splitting the same ordered event stream into different record batches gives the same funnel report.", "quantifier": "every event stream and every way to split it", "why_tests_cant": "all split positions", "anchors": ["src/query/src/physical_plan/expressions/aggregate/partitioned/funnel/funnel.rs: evaluate"]}
{"id": "C49", "title": "Funnel counts what the definition says", "statement": "For a funnel with ordered steps and a time window, each user's events are matched greedily in time order; an attempt is counted up to the last step reached within the window, independently of other users' events.", "quantifier": "every stream of users' events, every number of steps and every window", "why_tests_cant": "a state machine over unbounded streams", "anchors": ["src/query/src/physical_plan/expressions/aggregate/partitioned/funnel/funnel.rs: evaluate, push_result"]}
{"id": "C50", "title": "Unique funnels count each user once", "statement": "With unique counting, no user contributes more than one to any step of a funnel report.", "quantifier": "every stream of events", "why_tests_cant": "needs particular sequences (failed first attempts, batch boundaries)", "anchors": ["src/query/src/physical_plan/expressions/aggregate/partitioned/funnel/funnel.rs: evaluate"]}
{"id": "C51", "title": "Excluded events invalidate a funnel attempt", "statement": "An event listed as excluded between given steps prevents the attempt in progress from being counted as converted.", "quantifier": "every stream and every exclusion definition", "why_tests_cant": "depends on positions of excluded events", "anchors": ["src/query/src/physical_plan/expressions/aggregate/partitioned/funnel/funnel.rs: check_exclude, evaluate"]}
{"id": "C52", "title": "Event counts equal the number of matching rows", "statement": "An event count report counts, for each group, exactly the rows that satisfy the filter and have the event column set, whatever the batch split.", "quantifier": "every row stream, grouping and batch split", "why_tests_cant": "all streams and splits", "anchors": ["src/query/src/physical_plan/expressions/aggregate/count.rs: evaluate, finalize, merge"]}
{"id": "C53", "title": "Unique counts equal the number of distinct users with a matching event", "statement": "A unique-users report counts, for each group, the number of distinct users having at least one matching row.", "quantifier": "every row stream ordered by user, every grouping and filter", "why_tests_cant": "needs particular placements of non-matching rows", "anchors": ["src/query/src/physical_plan/expressions/aggregate/partitioned/count.rs: evaluate, finalize"]}
{"id": "C54", "title": "Sums, minima, maxima and averages are those of the rows", "statement": "Aggregating a property returns the sum, minimum, maximum, count and average of the non-null values of the matching rows, independent of batch boundaries.", "quantifier": "every list of values and every split", "why_tests_cant": "all lists, including empty and null-only ones", "anchors": ["src/query/src/physical_plan/expressions/aggregate/mod.rs", "src/query/src/physical_plan/expressions/segmentation/aggregate.rs: AggregateFunction"]}
{"id": "C55", "title": "A report with several metrics equals the single-metric reports", "statement": "Requesting several metrics of one event in one report gives for each metric the same numbers as requesting it alone, and the degree of parallelism does not matter.", "quantifier": "every set of metrics, every distribution of users over worker partitions", "why_tests_cant": "combination of partial results depends on the number of partitions and metrics", "anchors": ["src/query/src/physical_plan/segmented_aggregate.rs: combine_results, PartialAggregateStream, FinalAggregateStream", "src/query/src/physical_plan/funnel.rs: FinalFunnelStream, aggregate"]}
{"id": "C56", "title": "A behavioural segment contains exactly the users meeting the condition", "statement": "The segment 'did event E with count op n in period T' contains a user exactly when the user's number of matching events in T satisfies the comparison.", "quantifier": "every event stream ordered by user, operator, threshold and period", "why_tests_cant": "includes users without any matching event", "anchors": ["src/query/src/physical_plan/expressions/segmentation/count.rs: evaluate, finalize", "src/query/src/physical_plan/expressions/segmentation/time_range.rs: check_bounds"]}
{"id": "C57", "title": "Combined segment conditions are intersections and unions", "statement": "A segment requiring two conditions contains exactly the users in both, and one offering alternatives the users in either.", "quantifier": "every pair of condition results", "why_tests_cant": "depends on the alignment of result lists of different lengths", "anchors": ["src/query/src/physical_plan/expressions/segmentation/comparison.rs: And, Or"]}
{"id": "C58", "title": "Property filters mean what they say", "statement": "A filter 'property equals one of the values' selects rows having one of them, and 'not equal to any of the values' selects rows having none of them.", "quantifier": "every operator, every list of values, every row", "why_tests_cant": "lists with several values are needed", "anchors": ["src/query/src/expr.rs: named_property_expression, property_expression"]}
{"id": "C59", "title": "Custom events match exactly their definition", "statement": "A query on a custom event selects exactly the rows matched by one of its member events together with that member's filters, through all nesting levels; an event id selects only that event.", "quantifier": "every acyclic set of definitions and every row", "why_tests_cant": "nested definitions and large identifiers", "anchors": ["src/query/src/expr.rs: event_expression"]}
{"id": "C60", "title": "Group limit keeps the first rows of every group value", "statement": "Limiting a report to n rows per breakdown value never returns more than n rows for a value and never drops a row of a value that has fewer.", "quantifier": "every table, any number of breakdown columns, every limit", "why_tests_cant": "several breakdown columns interact", "anchors": ["src/query/src/physical_plan/limit_groups.rs"]}
{"id": "C61", "title": "Turning columns into rows and back loses nothing", "statement": "Unpivoting metric columns yields one row per original row and metric, in order, with the group values repeated; pivoting by time puts each value into the cell of its group and time.", "quantifier": "every table and every set of metric columns", "why_tests_cant": "all shapes and orders", "anchors": ["src/query/src/physical_plan/unpivot.rs: unpivot", "src/query/src/physical_plan/pivot.rs: pivot_batch, finish"]}
{"id": "C62", "title": "Combined event reports keep every row under its event name", "statement": "Merging the reports of several events returns every row of every input under the name of the event it came from, with nulls for columns the event lacks.", "quantifier": "every list of inputs with any schemas and batches", "why_tests_cant": "unbounded inputs", "anchors": ["src/query/src/physical_plan/merge.rs: MergeStream"]}
{"id": "C63", "title": "Scan projection returns the requested columns", "statement": "Reading a set of columns from storage returns for each requested column the values of that column, whatever the order or repetition of the request.", "quantifier": "every projection list", "why_tests_cant": "all orders and repetitions of columns", "anchors": ["src/query/src/physical_plan/db_parquet.rs", "src/storage/src/db.rs: scan", "src/storage/src/memtable.rs: Memtable::chunk", "src/query/src/event_segmentation.rs: projection"]}
{"id": "C64", "title": "Numeric property values are stored exactly", "statement": "A number sent as a property value is the number shown in reports.", "quantifier": "every decimal number the API accepts", "why_tests_cant": "numbers with different scales", "anchors": ["src/ingester/src/lib.rs: property_to_value", "src/common/src/lib.rs: DECIMAL_SCALE"]}
{"id": "C65", "title": "Tracking an event stores it once with its own time", "statement": "Every accepted track call adds exactly one row for the event with the event's timestamp (plus, when a session starts, one session-begin row with the same timestamp) and counts one event.", "quantifier": "every track call and every session state", "why_tests_cant": "depends on session state and units", "anchors": ["src/ingester/src/destinations/local/track.rs: send", "src/ingester/src/executor.rs: Executor<Track>::execute", "src/metadata/src/projects.rs: increment_events_counter"]}
{"id": "C66", "title": "Linking an anonymous visitor to a user unifies their events", "statement": "A track call carrying both a user id and an anonymous id assigns the event, and later events of either id, to the same user.", "quantifier": "every history of track calls with user and anonymous ids", "why_tests_cant": "depends on the order of identification", "anchors": ["src/ingester/src/executor.rs: Executor<Track>::execute", "src/metadata/src/groups.rs: merge_with_anonymous, get_or_create, get_or_create_anonymous_id"]}
{"id": "C67", "title": "String properties of groups decode to what was sent", "statement": "A string property set with identify is shown in reports as the same string for every group type.", "quantifier": "every group type, property and string", "why_tests_cant": "needs a group other than the user group", "anchors": ["src/ingester/src/executor.rs: Executor<Identify>::execute", "src/ingester/src/lib.rs: property_to_value", "src/query/src/lib.rs: decode_filter_single_dictionary"]}
{"id": "C68", "title": "Every accepted key type can be flushed", "statement": "A table accepts inserts only if it can later write them to disk: whatever the type and number of its key columns, a flush of acknowledged rows succeeds and they stay visible.", "quantifier": "every choice of key columns and mode, every history", "why_tests_cant": "flushes with unusual key types are never tried", "anchors": ["src/storage/src/db.rs: write_level0, flush_log_", "src/storage/src/parquet/mod.rs: chunk_min_max", "src/storage/src/memtable.rs: Memtable::chunk"]}
{"id": "C69", "title": "Replaced part files are deleted once unused", "statement": "A part file that a compaction has replaced is deleted as soon as no scan or backup uses it, at the latest by the next garbage collection.", "quantifier": "every history of flushes, compactions, scans (also abandoned ones) and garbage collections", "why_tests_cant": "counter leaks show only in long histories", "anchors": ["src/storage/src/lib.rs: Fs", "src/storage/src/compaction.rs: compact, Compactor::run", "src/storage/src/parquet/parquet_merger.rs: Merger::merge", "src/storage/src/db.rs: ScanStream, gc"]}
{"id": "C70", "title": "A failed restore can be retried", "statement": "After a restore that failed, restoring a correct backup succeeds.", "quantifier": "every failing byte stream and every correct backup", "why_tests_cant": "depends on what the failed attempt left on disk", "anchors": ["src/storage/src/db.rs: full_restore, truncate_all"]}
{"id": "C71", "title": "Garbage collection never deletes the output of a running compaction", "statement": "A part file being written by a compaction is not deleted before the compaction publishes it, also after the database has been restored from a backup.", "quantifier": "every interleaving of compaction and garbage collection, with and without an earlier restore", "why_tests_cant": "depends on thread schedules", "anchors": ["src/storage/src/db.rs: gc, recover, full_restore", "src/storage/src/lib.rs: Fs"]}
{"id": "C72", "title": "A scan returns all rows or reports an error", "statement": "If a scan cannot deliver all stored rows, its consumer receives an error; it never sees a regular end of data with rows missing.", "quantifier": "every key type and number of key columns, every set of parts", "why_tests_cant": "unmergeable key types and read errors are not exercised", "anchors": ["src/storage/src/parquet/arrow_merger.rs: merge_chunks, MergingIterator::next"]}
{"id": "C73", "title": "Scans do not crash", "statement": "No scan of rows that were inserted through the API panics.", "quantifier": "every set of parts, both table modes, every configured slice size", "why_tests_cant": "depends on the number of superseded rows relative to the slice size", "anchors": ["src/storage/src/parquet/arrow_merger.rs: MergingIterator::merge_queue"]}
{"id": "C74", "title": "Scanning fewer columns returns the same rows", "statement": "Scanning any subset of the columns returns the rows of the full scan restricted to these columns.", "quantifier": "every subset of columns, every reachable table", "why_tests_cant": "projections without the key columns are never tried", "anchors": ["src/storage/src/db.rs: scan", "src/storage/src/memtable.rs: Memtable::chunk", "src/storage/src/parquet/arrow_merger.rs: ArrowChunk::new"]}
{"id": "C75", "title": "Property values of every kind the API accepts are stored as sent", "statement": "A string, boolean or date sent as a property value of an event is the value shown for that event.", "quantifier": "every value of every kind, every property type", "why_tests_cant": "dates and mixed types are not exercised", "anchors": ["src/ingester/src/lib.rs: property_to_value", "src/ingester/src/executor.rs: resolve_property"]}
{"id": "C76", "title": "A rejected track call leaves no trace", "statement": "A track call that is answered with an error adds no event and changes nothing that later calls or reports see.", "quantifier": "every rejected call, whatever stage rejects it", "why_tests_cant": "every failing stage after every history", "anchors": ["src/ingester/src/executor.rs: Executor<Track>::execute", "src/ingester/src/destinations/local/track.rs: send"]}
{"id": "C77", "title": "Counts per user are aggregated over users", "statement": "A report of the sum, minimum, maximum or average number of events per user returns that aggregate of the users' numbers of matching events, over the users who have at least one.", "quantifier": "every row stream ordered by user, every grouping and batch split", "why_tests_cant": "users spread over batches in every way", "anchors": ["src/query/src/physical_plan/expressions/aggregate/partitioned/count.rs: evaluate, finalize"]}
{"id": "C78", "title": "A property aggregated per user ignores events that lack the property", "statement": "Aggregating a numeric property per user and then over users uses exactly the values present, user by user.", "quantifier": "every row stream ordered by user, every pair of functions, every pattern of missing values", "why_tests_cant": "missing values in every position", "anchors": ["src/query/src/physical_plan/expressions/aggregate/partitioned/aggregate.rs: evaluate, finalize"]}
{"id": "C79", "title": "Per-user reports are answered when some events have no user", "statement": "A report counting or aggregating per group is answered, and leaves out the events that do not belong to any group.", "quantifier": "every row stream, every placement of rows without the group", "why_tests_cant": "tests always fill the group column", "anchors": ["src/query/src/physical_plan/expressions/aggregate/partitioned/count.rs: evaluate", "src/query/src/physical_plan/expressions/aggregate/partitioned/aggregate.rs: evaluate"]}
{"id": "C80", "title": "A report restricted to segments is answered for exactly these segments", "statement": "An event report that names segments is answered, with one set of numbers per requested segment.", "quantifier": "every list of segments and conditions the API accepts", "why_tests_cant": "no test plans a report with segments end to end", "anchors": ["src/query/src/event_segmentation.rs: LogicalPlanBuilder::build, build_segment_condition", "src/query/src/logical_plan/segment.rs: From<&SegmentTime> for TimeRange", "src/query/src/physical_plan/planner/mod.rs: ExtensionPlanner::plan_extension"]}
{"id": "C81", "title": "A segment on an aggregated property contains exactly the users meeting it", "statement": "The segment 'the sum (minimum, maximum, average, count) of P over event E in period T compares to v' contains a user exactly when the user did E in T and the aggregate of their values satisfies the comparison.", "quantifier": "every event stream ordered by user, every function, operator, bound and period", "why_tests_cant": "depends on which user's row comes first", "anchors": ["src/query/src/physical_plan/expressions/segmentation/aggregate.rs: evaluate, finalize"]}
{"id": "C82", "title": "Filtering for a text nobody has sent is answered", "statement": "A report whose filter names a text that no event has had for the property yet is answered, with that filter selecting nothing (or, negated, everything).", "quantifier": "every text property, every list of filter values, every report", "why_tests_cant": "tests filter by values they have just stored", "anchors": ["src/query/src/expr.rs: encode_property_dict_values, prop_expression"]}
{"id": "C83", "title": "Order comparisons of text properties follow the texts", "statement": "A filter 'less than' or 'greater than' on a text property selects the rows whose text is before or after the given one.", "quantifier": "every set of texts, every order in which they were first seen", "why_tests_cant": "depends on the order in which texts were first seen", "anchors": ["src/query/src/expr.rs: encode_property_dict_values, named_property_expression"]}
{"id": "C84", "title": "Events carry what is known about their user", "statement": "An event of a user who has been identified is stored together with the user's properties as of that moment.", "quantifier": "every history of calls, every accepted track call naming an identified user", "why_tests_cant": "depends on the history of identify calls and on the optional parts of the track call", "anchors": ["src/ingester/src/executor.rs: track", "src/ingester/src/destinations/local/track.rs: send"]}
{"id": "C85", "title": "Later identifications have larger versions", "statement": "Of two rows stored for one group type of one project, the one stored later has the larger version, whatever calls happened in between.", "quantifier": "every history of track and identify calls, accepted or rejected", "why_tests_cant": "all histories", "anchors": ["src/ingester/src/executor.rs: identify", "src/metadata/src/groups.rs: next_record_sequence"]}
{"id": "C86", "title": "Columns can be added while rows are inserted", "statement": "Adding a column at any moment leaves the table readable: later scans return every acknowledged row, with null in the new column for rows whose insert did not name it.", "quantifier": "every interleaving of inserts, flushes, scans and column additions by any number of threads", "why_tests_cant": "needs the addition to fall between two lock-protected steps of an insert", "anchors": ["src/storage/src/db.rs: insert, add_field, scan, flush"]}
{"id": "C87", "title": "A crash during a compaction loses and duplicates nothing", "statement": "If the process dies at any point of a compaction of an append-only table, the reopened table returns exactly the acknowledged rows.", "quantifier": "every history, every crash point of a pass, whatever the half-written output files contain", "why_tests_cant": "crash points lie between any two file operations of a pass over unboundedly many parts", "anchors": ["src/storage/src/compaction.rs: Compactor::run, compact", "src/storage/src/db.rs: recover"]}
{"id": "C88", "title": "A compaction pass always completes", "statement": "A compaction pass of a reachable append-only table completes and publishes its result, for every configured number of levels.", "quantifier": "every history, every level layout and every table option", "why_tests_cant": "a failure needs particular combinations of sizes, ranges and levels", "anchors": ["src/storage/src/compaction.rs: compact, determine_compaction, Compactor::run"]}
{"id": "C89", "title": "Report rows carry their average and come largest first", "statement": "Every row of a report carries the average of its values over the time columns, counting an empty cell as zero; the rows come in order of decreasing average and none is lost or repeated.", "quantifier": "every table, every number of rows and time columns, every sort that orders correctly", "why_tests_cant": "all tables", "anchors": ["src/query/src/physical_plan/aggregate_and_sort_columns.rs: AggregateAndSortColumnsStream"]}
{"id": "C90", "title": "The compact format answers the same reports", "statement": "An event report asked for in the compact format is answered with every group and time of the regular report.", "quantifier": "every metric, every number of breakdowns, every length of period", "why_tests_cant": "tests use the regular format", "anchors": ["src/query/src/event_segmentation.rs: build_event_logical_plan", "src/query/src/physical_plan/aggregate_and_sort_columns.rs"]}
{"id": "C91", "title": "Event search returns the newest matching events", "statement": "Searching events returns the requested properties of the events of the project that lie in the time range, are one of the requested events with its filters met, and meet the filters of the request: at most 100, the newest, newest first.", "quantifier": "every table contents, every request with any number of events, filters and properties", "why_tests_cant": "the combination of events, filters and requested properties is unbounded, and every stored row is a possible wrong match", "anchors": ["src/query/src/event_records.rs: EventRecordsProvider::search, LogicalPlanBuilder::build, fix_search_request, projection", "src/platform/src/event_records.rs"]}
{"id": "C92", "title": "Group search returns the matching groups", "statement": "Searching groups returns the requested properties of the groups of the project that were created in the time range and meet all filters.", "quantifier": "every table contents, every time range, filter list and property list", "why_tests_cant": "the effect of one part of the request on another shows only in combinations", "anchors": ["src/query/src/group_records.rs: GroupRecordsProvider::search, LogicalPlanBuilder::build, fix_search_request"]}
{"id": "C93", "title": "A search without a property list returns every property under its own name", "statement": "Searching without saying which properties returns a column for every property of the project, labelled with that property.", "quantifier": "every set of properties of the project and of other projects, every order of their creation", "why_tests_cant": "depends on the properties of all projects and on the order in which they were created", "anchors": ["src/query/src/event_records.rs: EventRecordsProvider::search, LogicalPlanBuilder::build"]}
{"id": "C94", "title": "A record looked up by its number shows what was stored", "statement": "Looking up an event or group by its number returns the record's properties with the values it has, no values for properties it does not have, and an error if there is no such record.", "quantifier": "every table, every record, every set of properties present on it", "why_tests_cant": "every pattern of absent properties", "anchors": ["src/query/src/event_records.rs: EventRecordsProvider::get_by_id", "src/query/src/group_records.rs: GroupRecordsProvider::get_by_id"]}
{"id": "C95", "title": "Filter groups of a request apply as given", "statement": "A request with groups of filters considers exactly the rows allowed by the groups combined as the request says.", "quantifier": "every list of groups, every combination of and/or inside and between them", "why_tests_cant": "unboundedly many nestings of conditions", "anchors": ["src/platform/src/event_segmentation.rs: filters", "src/platform/src/funnel.rs: filters", "src/platform/src/event_records.rs", "src/platform/src/group_records.rs", "src/platform/src/lib.rs: EventGroupedFilters"]}
{"id": "C96", "title": "The values listed for a property are those the events have", "statement": "Listing the values of a property, for the project or for one event, returns each value that occurs on these events and passes the filter, once, in order, up to 1000.", "quantifier": "every table, every property, event and filter", "why_tests_cant": "every set of values and every filter", "anchors": ["src/query/src/properties.rs: PropertiesProvider::values, LogicalPlanBuilder::build", "src/query/src/expr.rs: property_expression"]}
{"id": "C97", "title": "Funnel counts do not depend on how users are spread over workers", "statement": "The number of attempts reaching each step, the drop-offs and the total times of a funnel line are those of all users, whichever worker handles which user.", "quantifier": "every assignment of users to any number of workers, every split into batches", "why_tests_cant": "the assignment depends on a hash and on the number of workers", "anchors": ["src/query/src/physical_plan/funnel.rs: FunnelPartialExec, FunnelFinalExec, aggregate"]}
{"id": "C98", "title": "Conversion and drop-off ratios are shares of the users who entered", "statement": "The conversion ratio of a funnel step is 100 times the attempts that reached it divided by the attempts that entered, and the drop-off ratio is the rest to 100.", "quantifier": "every assignment of users to workers, every number of steps", "why_tests_cant": "wrong only for uneven distributions of conversions over workers", "anchors": ["src/query/src/physical_plan/funnel.rs: aggregate, FinalFunnelStream::poll_next", "src/query/src/physical_plan/expressions/aggregate/partitioned/funnel/funnel.rs: finalize"]}
{"id": "C99", "title": "Average times to convert are averages", "statement": "The average time to convert of a funnel step is the total time to convert divided by the attempts that reached the step.", "quantifier": "every row stream", "why_tests_cant": "needs the relation between several columns of every report", "anchors": ["src/query/src/physical_plan/expressions/aggregate/partitioned/funnel/funnel.rs: finalize"]}
{"id": "C100", "title": "A funnel counts the events of the project only", "statement": "A funnel requested for a project counts only events stored for that project.", "quantifier": "every table holding events of several projects", "why_tests_cant": "tests store one project", "anchors": ["src/query/src/funnel.rs: FunnelProvider::funnel, build"]}
{"id": "C101", "title": "A funnel window is as long as its unit says", "statement": "A funnel window given in hours, days, weeks, months or years has that length, and a session window covers the session.", "quantifier": "every unit and number", "why_tests_cant": "every number of units", "anchors": ["src/common/src/funnel.rs: TimeIntervalUnitSession::duration", "src/platform/src/funnel.rs: validate_request"]}
{"id": "C102", "title": "Merging part files page by page keeps every row whole", "statement": "Merging the part files of an append-only table, however they are cut into row groups and pages, succeeds, writes exactly the rows of the inputs, each with its own values and nulls for columns it lacked, sorted by key from the first file to the last, and records key ranges that bound the rows of each file.", "quantifier": "every set of sorted files with integer or timestamp keys (one to three columns), every cut into row groups and pages, every size limit, every choice among equal keys", "why_tests_cant": "depends on how pages of several files overlap; keys and data columns are merged by different code in several batches", "anchors": ["src/storage/src/parquet/parquet_merger.rs: merge, next_index_chunk, merge_queue, merge_chunks, check_intersection", "src/storage/src/parquet/merge_data_arrays.rs: merge_data_arrays", "src/storage/src/parquet/mod.rs: CompressedPageIterator, ParquetStreamReader"]}
{"id": "C103", "title": "Merging part files of a replacing table keeps each record", "statement": "After part files of a replacing table are merged every record that was in one of them is still there once, with its own values, and the file is sorted by key.", "quantifier": "every set of part files of a table keyed by two columns", "why_tests_cant": "needs records of one project in overlapping parts of different flushes", "anchors": ["src/storage/src/parquet/parquet_merger.rs: merge_two_primitives, check_intersection", "src/storage/src/parquet/merge_data_arrays.rs: merge_data_arrays", "src/cmd/src/lib.rs: init_system"]}
{"id": "C104", "title": "Server settings are kept as given", "statement": "Settings that are saved are read back as they were saved, and settings that would make backups unusable (encryption without password, a cloud destination without bucket or keys) are refused and leave the stored ones in place.", "quantifier": "every value of every setting", "why_tests_cant": "every combination of values, over a hand-written encoding of nineteen fields", "anchors": ["src/metadata/src/settings.rs: Settings::save, load, serialize, deserialize, validate"]}
{"id": "C105", "title": "A change of settings changes what it names and nothing else", "statement": "A settings request that is accepted gives each setting it names the value it names and leaves the others; a refused one changes nothing.", "quantifier": "every stored settings, every request naming any subset of the settings", "why_tests_cant": "needs every subset of fields", "anchors": ["src/platform/src/settings.rs: Settings::get, set", "src/cmd/src/lib.rs: init_settings"]}
{"id": "C106", "title": "A completed backup is stored", "statement": "A backup shown as completed has its complete archive at its destination.", "quantifier": "every history of scheduler rounds, crashes at any point of a round, restarts, requests and settings, every outcome of the storage engine and of moving or uploading the archive", "why_tests_cant": "crash points, failures and the order of backups", "anchors": ["src/cmd/src/backup.rs: init, run_backup, backup_to_tmp, backup_local, backup_gcp", "src/metadata/src/backups.rs: create, update_status, Backup::path"]}
{"id": "C107", "title": "A scheduled time starts exactly one backup", "statement": "In a scheduled minute the scheduler starts one backup, and only one; at other times none.", "quantifier": "every history with a clock that does not go back, every schedule, every number of earlier backups", "why_tests_cant": "needs the scheduler to run over many days; the number of backups matters", "anchors": ["src/cmd/src/backup.rs: init, truncate_to_minute, create_backup", "src/metadata/src/backups.rs: list"]}
{"id": "C108", "title": "No backup stays unfinished", "statement": "At most one backup waits; the next round of the scheduler finishes it; after a restart no backup is shown as running; finished backups keep their records.", "quantifier": "every history of scheduler rounds, crashes at any point, restarts, requests and settings", "why_tests_cant": "crash points in the middle of a backup", "anchors": ["src/cmd/src/backup.rs: init, run_backup", "src/metadata/src/backups.rs: create, update_status"]}
{"id": "C109", "title": "A token means that somebody gave the password", "statement": "Every token the server hands out is for an account that was signed up, or opened with its e-mail address and password, before; a request is let in only with an access token handed out under the current key not longer ago than its lifetime (and a minute), for an account that exists, with the roles the account has at that moment.", "quantifier": "every history of sign-ups, log-ins, refreshes, changes of name, e-mail, password and organization, administration of accounts, changes of membership and of keys", "why_tests_cant": "ranges over histories in which tokens are derived from tokens", "anchors": ["src/platform/src/auth/provider.rs: sign_up, log_in, refresh_token, make_token_pair", "src/platform/src/auth/token.rs: parse_access_token, parse_refresh_token", "src/platform/src/context.rs: from_request_parts"]}
{"id": "C110", "title": "Rights that are taken away are gone", "statement": "When an account is deleted no token lets anybody in for it any more, in any later history; when it leaves an organization its tokens lose that organization at once; when its role is changed it has the new role; only administrators make administrators.", "quantifier": "every history after the deletion, removal or change, every token ever handed out", "why_tests_cant": "ranges over everything that may happen afterwards, including new accounts", "anchors": ["src/platform/src/accounts.rs: create, update, delete", "src/metadata/src/accounts.rs: create, update, delete", "src/platform/src/context.rs: from_request_parts, check_permission"]}
{"id": "C111", "title": "A session can be renewed", "statement": "A client that holds a refresh token which has not expired gets a new pair of tokens for its account and its organization.", "quantifier": "every history, every pair of tokens, every moment", "why_tests_cant": "needs tokens that expire at different times and belong to different accounts", "anchors": ["src/platform/src/auth/provider.rs: refresh_token", "src/platform/src/http/auth.rs: refresh_token"]}
{"id": "C112", "title": "Changing a password locks others out", "statement": "After a password is changed only the new one opens the account, and whoever was in without knowing it is out; a password changes only at its owner's request with the old password, when its owner was told to set one, or by an administrator; an administrator can order a user to set a new one.", "quantifier": "every history, every account, every call", "why_tests_cant": "ranges over every call that may write an account and every token handed out", "anchors": ["src/platform/src/auth/provider.rs: update_password, set_password", "src/platform/src/accounts.rs: update", "src/metadata/src/accounts.rs: update"]}
{"id": "C113", "title": "The right password opens the account and a wrong one does not", "statement": "A log-in is let in exactly if an account has the e-mail address and the password given; no two accounts share an address; a sign-up with a password that was mistyped when repeated is refused.", "quantifier": "every history, every address, password and remembered organization", "why_tests_cant": "needs every combination of addresses, changes of address and organizations that come and go", "anchors": ["src/platform/src/auth/provider.rs: sign_up, log_in", "src/platform/src/http/auth.rs: log_in", "src/metadata/src/accounts.rs: get_by_email, create, update"]}
{"id": "C114", "title": "The server can be started again", "statement": "Whatever has been done through the API, the server can be stopped and started again.", "quantifier": "every history of metadata calls after the first start, every number of starts", "why_tests_cant": "tests start a server once, on an empty store", "anchors": ["src/cmd/src/command/server.rs: start", "src/metadata/src/accounts.rs: create, delete", "src/metadata/src/organizations.rs: create"]}
{"id": "C115", "title": "Metadata reads back what was written", "statement": "An account, organization, team, project, session, dashboard, event, property, group, backup record or set of group values that was stored is read back with the same content by every later call.", "quantifier": "every record the program can hold, every value of every field", "why_tests_cant": "tests compare a few records made with round numbers; the exact set of records that survive is a statement about all of them", "anchors": ["src/metadata/src/accounts.rs: serialize, deserialize", "src/metadata/src/organizations.rs: serialize, deserialize", "src/metadata/src/teams.rs: serialize, deserialize", "src/metadata/src/projects.rs: serialize, deserialize", "src/metadata/src/sessions.rs: serialize, deserialize", "src/metadata/src/dashboards.rs: serialize, deserialize", "src/metadata/src/events.rs: serialize, deserialize, try_attach_properties", "src/metadata/src/properties.rs: serialize, deserialize", "src/metadata/src/groups.rs: serialize_group_values, deserialize_group_values", "src/metadata/src/backups.rs: serialize, deserialize"]}
{"id": "C116", "title": "Saved reports and bookmarks hold the query that was saved", "statement": "The query of a report or bookmark that is opened is, part by part, the query that was saved.", "quantifier": "every query of either kind with any steps, filters, values, breakdowns, segments and times", "why_tests_cant": "the encoding is nested; every combination of optional parts matters", "anchors": ["src/metadata/src/reports.rs: serialize_report, deserialize_report", "src/metadata/src/bookmarks.rs: serialize, deserialize", "src/common/src/query.rs", "src/common/src/event_segmentation.rs", "src/common/src/funnel.rs"]}
{"id": "C117", "title": "The filters of a custom event are kept", "statement": "A custom event that was saved is evaluated later with the same events and the same filters, operators and values.", "quantifier": "every custom event, every filter value of every type", "why_tests_cant": "depends on the value: numbers without decimals, with decimals, absent values", "anchors": ["src/metadata/src/custom_events.rs: serialize, deserialize", "src/platform/src/lib.rs: json_value_to_scalar", "src/common/src/types.rs: DECIMAL_PRECISION, DECIMAL_SCALE"]}
{"id": "C118", "title": "Dashboards and saved reports are kept as last changed until deleted", "statement": "A dashboard or report that is created gets a number never used before in its project, is read back as the request says until it is changed or deleted, is changed only in the fields a request names, is listed exactly once while it exists and in order of creation, and no call about something else touches it; a deleted report is shown by no dashboard.", "quantifier": "every history of calls on dashboards, reports and bookmarks of any projects, every request", "why_tests_cant": "needs every interleaving of creations, changes and deletions in many projects", "anchors": ["src/metadata/src/dashboards.rs: create, get_by_id, list, update, delete", "src/metadata/src/reports.rs: create, get_by_id, list, update, delete", "src/platform/src/dashboards.rs", "src/platform/src/reports.rs"]}
{"id": "C119", "title": "A bookmark opens the query it was made of", "statement": "A bookmark that was made is opened by its maker with the query it was made of, for ever, and by nobody else.", "quantifier": "every history of calls, every account, project, query and drawn text", "why_tests_cant": "the text is drawn at random; what happens when it is drawn twice is not seen in a test", "anchors": ["src/metadata/src/bookmarks.rs: create, get_by_id, delete", "src/platform/src/bookmarks.rs: create, get"]}
{"id": "C120", "title": "Whoever has a role can open what it is a role in", "statement": "An account with a role in an organization can read it, switch to it and list its projects; an account with a role in a project can read the project.", "quantifier": "every account with any roles in any organizations and projects", "why_tests_cant": "needs every combination of roles; the tests act as administrators of the server", "anchors": ["src/common/src/rbac.rs: ORGANIZATION_PERMISSIONS, PROJECT_PERMISSIONS", "src/platform/src/context.rs: check_organization_permission, check_project_permission", "src/platform/src/organizations.rs: get_by_id", "src/platform/src/auth/provider.rs: switch_organization", "src/platform/src/projects.rs: get_by_id, list"]}
{"id": "C121", "title": "A saved report is given back as it was written", "statement": "After a report was saved, reading it, now or later, gives the request it was saved with: the same events, filters, groups of filters, exclusions, steps and values.", "quantifier": "every report request of both kinds, every history of saves, reads and deletions", "why_tests_cant": "the two conversions must undo each other on every request, with lists nested in lists; and over any number of saves", "anchors": ["src/platform/src/reports.rs: create, get_by_id", "src/platform/src/event_segmentation.rs: From conversions", "src/platform/src/funnel.rs: From conversions", "src/platform/src/lib.rs: json_value_to_scalar, scalar_to_json_value", "src/metadata/src/reports.rs: create, get_by_id"]}
{"id": "C122", "title": "A request that passes the checks does not stop the worker", "statement": "A report request is either refused with an error or turned into a query; no request that passes the checks makes the server panic.", "quantifier": "every request of both kinds and every set of known events and properties", "why_tests_cant": "needs every combination of nested optional parts, values and groups", "anchors": ["src/platform/src/event_segmentation.rs: validate_request, From conversions", "src/platform/src/funnel.rs: validate_request, From conversions", "src/platform/src/lib.rs: validate_event_property, validate_filter_property, json_value_to_scalar"]}
{"id": "C123", "title": "The query that runs is the one asked for", "statement": "The query made of a report request names the same events, filters, operations, values, steps, exclusions and breakdowns, and applies all the groups of filters that were given.", "quantifier": "every report request of both kinds", "why_tests_cant": "needs every shape of request", "anchors": ["src/platform/src/event_segmentation.rs: From conversions", "src/platform/src/funnel.rs: From conversions"]}
{"id": "C124", "title": "A filter is accepted when its operation and values suit the property", "statement": "A filter on an existing property is accepted exactly when the operation suits the type of the property and the values suit both; ordered operations suit all numbers and operations without operand need no value.", "quantifier": "every filter and every set of known properties", "why_tests_cant": "needs every operation with every type and every kind of value", "anchors": ["src/platform/src/lib.rs: validate_filter_property, validate_event_property, validate_event_filter", "src/platform/src/funnel.rs: validate_request"]}
{"id": "C125", "title": "One bad call does not stop the calls of the others", "statement": "After a track or identify call that fails in any way, the calls of other clients are answered as if the bad one had never been made.", "quantifier": "every history of track and identify calls, metadata changes and restarts", "why_tests_cant": "depends on what a panic leaves behind; the tests drive the executor directly, one call each", "anchors": ["src/ingester/src/sources/http/mod.rs: App, track, identify, attach_routes", "src/ingester/src/executor.rs: execute", "src/ingester/src/destinations/local/track.rs: send"]}
{"id": "C126", "title": "A project goes on accepting new users", "statement": "Whatever calls were accepted before, a call in order for a user or visitor not seen yet is accepted.", "quantifier": "every history of calls, metadata changes and restarts", "why_tests_cant": "needs the whole history: an accepted call may spoil a counter that only a later new user reads", "anchors": ["src/ingester/src/executor.rs: execute", "src/metadata/src/groups.rs: merge_with_anonymous, get_or_create", "src/metadata/src/index.rs: next_seq"]}
{"id": "C127", "title": "A call in order is accepted", "statement": "A track call with a valid token, one id, and values that suit the properties they name is accepted and stored, whatever was stored before.", "quantifier": "every history of metadata calls and every stored state, every call in order, at every moment", "why_tests_cant": "acceptance goes through a dozen reads of shared state, each of which may fail in some history", "anchors": ["src/ingester/src/executor.rs: execute, resolve_properties", "src/ingester/src/destinations/local/track.rs: send", "src/metadata/src/properties.rs: get_or_create", "src/metadata/src/events.rs: get_or_create", "src/metadata/src/sessions.rs: set_current_time"]}
{"id": "C128", "title": "An answer shows the figures that were computed", "statement": "The answer of a report or search has the columns of the result in order, and in every row the value that was computed: texts, truth values, times and whole numbers as they are, decimals to the nearest thousandth, nothing where there is no value; both formats hold the same data.", "quantifier": "every table of columns of every type, with missing values anywhere, both formats", "why_tests_cant": "rounding, sizes and missing values in every cell of every type", "anchors": ["src/platform/src/lib.rs: array_ref_to_json_values, scalar_to_json, columns_to_json, columns_to_json_compact", "src/platform/src/event_segmentation.rs: event_segmentation", "src/platform/src/event_records.rs: search", "src/platform/src/group_records.rs: search"]}
{"id": "C129", "title": "A funnel's answer shows each figure under its own name", "statement": "For every step and every row the answer of a funnel shows the totals, ratios, drop-offs and times computed for that step, and names the row by its breakdown values so that different rows have different names.", "quantifier": "every number of steps and rows, every figure and every breakdown value", "why_tests_cant": "the figures are found by their places among columns of two kinds; needs any number of steps", "anchors": ["src/query/src/funnel.rs: funnel, StepData", "src/platform/src/funnel.rs: funnel"]}
{"id": "C130", "title": "A refused call leaves the record usable", "statement": "After an identify call that was refused, later calls about the same user or group are answered as if the refused call had not been made: in particular one that is in order is accepted.", "quantifier": "every history of calls, metadata changes and restarts, every record, every property and value", "why_tests_cant": "the values of a refused call stay in a record that only later calls read; needs every later history", "anchors": ["src/ingester/src/executor.rs: execute, property_to_value", "src/ingester/src/destinations/local/identify.rs: send", "src/ingester/src/destinations/local/track.rs: send", "src/metadata/src/groups.rs: create_or_update", "src/platform/src/projects.rs: init_project"]}
{"id": "C131", "title": "A new project is ready for use", "statement": "Creating a project whose name is free succeeds as a whole and leaves a project its token leads to, with all standard columns of the events table and the five group tables, the standard events and text properties, the kind 'user' as kind 0, and its name shown for its number in every table. From then on, whatever history of calls, metadata changes and restarts follows - as long as it deletes or changes no event or property of the project, writes no record behind the ingester's back, sends no dates in identify calls and links no ids - every event call naming one user and known kinds of groups, with properties that fit, is accepted whatever user agent, place and campaign the ingester adds to it, and so is every identify call about a user with properties that fit. After a rename every table shows the new name.", "quantifier": "every earlier history of the metadata, every name and token, every later history, every call, every answer of the user-agent and geo libraries", "why_tests_cant": "sixty-seven creations must each go through after any earlier history, and the properties added by the ingester must be found after any later one", "anchors": ["src/platform/src/projects.rs: create, update, init_project", "src/metadata/src/util.rs: create_property, create_event", "src/ingester/src/transformers: user_agent, geo", "src/ingester/src/destinations/local/track.rs: send"]}
{"id": "C132", "title": "A search is refused or run as asked, and never stops the worker", "statement": "A search for events or groups or a request for the values of a property is either refused with an error or run, at the moment the request gives or now; what runs has the events, filters, properties, groups of filters and sorting of the request.", "quantifier": "every request of the three kinds, every set of known events and properties, every timestamp", "why_tests_cant": "needs every combination of optional parts, values, groups and timestamps; the tests send a few well-formed ones", "anchors": ["src/platform/src/event_records.rs: validate_search_request, Into conversions, search", "src/platform/src/group_records.rs: validate_search_request, Into conversions, search", "src/platform/src/properties.rs: values, validate_request, Into conversions", "src/platform/src/lib.rs: QueryParams, json_value_to_scalar"]}
{"id": "C133", "title": "The table of an event report has the columns and rows asked for", "statement": "The table of an event report begins with the columns Event, Segment, one for each property it is broken down by, and Formula, each under a title of its own, and goes on with the average and the times. Its rows are those of the events in order; every row stands under the name of its event and of its metric, a metric that the user named under that name, and every value under the title of its column.", "quantifier": "every set of events with their tables, every list of breakdowns, every display name, every list of metrics", "why_tests_cant": "a title can collide with any other title or column, in any order; the tests break down by a few properties with distinct names", "anchors": ["src/query/src/event_segmentation.rs: LogicalPlanBuilder::build, build_event_logical_plan", "src/query/src/physical_plan/reorder_columns.rs", "src/query/src/physical_plan/rename_columns.rs", "src/query/src/physical_plan/add_string_column.rs", "src/query/src/physical_plan/rename_column_rows.rs", "src/query/src/lib.rs: execute", "src/common/src/event_segmentation.rs: Query::name, initial_name"]}
{"id": "C134", "title": "A refused account request says why, and changes nothing", "statement": "An account request (sign-up, log-in, renewal, profile, organization switch, administration of accounts) is refused exactly when there is a reason: 400 with the field for an address, name, password or body that cannot be taken, 401 for a missing, unknown or expired token and for wrong credentials, 403 for a call the account may not make, 404 for something that does not exist, 409 for an address in use. A refused request changes nothing on the server or in the browser; every other is carried out and answered 200 or 201; no request is answered with a server error; a failed log-in does not tell whether the address has an account; the browser's cookie is always the refresh token that goes with the access token just sent.", "quantifier": "every history of account calls, membership changes and key changes, every request, every token presented, every body, every cookie", "why_tests_cant": "the order of the checks decides the status; needs every combination of reasons at every moment of every history", "anchors": ["src/platform/src/error.rs: PlatformError, into_api_error", "src/platform/src/auth/provider.rs: Auth", "src/platform/src/accounts.rs: Accounts", "src/platform/src/context.rs: from_request_parts", "src/platform/src/http/auth.rs: handlers, set_refresh_token_cookie", "src/platform/src/http/accounts.rs: handlers", "src/common/src/http.rs: Json, ApiError"]}
{"id": "C135", "title": "An aggregated property shows the aggregate of its values, whatever number type the property has", "statement": "Whatever the type of a property - whole numbers of 8 to 64 bits, decimals or fractions - a report of the sum, minimum, maximum, average or number of its values, directly or first per user and then over the users, and of the number of events per user, shows that aggregate of the values the events have, on every number of workers: no value is cut off, scaled twice or left unscaled on its way through the machine types the server chooses. A report the server cannot compute is refused.", "quantifier": "every property type, every pair of functions, every list of values and users on every number of workers", "why_tests_cant": "two tables with hundreds of combinations of column, per-user and result types, each with its own multiplier; the tests run a few of them on small values", "anchors": ["src/query/src/physical_plan/planner/partitioned_aggregate.rs: build_partitioned_aggregate_partial_expr, get_return_type, build_partitioned_aggregate_final_expr", "src/query/src/logical_plan/partitioned_aggregate.rs: return_type, field", "src/query/src/physical_plan/expressions/aggregate: Aggregate, partitioned::aggregate::Aggregate, partitioned::count::PartitionedCount", "src/query/src/physical_plan/segmented_aggregate.rs: combine_results", "src/query/src/physical_plan/unpivot.rs: unpivot"]}
{"id": "C136", "title": "The status of a track or identify call tells whether it was carried out, and why not", "statement": "A track call that is carried out is answered 201 and an identify call 204, and no other call is. A call that is not carried out is answered with a status that says whose mistake it was: 400 for a body that cannot be read, a call that names nobody, a value or a kind of groups that cannot be taken; 404 for an unknown token; never a server error, and always something. A refused call leaves nothing behind.", "quantifier": "every history of calls and metadata operations, every request and body, every property list", "why_tests_cant": "the status depends on which of a dozen fallible steps fails first, on what is already registered and on whether an earlier call broke off", "anchors": ["src/ingester/src/error.rs: IngesterError, into_response", "src/ingester/src/sources/http/mod.rs: track, identify, App", "src/ingester/src/executor.rs: Executor::execute", "src/ingester/src/transformers", "src/ingester/src/destinations/local"]}
{"id": "C137", "title": "The text of a time names its moment, in requests, replies and saved queries", "statement": "A time written by the server (in a reply, or in a saved query) is a date, time of day and Z that name the moment, whatever year it is in, and reads back as the same moment. A time in a request that is a date of the calendar, a time of day with up to nine digits of a fraction, and Z or an offset is taken for the moment it names; a text of this form that names no date or time of day is refused.", "quantifier": "every moment of the years -262143 to 262142, every text", "why_tests_cant": "leap years, years before 0 and after 9999, fractions of every length and offsets that change the date; the tests use a few texts of the years 2020 to 2022", "anchors": ["src/common/src/query.rs: QueryTime, SegmentTime", "src/metadata/src/reports.rs: serialize_report, deserialize_report", "src/metadata/src/bookmarks.rs: serialize, deserialize", "src/platform/src/lib.rs: QueryTime"]}
{"id": "C138", "title": "A request about dashboards, reports or bookmarks is carried out for those who may make it, and otherwise says why not", "statement": "A request to make, open, list, change or delete a dashboard, saved report or bookmark is refused exactly when there is a reason: 401 without a good access token, 404 if the account behind it is gone, 400 for a body that cannot be read, 403 without a role in the project (for changes: with no more than a reader's), 404 for something that does not exist. It then changes nothing, and to somebody without the role the answer is the same whatever is stored. Every other request is carried out and answered 201 if it makes something and 200 otherwise, with what was asked for; what is made belongs to the caller for good. Dashboards and reports of a project change only by requests of people with more than a reader's role there, bookmarks only by their makers.", "quantifier": "every history of account calls, role and key changes and such requests, every request, token, body, project, record", "why_tests_cant": "the answer depends on the token, the roles, the body and everything stored before, in that order; needs every combination at every moment of every history", "anchors": ["src/platform/src/dashboards.rs: Dashboards", "src/platform/src/reports.rs: Reports", "src/platform/src/bookmarks.rs: Bookmarks", "src/platform/src/http/dashboards.rs: handlers", "src/platform/src/http/reports.rs: handlers", "src/platform/src/http/bookmarks.rs: handlers", "src/platform/src/context.rs: Context", "src/metadata/src/dashboards.rs: Dashboards", "src/metadata/src/reports.rs: Reports", "src/metadata/src/bookmarks.rs: Bookmarks"]}
{"id": "C139", "title": "A log that was damaged on disk is noticed, not shown", "statement": "If bytes of a table's log change on disk after they were written, opening the table either fails or shows exactly the inserts that were written: no change is silently taken for data, and no insert is silently lost.", "quantifier": "every log, every record, every place and content of the change", "why_tests_cant": "every byte of every record can change to every other; tests try one changed byte at most", "anchors": ["src/storage/src/db.rs: hash_crc32, log_op, try_recover_table, recover_op"]}
{"id": "C140", "title": "A request about the events of a project is carried out for those who may make it, and otherwise says why not", "statement": "A request to make, open (by number or name), list, rename or delete an event of a project, or to attach or detach one of its properties, is refused exactly when there is a reason: 401 without a good access token, 404 if the account behind it is gone, 400 for a body that cannot be read, 403 without the role (a reader's to look, a member's to change, an owner's to delete), 404 for an event that does not exist, 409 for a name or display name another event of the project has. A refused request changes nothing, and to somebody without the role the answer is the same whatever is stored. Every other request is carried out, answered 201 if it makes an event and 200 otherwise, with what was asked for, stays visible, and leaves all other events as they were.", "quantifier": "every history of account calls, role and key changes, tracked events, other metadata calls and such requests; every request, token, body, project, event", "why_tests_cant": "the answer depends on the token, the roles, the body and everything stored before, in that order; needs every combination at every moment of every history", "anchors": ["src/platform/src/events.rs: Events", "src/platform/src/http/events.rs: handlers", "src/platform/src/context.rs: Context", "src/platform/src/error.rs: into_api_error", "src/metadata/src/events.rs: Events"]}
{"id": "C141", "title": "A request about the properties of events or groups is carried out for those who may make it, and otherwise says why not", "statement": "A request to open a property of a project's events or of one of its kinds of groups (by number or name), to list them, to change the display name of one or to delete one is refused exactly when there is a reason: 401 without a good access token, 404 if the account behind it is gone, 400 for a body that cannot be read, 403 without the role (a reader's to look, a member's to change, an owner's to delete), 404 for a property that does not exist, 409 for a display name another property of the kind has. A refused request changes nothing, and to somebody without the role the answer is the same whatever is stored. Every other request is answered 200 with the property asked for, stays visible, and leaves all other properties as they were.", "quantifier": "every history of account calls, role and key changes, tracked events, other metadata calls and such requests; every request, token, body, project, kind, property", "why_tests_cant": "the answer depends on the token, the roles, the body and everything stored before, in that order; needs every combination at every moment of every history", "anchors": ["src/platform/src/properties.rs: Properties", "src/platform/src/http/properties.rs: handlers, attach_group_routes, attach_event_routes", "src/platform/src/context.rs: Context", "src/platform/src/error.rs: into_api_error", "src/metadata/src/properties.rs: Properties"]}
{"id": "C142", "title": "A custom event can be made of any existing events up to three levels deep", "statement": "Making a custom event, or giving one new parts, is accepted exactly when there is at least one part, every event and custom event it is made of, directly or through others, exists in the project, custom events are nested at most three levels deep, it is not made of itself, and its name is not that of another custom event.", "quantifier": "every history of metadata operations, every name, every list of parts", "why_tests_cant": "the check walks the whole graph of custom events; what it refuses depends on every shape the graph can have", "anchors": ["src/metadata/src/custom_events.rs: validate_events, create, update", "src/platform/src/custom_events.rs: create, update"]}
{"id": "C143", "title": "A project can be named freely, and deleting it removes it", "statement": "A project is made or renamed unless a project of the same organization has the name or token already; otherwise nothing changes. A deleted project is found neither by its number nor by its token, its name and token are free again, its events and other contents are gone, and the other projects stay as they are.", "quantifier": "every history of metadata operations, every organization, name and token", "why_tests_cant": "names and tokens of all projects of all organizations share one index; what is free depends on every earlier creation, renaming and deletion", "anchors": ["src/metadata/src/projects.rs: create, update, delete, get_by_token", "src/platform/src/projects.rs: create, update, delete"]}
