# Formal model of optiprism in Rocq - design

Source read: `/repo` (Rust). Prover: Coq 8.16.1 with its standard library only.

## Approach

* Every modelled function is a small total Gallina function with a comment citing file and lines.
* Panics and errors are explicit values; machine integers are modelled with explicit wrap-around only
  where the property depends on it, otherwise `N`/`Z`.
* Unspecified library behaviour (unstable sort, heap ties, hash functions, file names, compression) is
  universally quantified: theorems hold for every function or permutation meeting the library's
  documented contract, and each contract is shown to be satisfiable by an instance.
* Models are in files without proofs; facts about them in `*Facts.v`; small specifications in `*Spec.v`;
  the property theorems, each named `C<nn>_...`, in `Props*.v`, followed by `Print Assumptions` and by
  `Example ..._witness` showing a concrete case that meets the hypotheses.
* When the code violates the property as a user would state it, the full statement is refuted
  (`..._refuted`, preferably for all inputs of a class) and the strongest true part is proved as `..._partial`.
* `tools/mutate.py` edits a copy of the model as a bug would, rebuilds and lists the theorems that fail;
  results are in `seeded/LOG.jsonl`.

## Trusted base

* Coq's kernel (8.16.1), including its conversion and `vm_compute` (used in examples only to evaluate
  closed terms).
* `Print Assumptions` says "Closed under the global context" for **every** property theorem: no axiom is used,
  neither of ours nor of a library. `ASSUMPTIONS.md` (written by `tools/assumptions.py`) lists the answer per theorem.
* A listing of the environment shows seven module parameters of Coq's own `Coq.ssr.ssrunder` (`Under_rel`,
  `Over_rel`, `Under_relE`, `Under_rel_from_rel`, `over_rel`, `over_rel_done`, `under_rel_done`). They come with
  loading a part of Coq's distribution; no theorem depends on them.
* That the model matches the code. This rests on reading: every definition cites the lines it models. The
  simplifications are listed under Scope and in the comments.

## Scope

Modelled (all under `rocq/theories`):

| Code | Model |
| --- | --- |
| `src/storage`: log records, bincode, crc framing, replay | `Bytes`, `Value`, `Log` |
| memtable, chunks, dedupe of replacing tables | `Memtable` |
| tables: create, insert, flush, recovery, crash points, gc, add_field, restart | `Table` |
| table metadata encoding (prost, varints) | `Proto`, `MdCodec` |
| files in use, vfs counters, collectors | `Fs` |
| backup and restore streams | `Backup` |
| merge of sorted streams, scans, projections | `Merge`, `Scan` |
| point lookups, `get_cas`/`replace` and the version cache | `Get`, `Cas` |
| insert, flush, scan, add_field as interleaved threads | `Conc` |
| compaction: selection, merge, move, publication, crash points | `Compact` |
| page-by-page merge of part files (`parquet_merger.rs`, `merge_data_arrays.rs`) | `PageMerge` |
| `src/metadata`: key-value layout, sequences, dictionaries, events, properties, groups, sessions, accounts, organizations, projects, teams, custom events | `Kv`, `KvKeys`, `Md`, `MdOps`, `MdProps`, `SeqRace` |
| stored form of accounts, organizations, teams, projects, sessions, dashboards, events, properties, groups, backups, custom events, reports, bookmarks | `RecCodec` (what is read back: `RecSpec`) |
| bincode form of saved queries | `SavedQuery` |
| calls on dashboards, saved reports and bookmarks | `Boards` |
| server settings and the requests that change them | `Settings` |
| backup records, scheduler rounds, crash points of a backup, restart | `BackupJobs` |
| accounts, passwords, tokens, request contexts, the authentication API, administration of accounts | `Auth` |
| errors and statuses of the account API, its handlers and cookie | `AuthStatus` |
| the API of dashboards, reports and bookmarks: token, body, permission, statuses | `BoardCalls` |
| the API of the events of a project: token, body, permission, statuses | `EventCalls` |
| the API of the properties of events and groups: token, body, permission, statuses | `PropCalls` |
| account and organization created at the start of the server | `Start` |
| `src/platform`: permission checks | `Access` |
| `src/ingester`, sources: identify, track, group transformers and destinations | `Ingest` |
| `src/ingester`: errors, statuses and handlers of the HTTP source | `IngestStatus` |
| `src/common/src/query.rs`: ranges, truncation, time columns | `Calendar` |
| texts of times (chrono's serde form, used in requests, replies and saved queries) | `TimeText` |
| `src/query`: filters and custom events | `Filter` |
| counts, aggregates, per-user aggregates, partial/final combination | `Aggregate`, `Report` |
| behavioural segments | `Segment` |
| funnels, the columns of a report and the combination of workers | `Funnel`, `FunnelRatio` |
| unpivot, pivot, average and sort, limit, merge of reports, compact format | `Shape` |
| event and group search, lookup by number, values of a property, filter groups of requests | `Records` |
| `src/platform`: report requests, their checks and conversions | `Requests`, `RequestsSpec` |
| `src/platform/src/projects.rs`: creation, renaming and furnishing of projects; property lists of the user-agent, geo and campaign transformers | `NewProject` |
| `src/ingester/src/sources/http/mod.rs`: the locks around the two executors | `IngestServer` |
| order, titles and row names of an event report's table (`src/query/src/event_segmentation.rs` 299-453 and 698-713, the plan nodes `add_string_column`, `reorder_columns`, `rename_columns`, `rename_column_rows`, `src/query/src/lib.rs` `execute`) | `ReportTable` |
| requests for searches and property values (`src/platform/src/event_records.rs`, `group_records.rs`, `properties.rs`) | `SearchRequests` |
| answers of reports, searches and funnels (`src/platform/src/lib.rs`, `src/query/src/funnel.rs`) | `Answers` |
| the machine number types of aggregated properties (`src/query/src/physical_plan/planner/partitioned_aggregate.rs`, the multipliers in `physical_plan/expressions/aggregate`, declared types in `logical_plan/partitioned_aggregate.rs`, `unpivot.rs` 439-458) | `Numbers` (floats are rationals) |

Assumed or simplified:

* A crash is a crash of the process: writes reach the disk in program order. Loss of unsynced pages is not modelled.
* parquet files are the rows and statistics they hold; the page-level merge of `parquet_merger.rs` enters
  compaction as a function meeting `merge_contract` (shown to hold of the modelled page merge, C102); zlib and the table list's bincode enter backup as a codec contract.
* Floats and decimals in aggregates are exact rationals; overflow of counters is not modelled unless a
  theorem is about it. Decimals in `Shape` are integers in units of 10^-16.
* DataFusion: evaluation of comparison, logical and `LIKE` expressions with SQL nulls (`Filter`), row hashing as a
  fold that skips nulls (`Shape.create_hash`, datafusion 39), hash map iteration order arbitrary or not observed.
* chrono and chronoutil: proleptic Gregorian calendar; `DateRule` steps as documented; leap seconds and year limits absent.
* RocksDB: an ordered map of byte strings; transactions as in `SeqRace` where concurrency matters.
* Scheduling: steps between lock operations are atomic (`Conc`); memory-model effects are not modelled.

Not modelled: HTTP layer (but for the statuses and the cookie of account calls, `AuthStatus`, of track and identify calls, `IngestStatus`, of calls about dashboards, reports and bookmarks, `BoardCalls`, about events, `EventCalls`, and about properties, `PropCalls`), the cryptography of tokens and passwords (symbolic in `Auth`), geoip and user-agent lookup, the demo
generator, the JavaScript client, query text formatting, metrics, S3/GCS transfer of backups.

## Findings

Each is a `..._refuted` theorem; the note in `MANIFEST.json` gives the condition under which the property does hold.

* Storage: a torn last record makes a table unopenable (C03); replay after adding a column shifts values (C05);
  three crash points in a flush lose or duplicate rows (C08); flush or scan at the wrong moment loses sight of rows (C09, C10);
  point lookups read only the first part or row group whose range fits (C12); replacing tables need exactly two keys and a
  stable sort (C14), and their scans mix rows (C16, C73); compaction selects parts twice, moves parts under scans and can leave
  a table unreadable after a crash (C17, C87, C88); failed restores empty the database and block later ones (C21, C70);
  projection order (C63, C74); optimistic replace accepts stale versions after ten other reads or a restart (C24).
* Compaction of replacing tables: records of a project are dropped, values shift between rows, files are not sorted (C103);
  keys that are not 64-bit integers or timestamps make the merge panic (C102).
* Metadata: duplicate ids under concurrency (C26); slashes in names (C29); renamed events keep their old dictionary entry (C31);
  too deep custom events after an update (C32); visitor merges damage the group sequence (C33); membership after deletion (C35);
  project names work as tokens (C37); teams are listed only up to the first (C39); column clashes (C40).
* Stored records: the property lists of events are never stored, so attaching properties has no effect; times lose their fraction of
  a second after the call that made them; properties of list types, and group values that are absent or lists, make the server
  panic when they are written (C115); a number in a filter of a custom event comes back divided by 10^16 (C117).
* Dashboards and reports: lists are in decimal text order of numbers (1, 10, 2), the type in a change of a report is dropped so type and
  query can disagree, dashboards keep panels of deleted reports (C118); a bookmark text drawn twice replaces the first (C119).
* Roles: only owners can open an organization or a project; organization administrators cannot switch to their organization, and a
  project administrator can change a project but not read it (C120).
* Report requests: exclusion steps sink by one each time a report is saved, groups of filters after the first and their conditions are
  dropped without an error (C121, C123); empty lists of groups, nulls, unknown groups and eleven of the sixteen aggregates stop the worker
  although or while they are checked (C122); ordered filters on 32 bit numbers are refused (C124).
* Settings and backups: the start hour of the schedule is always stored as 0, and requests cannot change the schedule or give a
  Google Cloud key (C104, C105); a failed dump is shown as completed, S3 backups store nothing, two backups of an hour share a
  file (C106); from ten backups on every round of a scheduled minute starts another, S3 or a start hour above 23 stops the scheduler (C107); an
  interrupted upload is shown as uploading for ever (C108). Also: the local path setting is ignored, and an upload goes to
  the bucket of the current settings, not of the record.
* Access: owners and administrators of any organization pass the check for every project (C42).
* Ingest: mistakes of the caller answered with server errors or not at all, properties of refused calls stay (C136); scale of numbers (C64), time of session rows (C65), swapped arguments when linking (C66), dictionaries of other
  groups (C67), dates (C75), traces of rejected calls (C76).
* Queries: month and year buckets of funnels (C46), batch-dependent funnels (C48-C51), averages over workers (C55), zero-match
  segments and combined conditions (C56, C57, C80, C81), negation, patterns and unseen texts (C58, C59, C82, C83), missing
  values and rows without user (C78, C79), limits, pivots and merges of reports (C60-C62), compact format (C90),
  searches, lookups, filter groups and value lists (C91-C96), funnel ratios on several workers (C98), average
  times (C99), events of other projects in funnels (C100), yearly and session windows (C101).
* Accounts: the role of an account never changes (C110); refresh tokens need a living access token and mix accounts with
  organizations (C111); changing a password leaves old tokens alive, and the order to set a new one is ignored (C112);
  a remembered organization that is gone refuses every log-in, sign-up ignores the repeated password (C113); after
  account 1 is deleted the server cannot be started twice (C114).
* Saved requests and reports: values and groups of filters are lost or drift on every save (C121), accepted requests
  that panic (C122), only the first group of filters is applied (C123), ordered operations refused on some numbers (C124);
  numbers in filters of custom events change when saved (C117); a second bookmark with the same text replaces the first (C119).
* Ingest server: a call that panics poisons the lock shared by all clients of all projects, so no later call of that kind
  is answered until a restart (C125); one accepted call with both ids spoils the counter of users of its project for good,
  so no new user or visitor is ever accepted again and each such call panics (C126).
* Answers: a missing number is answered as 0, large sums panic (C128); in funnels different breakdown values share a
  name, and a step that begins with a custom event panics after the whole query has run (C129).
* Ingest: a refused identify call with a date spoils the record for good (C130).
* Searches: an empty list of groups, a null, a sixth group or a far timestamp stops the worker, a release build takes
  timestamps beyond all dates for ordinary ones, and the sorting of a group search is dropped (C132).
* Queries: an excluded event of another user on the same worker cancels an attempt of a funnel (C97).
* A property whose display name is "Event", "Segment", "Formula", "Average" or the title of a time column makes every report broken down
  by it fail, as do two properties titled "X" next to one titled "X 2", a breakdown by the time of the event and one by the event;
  the name a user gives to a metric is ignored, and different metrics can be shown under one name (C133).
* **Statuses of account calls (C134).** A token that outlives its account is answered 404 by every call, so a client cannot tell it must sign in again; a right password is answered 404 in a browser that remembers an organization which was deleted; changing one's address to one in use is 400, while the four other calls that meet a taken address answer 409; a stale refresh_token cookie hides a good token in the body of a renewal.
* **Number types of aggregated properties (C135).** The multipliers of all 55 direct and 275 per-user combinations of types and functions are right. But sums of 64-bit integers are kept as 128-bit integers counting 10^-16 and wrap: two thousand events with the largest value show a negative sum and no error (the release profile checks no overflow). A text property with a dictionary may be summed and averaged: the report uses the numbers of the dictionary. A property that is not a number may not even be counted: the direct count is refused, the sum of texts and every per-user report of such a property stop the worker at `unimplemented!`; the request validation does not look at the type.
* Log: the length of a record is not covered by its checksum; one changed byte of a length can make recovery read the following records as the end of the first and lose them without an error (C139).
* **C140: an event cannot be opened by its name, and attached properties are lost.** The handler of a look-up by name (platform/src/http/events.rs 38-47) takes the two parts of its address as two addresses of one part each, which axum answers with 500 whoever asks and whatever is stored (`C140_by_name_refuted`). Attaching a property to an event is answered 200 with the property, but events are stored without their lists of properties: the next look shows none, attaching again is answered 200 again, and detaching is answered 404 always (`C140_attached_lost_refuted`).
* **C141: a property of a kind of groups cannot be opened by its number.** The address is .../group-properties/:group_id/:prop_id, but the handler (platform/src/http/properties.rs 29-39) takes the parts as project, property, group: asked for property i of groups of kind g it shows property g of groups of kind i, whatever is stored, and from i = 5 on it indexes past the five providers and the request is not answered (`C141_group_property_refuted`). Requests for a kind of groups from 5 on end the same way, before the role is checked.
* **C142: custom events cannot share parts.** The check for cycles (metadata/src/custom_events.rs 97-106) remembers every custom event it has met and refuses the second meeting, also where there is no cycle: with B made of A, a new custom event of B and A is refused with "custom event already exist" (`C142_shared_refuted`).
* **C143: names of projects are shared by all organizations, and the contents of a deleted project stay.** The index of project names (metadata/src/projects.rs 34-44) does not contain the organization: an organization is refused a name because of a project its members cannot see (`C143_own_names_refuted`). Deleting a project removes its record and index entries only (187-196); its events, properties and dictionaries stay in the store and are answered by number (`C143_contents_kept_refuted`).

## Plan per property

* **C01 Write-ahead log record round trip** - bytes as `list N`; bincode 1.x layout of `LogOp` written as encoder/decoder; round trip by induction on the value.
* **C02 Reopening replays every complete log record in order** - log file = concatenation of frames (crc, length, payload); recovery loop as a fuelled parser whose fuel is the file length; induction on the list of records. crc is an arbitrary function.
* **C03 A torn last log record costs at most the unfinished insert** - same parser, applied to every strict prefix. Expected to be refuted (open fails); prove that nothing is invented.
* **C04 Columnar memtable is a faithful list of rows** - memtable as list of columns, refinement to list of rows, induction over operations.
* **C05 A reopened table holds the same unflushed rows** - recovery re-plays logged rows into a memtable with the current schema; refuted when a column was added between inserts, proved for fixed schema.
* **C06 Flush preserves table contents** - table state = levels of parts + memtable; multiset of rows before/after flush.
* **C07 Acknowledged inserts survive restarts** - state machine over disk (metadata, logs, parts) and memory; invariant by induction over operation lists.
* **C08 A crash during a flush neither loses nor duplicates rows** - flush split into file-system effects, crash after any prefix; refuted at named points, proved safe at the others.
* **C09 Concurrent inserts and flushes lose no acknowledged row** - threads as program counters over lock-protected steps, invariant over arbitrary schedules.
* **C10 Acknowledged inserts are durable under concurrency** - same machine plus crash; refuted by a schedule.
* **C11 In-memory lookup returns the last write for a key** - `Memtable::get` as fold; equals last matching row.
* **C12 Point lookup finds every stored key and its newest version** - `get` over levels/parts/row groups; refuted by layout, proved for the memory path and non-overlapping layouts.
* **C13 Writing a part sorts but does not change rows** - chunk with an arbitrary sorting permutation (sort is an oracle constrained by its contract).
* **C14 Replacing tables keep exactly one row per key, the newest** - run-dedupe; one row per key proved for two index columns; newest refuted for unstable sort; other column counts refuted.
* **C15 Scans over many parts merge rows without mixing them** - k-way merge as relation over heap pops with arbitrary ties, payload through cursors.
* **C16 Scans of replacing tables return whole rows, one per key** - same with -1 entries; refuted by example.
* **C17 Compaction preserves table contents** - compaction functions on levels; refuted (duplicated input part, dangling part), partial theorem for the merge itself and for the metadata update.
* **C18 Part identifiers are never reused** - id allocation by per-level counters, invariant.
* **C19 Files in use are never deleted** - reference-count map, invariant over operation lists.
* **C20 Restore of a backup reproduces the database** - byte-level writer and reader of the backup stream.
* **C21 A damaged backup leaves the database unchanged** - reader on damaged stream; refuted.
* **C22 Table metadata survives serialization** - metadata <-> protobuf message level; machine integers by explicit wrap-around.
* **C23 Rejected inserts have no effect** - validation and row construction of insert as a total function with explicit errors.
* **C24 Optimistic replace detects concurrent change** - LRU cache of 10 versions; state machine.
* **C25 Sequence numbers are unique and increasing** - map from sequence key to counter.
* **C26 Sequence numbers are unique under concurrency** - two-transaction interleaving model; refuted.
* **C27 Dictionary encoding is a stable bijection** - key-value store model of dictionaries; invariant.
* **C28 Dictionaries of different projects, tables and columns are independent** - string keys with decimal printing; injectivity.
* **C29 Storage keys of different projects and entity kinds never collide** - string keys with decimal printing; injectivity and prefix-freeness.
* **C30 Unique names stay unique and lookups by name stay consistent** - event store with name index; invariant over operations.
* **C31 Event name dictionary follows renames** - refuted: rename does not touch the dictionary.
* **C32 Custom events are never cyclic and nest at most three levels** - reference graph of custom events; ranking invariant for creation; refuted for update if the faithful model allows it.
* **C33 A group value keeps one identifier** - group value store; proved without anonymous merge, refuted with it.
* **C34 At most GROUPS_COUNT group types exist per project** - group-name store with counter; invariant.
* **C35 Accounts and organizations agree on membership** - accounts and organizations as two maps; invariant, refuted when deletion is included.
* **C36 E-mail addresses identify accounts uniquely** - account store with e-mail index; invariant.
* **C37 Only the project token gives ingest access** - project store with shared name/token index; refuted.
* **C38 A session is open exactly between its first event and its expiry** - session map; invariant.
* **C39 Listing returns every entity of its namespace** - list loops over sorted key space; `teams` refuted.
* **C40 Property columns are distinct** - column names as strings; injectivity from counters; refuted for system/user properties with clashing normalised names if applicable.
* **C41 Access is denied unless a role grants it** - decision functions over roles and permissions; exhaustive case analysis.
* **C42 Members of one organization cannot touch another organization's projects** - project operations with tenant; refuted, partial.
* **C43 Project listing shows only the caller's organization** - list filter.
* **C44 Truncating a time yields the start of its interval** - proleptic Gregorian calendar over Z; date_trunc.
* **C45 Time columns cover the requested range** - time_columns loop.
* **C46 Funnel report has a bucket for every event time** - bucket list of funnel; proved for hour/day/week; refuted for month/year.
* **C47 Funnel step counts never increase** - funnel evaluate loop as fold over rows; invariant over results.
* **C48 Funnel results do not depend on batch boundaries** - evaluate over batches = evaluate over concatenation (non-unique).
* **C49 Funnel counts what the definition says** - refinement of the fold to a per-user greedy specification.
* **C50 Unique funnels count each user once** - refuted by an event stream.
* **C51 Excluded events invalidate a funnel attempt** - refuted by an event stream; partial.
* **C52 Event counts equal the number of matching rows** - count fold; equals filter length; append homomorphism.
* **C53 Unique counts equal the number of distinct users with a matching event** - partitioned count fold; refuted for phantom partition with filter; proved without filter.
* **C54 Sums, minima, maxima and averages are those of the rows** - aggregate accumulator; fold = spec.
* **C55 A report with several metrics equals the single-metric reports** - partial/final combine; sum/count proved, avg and zero-filled min refuted.
* **C56 A behavioural segment contains exactly the users meeting the condition** - segment count fold; specification per user; refuted for zero matches.
* **C57 Combined segment conditions are intersections and unions** - positional zip; refuted; proved for aligned lists.
* **C58 Property filters mean what they say** - boolean semantics of the produced expression.
* **C59 Custom events match exactly their definition** - expression built recursively vs recursive matching relation; u16 truncation refuted.
* **C60 Group limit keeps the first rows of every group value** - row loop with counters; bound proved, completeness refuted.
* **C61 Turning columns into rows and back loses nothing** - row-major loops; exact specification and round trip.
* **C62 Combined event reports keep every row under its event name** - stream concatenation with labels.
* **C63 Scan projection returns the requested columns** - projection by membership vs request order; refuted, proved for ascending duplicate-free requests.
* **C64 Numeric property values are stored exactly** - decimal = mantissa and scale; refuted, partial for full-scale decimals.
* **C65 Tracking an event stores it once with its own time** - track destination; refuted on units, row count proved.
* **C66 Linking an anonymous visitor to a user unifies their events** - anonymous/user map; refuted by swapped arguments.
* **C67 String properties of groups decode to what was sent** - dictionary table name per group; refuted, proved for the user group.
* **C68 Any table definition can be flushed and scanned** - key types and counts of the merge and dedupe functions; refuted for string keys and odd key counts, proved for integer and timestamp keys.
* **C69 Superseded files are eventually deleted** - reference counts over open/close/drop histories; refuted for compaction outputs and abandoned scans, proved for flushed parts.
* **C70 A failed restore can be repeated** - directory creation in restore; refuted.
* **C71 Only one collector decides about deletion** - two collectors with their own counters after a restore; refuted; proved for one.
* **C72 A scan that ends has returned everything** - merge of unsupported key types; refuted there, proved otherwise.
* **C73 Splitting output into slices does not change it** - slice length as parameter; refuted for replacing tables, proved for append-only tables.
* **C74 Narrow projections can be scanned** - key columns inside and outside of the projection.
* **C75 Every value type accepted by the API is stored** - value conversion of ingestion; dates refuted.
* **C76 A rejected call leaves no trace** - effects before the failing step of a call; refuted except for rows.
* **C77, C78, C79 Per-user aggregates** - two-level fold over users; proved, refuted for missing values and rows without user.
* **C80 Segment conditions can be planned** - planner stops; refuted.
* **C81 First row's user in segments** - exact set returned; refuted for one user.
* **C82, C83 Filters on unseen texts and on dictionary order** - refuted, with the exact meaning given.
* **C84, C85 Events carry stored user values, versions grow** - histories of ingest calls.
* **C86 Adding a column while inserts run** - interleaving of add_field with insert; refuted for overlap.
* **C87, C88 Crashes during compaction, completion of a pass** - file operations after publication; every crash point.
* **C89 Report rows carry their average and come largest first** - sort as an oracle meeting its contract.
* **C90 The compact format answers the same reports** - chain of the stages that the compact format keeps; refuted.
* **C91, C92 Event and group search** - expression built from the request, rows of the table as functions of columns; selection, order and limit stated on the rows; refuted for request filters, forgotten events, projections and time ranges.
* **C93 Search without a property list** - labels by position; refuted, partial for aligned property lists.
* **C94 Lookup by number** - value of the first row, blank for absent; refuted, partial for complete records.
* **C95 Filter groups of a request** - meaning of nested groups against what reaches the query; refuted, partial for one group.
* **C96 Values of a property** - group by, filter, sort, limit; refuted for dictionary filters.
* **C97 Funnel counts over workers** - each worker's lines by C49, summed by key; attempts of disjoint users add up.
* **C98, C99 Ratios and averages** - floating point expressions as parameters with a closeness contract; partial for one worker, refuted for several and for averages.
* **C100 Project of a funnel** - rows chosen by the plan; refuted by moving events between projects.
* **C101 Funnel window** - lengths of units; refuted for years and sessions.
* **C102 Page merge of append-only tables** - chunks, heap, batches and data cursors as functions; invariant: what each stream still holds plus what was written is the input, and data cursors stand at the rows the key merge has passed; discharges the merge contract of C17.
* **C103 Page merge of replacing tables** - same functions with dropped rows; refuted.
* **C104 Settings kept** - protobuf fields as in `MdCodec`; round trip; the start hour refuted; what starts and the first password change.
* **C105 Settings requests** - merge of optional fields into the stored settings; proved for the fields read, refuted for the ignored ones over all histories; answers of two servers that differ in secrets only are equal.
* **C106 Completed backups** - a round is a list of effects on records and files, a crash cuts it anywhere; invariant: a completed record has its archive stored; refuted for failed dumps, S3 and equal hours; temporary files.
* **C107 Schedule** - the test of the minute against the calendar of `CalendarSpec`; the last record in byte order of keys; proved up to nine records with a monotone clock, refuted beyond, for S3 and for hours above 23.
* **C108 Unfinished backups** - a round touches one record and finishes it; restart maps every record; uploading refuted.
* **C109 Tokens** - server state with the list of all tokens handed out; induction over histories: each new pair comes from a sign-up, a log-in or an earlier token; contexts read the current record.
* **C110 Revocation** - invariant of the account store (numbers never reused, addresses indexed); roles refuted by showing that no call changes them.
* **C111 Renewal** - the handler's context check first; refuted for expired access tokens and mixed pairs.
* **C112 Passwords** - each call's request to the account store; old tokens refuted by framing.
* **C113 Log-in** - index of addresses by the same invariant; the organization is one of the account's, or none; refuted for remembered organizations, unusable addresses and repeated passwords.
* **C114 Restart** - start as two metadata calls on the store of `Md`; account 1 kept by every other call; refuted after its deletion.
* **C115 Records** - `RecCodec` writes and reads every message field by field over `Proto`; `RecSpec` says what is read back without the encoding; round trip by the occurrences of each field.
* **C116 Saved queries** - bincode form of every type of `common/src/query.rs`, `event_segmentation.rs`, `funnel.rs` (`SavedQuery`), round trip with the texts of C137; kept over histories of calls (`PropsSavedTimes`).
* **C117 Filters of custom events** - same codec; numbers refuted by comparing digits and scales.
* **C118 Dashboards and reports** - generic create/get/list/update/delete over the stored bytes (`Boards`); invariant: every data key holds bytes that read back to a record with its number and project, at most the counter; round trips of C115/C116.
* **C119 Bookmarks** - same store; refuted when a text is drawn twice.
* **C120 Opening by role** - the table of all calls and the lowest role each needs (C41); refuted below owners.
* **C121 Saved requests** - the two directions of the request conversions (`Requests`) composed with the store of C118; `kept` spells out what is lost; refuted by a drift theorem over n saves.
* **C122 Requests and crashes** - panics are `None` in the conversion and `Crashed` in the checks; both characterized exactly; refuted by families of accepted requests.
* **C123 What is asked** - a relation between request and query written field by field (`RequestsSpec`); first group of filters only.
* **C124 Accepted filters** - a predicate per operation and value, equivalent to the check.
* **C125 Bad calls** - the two locks of the ingest server as poison flags over the ingest model (`IngestServer`); panics characterized by an invariant on the kinds of stored values (`MdTyped`); refuted by a theorem over all later calls.
* **C126 New users** - an invariant ("frozen") that one linking call establishes and every later event keeps.
* **C127 Calls in order** - a small logic of calls that go well, over the invariants of names, properties and kinds of values.
* **C128 Answers** - typed columns to JSON cell by cell (`Answers`), rounding against a separate definition of "nearest, half to even"; panics are `None` and characterized exactly.
* **C129 Funnel answers** - the columns of a row found by their places among whole numbers and decimals, by induction over the steps; names of breakdown values read back from their text.
* **C130 Refused calls and records** - an invariant ("spoiled") that one refused call establishes and every later event keeps; the converse invariant ("fine": every stored value fits its property) for histories without dates, from which calls with groups and identify calls in order are accepted (C127).
* **C131 New projects** - the furnishing of a project as a list of creations (`NewProject`), each shown to succeed on a store that holds nothing about the project and to leave the others' keys free; what was made stays along every orderly history (the invariant of C130), from which C127's acceptance follows with the properties the ingester adds.
* **C132 searches as asked** - `SearchRequests` models the checks and conversions of the two searches and of property values, and the moment they are asked for; `SearchRequestsSpec` says which are in order and what the query must ask. Acceptance and stopping are proved exactly, by cases over the checks with the facts of C122 to C124; the rest of the claim (empty groups, sixth group, far moments, sorting, later groups) is refuted for every search.
* **C133 the table of an event report** - `ReportTable` models the last plan nodes of an event report: the names of the metrics, the name of the event, the order and titles of the columns, the refusal of two columns of one name, and the joining of the batches, on top of the tables of `Shape`; `ReportTableSpec` says which rows and titles are expected. The table is proved by following one cell through all stages, for any tables; collisions of titles and lost columns are proved to refuse every such report.
* **C134 statuses of account calls** - `AuthStatus` models the same calls as `Auth` with the error of every refusal, the order in which a handler looks at token and body, the status of each error and the refresh-token cookie; `AuthStatusSpec` lists the reasons to refuse a request in terms of accounts, tokens and organizations. Each call is shown to be either carried out, and then no reason applies, or refused with the status of the only reason that does; a simulation ties the calls to those of `Auth`.
* **C135 number types of aggregated properties** - `Numbers` models the choice of machine types for a column and functions (tables taken arm by arm from the planner), the declared types, casts, multipliers and wrapping arithmetic, the users' inner aggregates, the combination of workers and the conversion to decimals; `NumbersSpec` says what a stored value stands for and how much room a sum has. `NumbersFacts` proves that wrapping accumulation is exact while there is room and that aggregates of workers compose, `NumbersCells` and `NumbersUsers` that all conversions multiply by the ratio of the units of the two columns.
* **C136 statuses of track and identify calls** - `IngestStatus` models the same calls as `Ingest`, step by step, with the error each step fails with, the status of each error, the body extractor that answers before the lock is taken, and the lock that a call that broke off leaves behind. A simulation shows that states and outcomes are those of `IngestServer`; the statuses are then characterized over every history of well-formed events.
* **C137 the text of a time** - `TimeText` models how chrono's serde form of a moment is written and read (documented behaviour; chrono is not part of the repository), on the calendar of `Calendar`; `TimeTextSpec` says what a text names, by digits and `CalendarSpec`. Each part of the reader is proved equivalent to its specification, the writer to produce such parts; `PropsSavedTimes` uses the round trip to discharge the contract on times of C116 and follows reports and bookmarks through histories.
* **C138 requests about dashboards, reports and bookmarks** - `BoardCalls` puts together the token check of `AuthStatus`, the permission table of `Access` and the records of `Boards` with the handlers and providers of the platform, as one server whose histories mix account calls, role changes and these requests. `BoardCallsSpec` gives the reasons for a refusal with their statuses, the roles, and what each request is answered, over reads of the records before and after. Every history of requests is shown to be a history of calls on the store within the bounds of C118/C119; the theorems follow from these and from the cases of the token. Numbers in addresses that are no numbers and the conversion of queries (C121) are left out. Proved.
* **C139 damaged logs** - over `Log`: `CrcFacts` proves that CRC-32, bit by bit as in `Bytes`, is linear and one-to-one on its state, so that payloads that differ in up to four neighbouring bytes have different checksums; with the framing this gives the refusal. `checked` says what a file is made of when it is accepted; by induction over the recovery loop. The full statement is refuted by a computed pair of records. Partial.
* **C140 requests about the events of a project** - `EventCalls` puts together the token check of `AuthStatus`, the permission table of `Access` and the events of `Md` with the handlers and provider of the platform, as one server whose histories mix account calls, these requests and all other metadata operations of `MdOps`. `EventCallsSpec` gives the reasons for a refusal with their statuses, over what the events of a project are. Every history is shown to be a run of `MdOps`, so that the index invariant and the typing of the store hold. That axum refuses two one-part addresses with 500 is taken from its documentation. Partial: see the finding.
* **C141 requests about properties** - `PropCalls` does for the properties of events and groups what `EventCalls` does for events, with the parts of an address in the order the handlers take them. That whatever is stored of a property can be stored (no list types) is an invariant of all metadata operations, which a change needs in order not to stop. Partial: see the finding.
* **C142 which custom events are accepted** - over `Md`: the check of the parts is shown to succeed exactly when a derivation of `CustomSpec.parts` exists (all parts found, depth bounded by the level) whose custom events are all different, by induction on the levels left; with the index invariant for the name this gives both directions for creation and change. Partial: see the finding.
* **C143 names of projects and their deletion** - over `Md`, with the index invariant of projects: the check of a creation or change is shown to be exactly that no project has the text as name or token, and the effect of each call on every project is given (`ProjectNamesSpec`). Partial: see the finding.
