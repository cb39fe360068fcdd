{
 "C01": {
  "note": "all value variants; strings are byte lists, UTF-8 validation not modelled"
 },
 "C02": {
  "note": "real crc32; loggable = representable Rust values"
 },
 "C03": {
  "note": "refuted: a torn record makes the table unopenable; proved that recovery never invents records, given that the crc distinguishes the payload from its zero-padded cuts"
 },
 "C04": {
  "note": "rows as handed to the memtable; padding done by insert itself is C23"
 },
 "C11": {
  "note": "for every key no longer than the row"
 },
 "C13": {
  "note": "for every sort meeting the library contract"
 },
 "C14": {
  "note": "one row per key proved for two 64-bit key columns; newest proved for a stable sort only; refuted for unstable sorts and for any other number of key columns"
 },
 "C63": {
  "note": "memory side of a scan; proved for ascending requests that keep the key columns in front; refuted for other orders and for replacing tables without key columns"
 },
 "C05": {
  "note": "proved for every history in which unflushed rows are not older than the newest column; refuted otherwise: replay shifts values between rows and scans fail"
 },
 "C06": {
  "note": "append-only and replacing tables, every reachable state, every sort meeting the contract"
 },
 "C07": {
  "note": "histories of inserts, flushes (explicit and automatic), garbage collection and restarts; also with added columns if flushed before a restart"
 },
 "C08": {
  "note": "proved safe for a crash before the metadata write provided gc runs before the next flush; refuted for the three later crash points and for a flush before gc"
 },
 "C23": {
  "note": "rejection proved in full; acceptance proved when key columns are listed first; refuted otherwise (keys are taken by position without checking names)"
 },
 "C68": {
  "note": "refuted for string keys and for replacing tables with other than two keys; proved for integer/timestamp keys"
 },
 "C22": {
  "status": "proved",
  "note": "whole encoding (prost varints, nested messages) modelled bit for bit; beyond the quantifier: versions of 2^32 and above are truncated (refuted theorem)"
 },
 "C19": {
  "note": "any interleaving of counter calls; renames (compaction of a single part) are not refused and are outside the property"
 },
 "C20": {
  "note": "bincode of the table list and zlib enter as a codec contract; target database has no leftover directories (else C70)"
 },
 "C21": {
  "note": "refuted: every failed restore ends with no tables; proved: every truncation of a backup is rejected"
 },
 "C69": {
  "note": "refuted for parts written by compaction (opened twice, never closed) and after abandoned scans; proved for parts written by flush"
 },
 "C70": {
  "note": "refuted: directory 'levels' of the failed attempt makes every later restore fail"
 },
 "C71": {
  "note": "holds with one collector; refuted after a restore, which leaves a second collector with its own counters running"
 },
 "C15": {
  "note": "all heaps and sorts meeting the library contracts, all chunkings; any sorted inputs, and end to end for every history of a table"
 },
 "C16": {
  "note": "refuted: a superseded row is returned and another key is lost; proved that no row is invented or duplicated, and full correctness when no key occurs twice"
 },
 "C72": {
  "note": "refuted for key types the merge does not implement; proved that a regular end means everything was returned. File read errors are not modelled"
 },
 "C73": {
  "note": "refuted for replacing tables with small slices; proved for append-only tables (C15) and for slices at least as long as the table"
 },
 "C74": {
  "note": "proved for projections that keep the key columns; refuted for projections with fewer columns than the key"
 },
 "C25": {
  "note": "Every sequence counts up by one from its first number; ids given to created entities of one namespace strictly increase over every history of metadata calls."
 },
 "C28": {
  "note": "Every call on another dictionary leaves this one alone; names of dictionary columns produced by the program have no slash, which the theorem needs."
 },
 "C29": {
  "note": "Distinct entities have distinct keys and a listing of a family returns exactly its own records. Refuted for names containing a slash, which are written into keys unescaped."
 },
 "C39": {
  "note": "Listings return each live record exactly once, except teams: their listing stops after the first match (refuted)."
 },
 "C27": {
  "status": "proved",
  "note": "bijection and stability for the encode/decode calls of the statement, over all other metadata operations interleaved; refuted separately: create_key, which writes a chosen number, can give two strings one number"
 },
 "C30": {
  "note": "histories of all 39 metadata operations; events and properties of every kind"
 },
 "C31": {
  "note": "refuted: renaming an event leaves the old name in the dictionary, and a recreated event gets the old id back; proved for histories without rename and delete"
 },
 "C32": {
  "note": "acyclicity proved in full; depth refuted for histories with updates (an update does not look at the events that use the updated one); depth proved for histories without updates and for each accepted event at its acceptance"
 },
 "C33": {
  "note": "proved for histories that merge no visitor into a user in that group; refuted with merges: the group sequence is overwritten with text, so the next new value panics, and users merged with one visitor share an id"
 },
 "C34": {
  "note": "also the exact id given to each new type"
 },
 "C35": {
  "note": "refuted: deleting an organization or account leaves the other side; proved for histories without such deletions"
 },
 "C36": {
  "note": "histories of all 39 metadata operations"
 },
 "C37": {
  "note": "refuted: project names are indexed beside tokens, so a name is accepted as token, and a rename drops the token; proved that only current tokens or names are accepted"
 },
 "C26": {
  "note": "refuted for every pair of overlapping requests (exact characterisation); unique for executions in which no request commits while another is between its read and its commit"
 },
 "C38": {
  "note": "refinement of a per-user specification over all metadata operations; expiry test of the cleaner in milliseconds"
 },
 "C40": {
  "note": "non-system properties proved for histories without data type changes; refuted: system properties of one name, and changing a data type"
 },
 "C41": {
  "note": "all calls of the platform API with the check each makes; exact table of the lowest role each call needs; readers change nothing"
 },
 "C42": {
  "note": "refuted: an owner or administrator of any organization passes the check for every project; proved for all other callers"
 },
 "C43": {
  "note": "exact whenever the listing is allowed; it is refused to organization administrators, who may create and delete projects"
 },
 "C44": {
  "note": "independent Gregorian specification (leap years, month lengths, Mondays); all times before and after 1970"
 },
 "C45": {
  "note": "for the date rule of the chronoutil library as stated in DESIGN.md"
 },
 "C46": {
  "note": "proved for hours, days and weeks; refuted for months and years: exact condition under which an interval has a bucket; what has none is lost"
 },
 "C47": {
  "note": "all funnel definitions, segments and batch sequences"
 },
 "C48": {
  "note": "proved without unique counting, holding constants and segments; refuted for each of the three: a stream delivered row by row is reported as if the option were off"
 },
 "C49": {
  "note": "exact report for ordered steps, breakdowns and unranged exclusions, when no user's events begin with an excluded one; refuted without that condition; Any steps, constants and unique counting are outside the positive theorem"
 },
 "C50": {
  "note": "refuted for every number of restarts; conversions are at most one per user when one batch holds all rows and does not end with a last-step event"
 },
 "C51": {
  "note": "refuted: exclusions with a step range never have any effect; unranged exclusions proved"
 },
 "C64": {
  "note": "refuted: a number sent with scale s for a new property is stored as its mantissa, so it is shown as mantissa*10^-16; exact condition under which a number is kept"
 },
 "C65": {
  "note": "one event row per accepted call with its time, event, user and project, counted once; refuted: the session-begin row gets the time divided by 1000"
 },
 "C66": {
  "note": "refuted for every pair of ids: after the first linking call neither the user's nor the visitor's own calls go to the linked user; proved: all calls with both ids and the same visitor (or user) id agree"
 },
 "C67": {
  "note": "proved for users and for properties without dictionary; refuted for every other group type: no call ever enters a string into the dictionary reports read"
 },
 "C75": {
  "note": "strings and booleans proved; refuted for dates: no call with a date value is ever accepted"
 },
 "C76": {
  "note": "no row is added; refuted for the rest: the session, event and properties of a rejected call stay"
 },
 "C52": {
  "note": "all row streams, groupings, filters and batch splits"
 },
 "C53": {
  "note": "proved for the filters reports use (applied before counting); refuted for the counter's own filter option, which skips a change of user"
 },
 "C54": {
  "note": "numbers are exact rationals instead of f64/i128; all functions, groupings and batch splits"
 },
 "C55": {
  "note": "counts, sums and unique counts combine over any workers; refuted for averages over workers and for minima and averages shown beside other metrics"
 },
 "C77": {
  "note": "all functions, groupings and batch splits"
 },
 "C78": {
  "note": "proved when every matching event has the property; refuted otherwise: a missing value is read as zero"
 },
 "C79": {
  "note": "proved when every event has the group; refuted otherwise: a row without it stops the report"
 },
 "C56": {
  "note": "proved for comparisons zero does not satisfy; refuted for the others: users without a matching event are missing; a matching event without group stops the query"
 },
 "C57": {
  "note": "proved for any tree of conditions about the same users; refuted otherwise: the arrays are combined by position"
 },
 "C80": {
  "note": "refuted: planning stops on every segment condition; an empty list and the last segment are mishandled by the physical planner"
 },
 "C81": {
  "note": "proved for users with a matching event and for all but the first row's user; refuted for that user"
 },
 "C58": {
  "note": "proved for any list of well-typed filters with one value per negated filter on rows having the property, and no dictionary property filtered both by pattern and by value; refuted: several values under a negated operator, rows lacking the property, pattern and value on one property"
 },
 "C59": {
  "note": "proved for all nested definitions with event numbers below 65536 whose member filters use no times and no patterns on dictionary properties; refuted outside"
 },
 "C82": {
  "note": "refuted: any such filter refuses the whole report; proved that patterns and seen values are answered"
 },
 "C83": {
  "note": "refuted: the comparison is exactly that of first-seen order"
 },
 "C84": {
  "note": "proved for calls naming only the user and giving groups; refuted for calls without groups or also naming the visitor"
 },
 "C85": {
  "note": "proved for every history"
 },
 "C12": {
  "note": "Proved for every history of an append-only table with 64-bit integer keys: get finds a stored row of the key exactly when one exists, if at most one part's key range contains the key; an unflushed key is answered with its newest row, wherever else it is stored. Refuted: the first part whose range spans the key decides, even if it lacks the key (first_range_decides, spanned_key); after a flush the oldest row of a key is returned; a key prefix equal to the start of a part's smallest key is never found (replacing tables); keys that are not 64-bit integers panic; in a part with several row groups the first box that admits the key decides."
 },
 "C24": {
  "note": "Proved for every history: a replace with another version than the one read is refused without effect as long as fewer than ten further get_cas calls were made, none of the calls in between read or replaced the key and the table was not reopened; with the version that was read it behaves like an insert. Refuted: without a cached version any version is accepted; a refused call is accepted when repeated; ten reads of other rows make the store forget; a row changed by an insert in between is not noticed."
 },
 "C09": {
  "note": "Threads are program counters over the lock-protected steps of insert, flush and scan; proved for every schedule in which no flush falls between the two steps of the scan in question. Refuted in general: from any reachable state with unflushed rows a flush between the steps hides exactly those rows from the scan. Append-only tables with fixed columns; compaction is not among the steps."
 },
 "C10": {
  "note": "Proved for crashes between steps of schedules that do not change the log between another thread's record and its push. Refuted: from any such state a flush by another thread makes the insert acknowledged and lost after a crash; likewise a record appended to a log file already removed."
 },
 "C86": {
  "note": "Proved when no insert is under way while a column is added. Refuted otherwise: the pushed row is too short and every later scan and flush fails, also after a restart."
 },
 "C17": {
  "status": "partial",
  "note": "Proved for every history of inserts, flushes, column additions, gc, restarts and passes (also with operations running beside a pass), any options with l0_max_parts > 0, provided no pass selects a part twice; unconditional for tables with at most three levels. C17_selection_repeats_iff says exactly when a part is selected twice. Refuted otherwise: rows are duplicated; with l0_max_parts = 0 a lone part is moved but stays listed and scans fail. The merge of files is an oracle with the contract merge_contract (CompactSpec.v)."
 },
 "C18": {
  "status": "proved",
  "note": "For every history without crashes, also those with duplicated selections. A path referred to at any earlier moment is never written again."
 },
 "C87": {
  "status": "partial",
  "note": "Proved for crashes before the metadata is written, and after it for passes without moves. Refuted for a pending rename of a moved part: the reopened table cannot be scanned."
 },
 "C88": {
  "status": "partial",
  "note": "Proved for two and three levels if merging does not fail. Refuted for fewer than two levels and for passes that select a part they have just moved."
 },
 "C60": {
  "note": "Never more than the limit per value, order kept, and a row stays if fewer than the limit share each of its values before it; exact for one breakdown column. Refuted for two columns and every limit: rows dropped for one column use up the quota of their value in the column before it, so that a value without a single row in the result loses its rows."
 },
 "C61": {
  "note": "Unpivot exact for metric columns listed in table order (refuted for another order: values come under the wrong name). Pivot exact for collision-free hashes and at most twice the buffer of groups; refuted beyond: two groups that differ only in which of two breakdowns is empty have the same hash for every hash function and are merged; a report with more than 2048 groups can fail."
 },
 "C62": {
  "note": "Exact if the label is not a column and every column that some event lacks may be null somewhere; refuted otherwise: the query fails as soon as an event without the column has a row."
 },
 "C89": {
  "note": "Proved for tables with at least one value column and no column called Average; order is any function that sorts."
 },
 "C90": {
  "note": "Refuted: counts are integers, and the step that makes them decimals is skipped, so that every compact report over counts fails; with a breakdown only 50 points in time survive per value. Partial: decimal metrics without breakdown are answered completely."
 },
 "C91": {
  "note": "Holds for requests with a property list that includes the event id, plain events each with a (possibly empty) filter list, filters on requested columns and of the kinds of C58, and no request-level filters (C91_search_partial). Refuted: filters of the request are never applied; an event given without a filter list is forgotten; leaving out the event id fails; an event filter on a property that is not requested is refused."
 },
 "C92": {
  "note": "Holds when the request has a time range or filters but not both, for filters of the kinds of C58; rows come in scan order, the first 100 (C92_group_search_partial). Refuted: with filters the time range is ignored. Sorting is not modelled: the platform never asks for it."
 },
 "C93": {
  "note": "Holds for event searches when the project's properties are, in order, those of the table's columns (C93_all_properties_partial). Refuted: columns are labelled by position; with fewer properties than columns (another project created some) the search fails."
 },
 "C94": {
  "note": "Holds for records that exist and have every property (C94_lookup_partial). Refuted: absent properties are returned as zero, empty or false; a missing record makes the request fail instead of an error."
 },
 "C95": {
  "note": "Holds for one group whose filters must all hold (C95_one_group_partial). Refuted: other groups and both connectives are ignored. An empty list of groups fails (C95_witness)."
 },
 "C96": {
  "note": "Holds without filter for every property and plain event; with a filter for properties that are not dictionary texts or times (C96_values_partial). Refuted: filters on dictionary texts compare the text with its number; custom events that filter by another property are refused."
 },
 "C97": {
  "note": "Counts and times only, for the requests C49 covers (exact step order, exclusions without step range, no holding constants, non-unique counting) and users whose events do not begin with an excluded one. The hash that assigns users to workers is not modelled: any assignment keeping a user on one worker is allowed. Refuted in full: an excluded event of another user on the same worker cancels an attempt that is counted when the two users are on different workers."
 },
 "C98": {
  "note": "True for one worker, given floating point division is accurate to one part in 10^12. Refuted for several workers: the ratios of the workers are averaged without weights, so one converting user on one worker and any number of others on another give 50."
 },
 "C99": {
  "note": "Refuted for every report of one worker: the reported averages are a hundred times the average (the expression for percentages is used)."
 },
 "C100": {
  "note": "Refuted: the plan has no condition on the project; the answer is the one the project would get if it owned every event of the database."
 },
 "C101": {
  "note": "Hours, days and weeks are exact. A month is 31 days and a year 12 of these, 372 days, longer than any year. A session window passes validation and panics."
 },
 "C102": {
  "status": "proved",
  "note": "Append-only tables; heaps, the cut of merged arrays into pages and the file size are parameters with contracts, all discharged by concrete functions. C102_meets_the_contract discharges the assumption on the merge made by C17, C87 and C88, for all key types. C102_other_key_types_refuted: with key types outside the quantifier (text, boolean, 32-bit first column) the merge panics as soon as two chunks overlap. Page encoding and decompression are not modelled."
 },
 "C103": {
  "note": "Refuted in three ways for two-column keys, the keys of the group tables: of two records of one project in two parts only the one with the larger identifier remains; rows after a dropped row get the dropped row's values; a third overlapping part is not merged, so the file is not sorted."
 },
 "C104": {
  "note": "Everything but the start hour of the backup schedule is read back; the start hour is always stored as 0 (refuted). Unacceptable settings are refused and change nothing. Starts keep the settings and make the keys of tokens only when they are empty; storing the first password changes nothing else."
 },
 "C105": {
  "note": "Accepted requests apply the fields the code reads; schedule interval, start hour, Google Cloud key and default password are ignored, so no history of requests changes the schedule and Google Cloud can never be selected (refuted). Refused requests change nothing. Reading shows every setting that is no secret, and nothing that depends on a secret."
 },
 "C106": {
  "note": "Proved for local and Google Cloud backups if no dump failed and no two backups were created in the same hour, over all histories with crashes; shipped backups leave no temporary file. Refuted: a failed dump is shown as completed, S3 stores nothing and leaves its temporary file, a later backup of the same hour replaces the archive of an earlier one."
 },
 "C107": {
  "note": "Proved up to nine recorded backups, against a schedule given by the calendar. Refuted from ten to eighty-nine: the list is in byte order of the numbers, its last entry is number 9, and every round of a scheduled minute starts another backup. With S3, or a start hour above 23, the scheduler task panics."
 },
 "C108": {
  "note": "A request records one waiting backup with the destination of the settings, or changes nothing; one waiting at most, waiting ones finished by the next round, running ones failed at restart, finished records never change. Refuted: a backup that was uploading when the server stopped stays uploading for ever."
 },
 "C109": {
  "status": "proved",
  "note": "Symbolic cryptography: a hash accepts exactly its password, a client presents only tokens handed out before. For all histories, all email and strength checks, all lifetimes."
 },
 "C110": {
  "status": "partial",
  "note": "Proved for deletion (in every later history), removal from an organization (at once) and for who can make administrators. Refuted for roles: accounts.update accepts a role, reports success and never stores it, so in no history does an account's role change."
 },
 "C111": {
  "status": "partial",
  "note": "Proved while the access token is still good. Refuted: the handler needs a valid access token, so a refresh token is useless once the access token has expired; and the new token takes its organization from the access token and its account from the refresh token, whoever they belong to."
 },
 "C112": {
  "status": "partial",
  "note": "Proved: the old password is refused, the new one accepted, and who may change passwords. Refuted: tokens handed out before go on working; force_update_password in an account update is accepted and ignored in every history."
 },
 "C113": {
  "note": "Proved: wrong passwords are refused, addresses are unique, right passwords are accepted when the address is valid and the remembered organization, if any, exists; the organization of a log-in is one the account is a member of, or none. Refuted: a remembered organization that was deleted refuses every log-in; accounts created with an address the validator does not take cannot be opened; the repeated password is not compared."
 },
 "C114": {
  "status": "partial",
  "note": "Proved for every history that does not delete account 1. Refuted for every history that does: the start creates an account under another number, so the second start (the first one if an organization still has its first name) and all later ones fail."
 },
 "C115": {
  "note": "Proved for every record type: what is read back, that storing it again changes nothing more, and exactly which records come back unchanged. Not kept: fractions of a second of all times, the difference between an empty and an absent list, panel places above 2^32, the property lists of events (attaching properties succeeds without effect); list-typed properties and absent or list values of groups make the writer panic. UTF-8 checks of the decoder are not modelled."
 },
 "C116": {
  "status": "proved",
  "note": "The query itself is kept exactly, with times written as the RFC 3339 text of TimeText (C137): for one record (C116_reports, C116_bookmarks) and over every history of calls - a report that is made is opened with its query, whatever calls lie between, unless one asked for another query of it or for its end (C116_report_kept); after a change it has the query asked for (C116_report_changed); a bookmark keeps its query (C116_bookmark_kept). C116_report_fields and C116_bookmark_fields say what happens to the other fields, for any texts of times that read back: times of the record lose their fraction and an empty tag list becomes absent (C115). Writing fails only for records of 2^63 bytes and more."
 },
 "C117": {
  "note": "What is kept of a custom event is proved for every custom event; numbers are kept only if they are zero or have 16 decimal places (the scale is not stored), an absent value makes the event unreadable, filters without values come back with an empty list."
 },
 "C118": {
  "status": "partial",
  "note": "Over every history of calls: fresh rising numbers, what is read after creation, change and deletion, exact lists, independence of kinds and projects. Read back up to C115/C116 (seconds, empty tags, 32-bit places) or a record too big for memory. Refuted: order of the list, the type in a change of a report, panels of deleted reports. One call at a time (concurrent: C63)."
 },
 "C119": {
  "status": "partial",
  "note": "Made, kept and private over every history, up to the time cut to the second and records too big for memory. Refuted: a text drawn twice by an account replaces its earlier bookmark."
 },
 "C120": {
  "status": "partial",
  "note": "Holds for owners and server administrators. Refuted for every other role: administrators and members of an organization cannot read it, switch to it or list its projects; administrators, members and readers of a project cannot read its record."
 },
 "C121": {
  "status": "partial",
  "note": "Proved through the bytes of the store and any history before: the report comes back in the form `kept` (empty lists gone, first group of filters only with its conditions dropped, exclusion steps one lower); requests without these parts come back unchanged. Refuted in general: exclusion steps sink by one at every save (drift theorem for n saves), conditions and later groups are lost, numbers beyond 64 bits become other numbers."
 },
 "C122": {
  "status": "partial",
  "note": "Exact characterization of the requests on which the conversion panics and of the filters on which the checks panic. Refuted: every accepted request stays accepted and panics when given an empty list of groups, or a null compared with a nullable property."
 },
 "C123": {
  "status": "partial",
  "note": "Proved for the parts a query has: events, filters, values, aggregates, breakdowns, time, steps, exclusions counted from one; of the groups of filters the first only. Refuted: later groups and the conditions between filters never reach the query. Segments are not compared (they cannot run)."
 },
 "C124": {
  "status": "partial",
  "note": "The acceptance of a filter, of a whole segmentation request and of a whole funnel request is characterized exactly against a specification of what fits. Refuted where the English claim asks more: ordered operations on 32 bit whole numbers are refused, `is true` without a value list is refused on a property that is never null, an exclusion reaching the last step is refused."
 },
 "C125": {
  "status": "partial",
  "note": "Refuted: both executors sit behind a std Mutex that is never un-poisoned, so the first call that panics makes every later call of the same kind panic until the server restarts (C125_one_crash_stops_the_rest_refuted, for every history). Proved: exactly what can panic, that without a panic every call is answered as if it were alone, and that calls with one id and small numbers never panic. Known crash causes: linked projects, both ids in one call, a number that does not fit an integer property."
 },
 "C126": {
  "status": "partial",
  "note": "Refuted: one accepted call with both a user id and an anonymous id overwrites the project's user counter with a record, after which every call for a user or visitor not seen before fails (and panics when it carries no properties), for every later history including restarts. Proved part: C127 covers projects in which no ids were linked."
 },
 "C127": {
  "note": "Proved for track calls with groups of kinds that are known or that the project has room for (five names cover the kinds there are and those of the call), for calls without groups, and for identify calls, in projects where ids were never linked and (for calls with groups and identify calls) no date was given to a record and properties were not changed or deleted; elsewhere it is false (C126, C130). Contract on the string oracle: only text properties are dictionaries (executor.rs 53-57)."
 },
 "C128": {
  "status": "partial",
  "note": "Every cell proved, with rounding to the nearest thousandth (half to even), order kept, formats equal and crashes characterized exactly. Refuted: a missing number is answered as 0, and figures of 2^96 units of 10^-16 (about 7.9 million millions) or more panic. The last step from decimal to the nearest double is not modelled; floating point columns do not occur."
 },
 "C129": {
  "status": "partial",
  "note": "Every figure proved for any number of steps and rows, crash conditions exact (a step that begins with a custom event, too large figures). Refuted: a missing number is named 0, a missing text is named like the empty one, close decimals share a name."
 },
 "C130": {
  "status": "partial",
  "note": "Refuted: a date given to a timestamp property of a record is refused but kept, and from then on every identify call for the record and every track call naming it (with groups) is refused, whatever comes in between. Every new project has such a property in every kind of groups (created_at). Proved: as long as no identify call carries a date, no ids are linked and nobody else writes the records or changes the properties, every stored value fits its property after every history of calls, accepted or refused."
 },
 "C131": {
  "note": "Creation as a whole, calls after every orderly later history (with groups of known kinds or of kinds there is room for), and renames. The answers of the user-agent and geo libraries are arbitrary. The earlier metadata calls must not have spoken of the number the project gets (ids are handed out in sequence), and name and token differ."
 },
 "C132": {
  "status": "partial",
  "note": "Proved exactly which requests of the three kinds the checks accept, and (with overflow checks, naming no property of a group beyond the fifth) exactly which stop the worker: those in order that compare with null or a number of 2^96 or more, give an empty list of groups of filters, or give a moment chrono does not know. So the full claim is refuted for every search in order once such a part is put into it. A search that runs has the events, filters of the first group, properties and time of the request, at the given moment (any moment chrono knows; in a release build each is also what a number 2^61 higher stands for). Refuted: the sorting of a group search and all groups of filters but the first make no difference. The clock is a parameter; what the query answers is C91 to C95."
 },
 "C133": {
  "note": "Proved: when the titles do not collide, the table has exactly the columns asked for in order, all rows of all events in order, every cell under its title and null where an event lacks the column (C133_table_partial); properties of one name get different titles as long as no name is another one followed by a space and a number (C133_titles_distinct_partial); the rows of every metric are called by the name of the metric (C133_formula). Missing because false, each refuted in general: the whole report is refused when a display name is that of another column - Event, Segment, Formula, Average or a time - or when two properties share a name and a third has it with ' 2' (C133_collision_refuted, C133_numbered_name_refuted), or when it is broken down by the time of the event or by the event itself (C133_lost_column_refuted); a name the user gives to a metric is never shown, and different metrics can bear one name (C133_given_name_refuted, C133_same_formula_refuted)."
 },
 "C134": {
  "status": "partial",
  "note": "Proved for every request at every moment of every history: status and fields are those of the reason for the refusal, and no reason means the request is carried out (C134_refusals, an equivalence with the list of reasons in AuthStatusSpec); refusals change nothing (C134_refused_changes_nothing); 200, or 201 for a new account, and never a server error (C134_carried_out, C134_statuses); failed log-ins tell nothing (C134_log_in_tells_nothing); the cookie and the pairs of tokens (C134_cookie, C134_tokens_belong_together); the calls are those of C109-C113 (C134_same_server). Missing because false: a token whose account was deleted is 404 and not 401 (C134_deleted_account_refuted); the right password is 404 in a browser that remembers a deleted organization (C134_remembered_organization_refuted); a taken address is 409 in four calls and 400 in the fifth (C134_taken_address_refuted); a stale cookie hides a good refresh token in the body (C134_cookie_first_refuted). Cryptography is symbolic; disk failures, message texts and the listing of accounts are not modelled."
 },
 "C135": {
  "status": "partial",
  "note": "Proved for every number type, every (pair of) function(s), every values and any number of workers: the shown number is the aggregate of what the stored values stand for (C135_property_partial, C135_per_user_partial, C135_counted_partial), and exactly number columns are answered (C135_answered). Conditions: sums stay within 64 bits (small integers) or the largest decimal, counts within 64 bits, averages come from one worker (C55 says what several workers do), a user's rows lie together on one worker. Floats are rationals: their rounding is not modelled. Beyond: sums of 64-bit integers wrap to negative numbers without an error (C135_big_sums_refuted); text properties with a dictionary are aggregated by their dictionary numbers (C135_texts_are_summed_refuted); the number of values of a text, boolean or time property is refused, the sum of texts and all per-user reports of them stop the worker (C135_counts_of_texts_refuted)."
 },
 "C136": {
  "status": "partial",
  "note": "For every history and request: 201 and 204 are answered exactly when the call is carried out (C136_success); 400 exactly for a body that cannot be read and for a track call that names nobody, has a known token and finds the lock free (C136_bad_request); only 201/204, 400, 404, 500 or no answer occur (C136_statuses); a malformed body, an unknown token and a call after one that broke off change nothing (C136_nothing_changes). Refuted: a refused call leaves its new properties (C136_refused_creates_properties_refuted); a date is refused for every property but never with 400 (C136_date_refuted); a kind of groups too many is a server error (C136_kinds_refuted). Not characterized: which of 404 and 500 a call with a known token gets; the witness shows both."
 },
 "C137": {
  "status": "proved",
  "note": "For every moment of the years chrono holds: the text written names it (C137_written) and reads back (C137_round_trip); a text is read exactly if it names a moment of the calendar of CalendarSpec, and as that moment (C137_read). chrono is not part of the repository and is modelled from its documentation; its leniency (a space or small letter for T, second 60, more digits) is left out, so 'only if' of C137_read holds for texts without these."
 },
 "C138": {
  "status": "proved",
  "note": "Over every history of account calls and requests of one server, from its first start: the refusals with their statuses, the answers (made records are the caller's and new, listings are complete, changes leave the rest), refused requests change nothing and tell nothing, who may change what, and who made a record. Bounds: numbers fit 64 bits, times are chrono's, fewer than 2^64 - 1 events. Records of 2^63 bytes stop the server (C138_stops). Left out: addresses with numbers that are none, the conversion of queries (C121). That owners of any organization count as owners of every project is the finding of C42."
 },
 "C139": {
  "status": "partial",
  "note": "Proved: every change of up to four neighbouring bytes in the checksum or the payload of any record keeps the table from opening (CRC-32 as crc32fast computes it is proved to tell such payloads apart); whatever is shown stands in the file under its own length and checksum; a changed length is noticed unless the bytes then read have the same checksum. Refuted in full: the length is not under the checksum, and a log of two inserts is given in which changing one byte of a length loses the second insert without an error."
 },
 "C140": {
  "status": "partial",
  "note": "Over every history of account calls, requests about events and other metadata calls (with table and column names without '/'): the refusals with their statuses for all requests but those by name, the answers, refused requests change nothing and tell nothing, carried-out requests leave all other events as they were. Missing because false: an event asked for by name is always answered 500 (C140_by_name_refuted); an attached property is shown in the answer and then lost, and none can be detached (C140_attached_lost_refuted)."
 },
 "C141": {
  "status": "partial",
  "note": "Over every history of account calls, requests about properties and other metadata calls (with table and column names without '/'): the refusals with their statuses and the answers for all requests but those for one property of a kind of groups by number, and for the five kinds of groups there are; refused requests change nothing and tell nothing, carried-out requests leave all other properties as they were. Missing because false: property i of groups of kind g is answered with property g of groups of kind i, or, from i = 5 on, not at all (C141_group_property_refuted); a kind of groups that does not exist is not answered."
 },
 "C142": {
  "status": "partial",
  "note": "Exactly when a creation or a change is accepted, over all histories: the conditions of the statement and, besides, that no custom event is met twice among the parts and their parts. Missing because false: a custom event made of another and of one of its parts is refused although nothing is made of itself (C142_shared_refuted, whatever is stored)."
 },
 "C143": {
  "status": "partial",
  "note": "Exactly when a creation or a change is accepted, what is stored then, that a refusal changes nothing, and that a deleted project, its name and its token are gone, over all histories that do not give a project one text as name and token (C37 shows what happens otherwise). Missing because false: a name used by a project of another organization is refused (C143_own_names_refuted), and the events of a deleted project stay stored and readable (C143_contents_kept_refuted)."
 }
}