# Formal model of BonsaiDb in Rocq (Coq 8.16.1)

Everything lives in `rocq/theories` (logical name `Verif`). Only Coq's standard
library is used. No functors, module types, axioms, or section-less variables.

## Layout

* `Base.v`           bytes (`list N`), lexicographic order, `outcome` = `Done | Fail | Panic`, list lemmas.
* `Tree.v`           sorted association list = the contract of a nebari tree.
* `<Area>.v`         the executable model of an area; every definition cites the
                     file and lines in `/repo` it models and names its simplifications.
* `<Area>Spec.v`     (where the specification is not in the `Prop` file) the small independent specification.
* `<Area>Proofs.v`   the proofs (also `<Area>More.v`, `<Area>Sim.v`, …).
* `Prop<Area>.v`     the property theorems `Cnn_…`, beside each an `Example` with a concrete,
                     non-trivial case meeting its hypotheses, and `Print Assumptions`.

`MANIFEST.json` lists the theorems of each property, `properties.jsonl` the properties in English.

How concurrency and crashes are modelled: a component is a transition system whose events are the
atomic actions of the code (what happens under one lock, one channel operation, one atomic
instruction, one committed write). A history is *any* finite list of events; an event that is not
possible leaves the state unchanged. A theorem about `run … h` for all `h` therefore covers every
schedule, failure point and number of participants. A crash keeps exactly the state on disk.

Suffixes: `_refuted` = the natural English claim is false of the faithful model; the theorem proves
its negation with a witness (a finding about the code, or a documented limit). `_partial` = only part
of a property is proved; there are currently none.

## Trusted base

1. Coq's kernel (8.16.1) and the standard library. `Print Assumptions` of every property theorem
   prints "Closed under the global context": no theorem depends on an axiom. (vcheck lists seven
   constants of `Coq.ssr.ssrunder.Under_rel`; they belong to the standard library's `ssreflect`
   plug-in files loaded with `lia`/`ZifyBool` and no theorem uses them.)
2. The reading of the Rust source, given in comments at each definition with file and lines.
3. Contracts of dependencies that are not part of `/repo`:
   nebari (ordered maps; a transaction over several trees is atomic and durable once committed; `compare_and_swap`/`modify`
   run atomically; `last_key`, scans in key order), `pot`/`bincode`/`serde` (decoding undoes encoding;
   bincode's layout is modelled where the code depends on it, C52), lz4 and XChaCha20-Poly1305 (section variables with their
   laws), SHA-256 (an arbitrary function; injectivity is never assumed), argon2/HPKE (parameters), `actionable`
   (a permission set grants an action when one of its statements does), `circulate` (the relay of C55), flume/tokio channels (FIFO queues),
   tokio `Notify` (one stored permit), QUIC/WebSocket streams (in order, no duplicates, may stop at any point).
4. Modelling choices that apply everywhere: Rust integers are bounded where the code can reach the
   bound (keys, times, key-value numbers, ids of remote requests) and unbounded for counters that
   cannot be reached in practice (session ids, subscriber ids, transaction ids, byte counts); memory exhaustion is not modelled.

## Plan and result per property

All theorems are in `Prop*.v`. `_refuted` theorems state that the natural claim is false of the code as modelled, with a witness; the other theorems of the same property state exactly what holds.

| id | claim | model | method | theorems | remark |
|---|---|---|---|---|---|
| C01 | Unsigned integer keys sort numerically and round-trip | Key | encoding of width n as big-endian bytes; induction on n for order and round trip | `C01_unsigned_sorted_roundtrip`, `C01_unsigned_rejects_other_lengths`, `C01_unsigned_decodes_every_key` |  |
| C02 | Signed integer keys sort numerically and round-trip | Key | two's complement of width n; exact order characterised for all pairs of values; counterexample for the claim as documented | `C02_signed_order_refuted`, `C02_signed_roundtrip_order` | FINDING: numeric order across zero, which the Key contract promises, is false (C02_signed_order_refuted). The theorem gives the exact order for all pairs. |
| C03 | Composite keys round-trip | Key, KeySpec | deep embedding: the theorem quantifies over every key type (nested structs, tuples, enums, options …) and value; mutual induction over type and value with a decoder-state invariant; panics are an explicit outcome | `C03_key_roundtrip`, `C03_option_field_refuted`, `C03_option_field_panic_refuted` | FINDING: with an Option of a fixed-length type as a field, decoding a legal key fails or panics (C03_option_field_refuted, C03_option_field_panic_refuted). 2^63 is the largest possible allocation. |
| C04 | Composite keys sort field by field | Key, KeySpec | deep embedding: the theorem quantifies over every key type (nested structs, tuples, enums, options …) and value; mutual induction over type and value with a decoder-state invariant; panics are an explicit outcome | `C04_key_order`, `C04_escaped_null_order_refuted` | FINDING: escaped null bytes break the order (C04_escaped_null_order_refuted), negative integers too (C02). |
| C05 | Composite encoding fails exactly when documented | Key, KeySpec | deep embedding: the theorem quantifies over every key type (nested structs, tuples, enums, options …) and value; mutual induction over type and value with a decoder-state invariant; panics are an explicit outcome | `C05_struct_encodes_iff`, `C05_tuple_encodes_iff`, `C05_field_failure_propagates`, `C05_encode_never_panics`, `C05_no_truncation` |  |
| C06 | Decoding arbitrary composite bytes never panics | Key, KeySpec | deep embedding: the theorem quantifies over every key type (nested structs, tuples, enums, options …) and value; mutual induction over type and value with a decoder-state invariant; panics are an explicit outcome | `C06_decode_panics_refuted`, `C06_decode_never_panics`, `C06_accepts_only_encodings`, `C06_accepts_other_bytes_refuted` | FINDING: with a variable-length field some byte strings make the decoder panic (C06_decode_panics_refuted); bool, Option and variable-length fields accept several byte strings for one value (C06_accepts_other_bytes_refuted). |
| C07 | Byte prefix ranges select exactly the keys with the prefix | KeyPrefix, Utf8 | exact characterisation of the least string above all strings with the prefix, by induction on the reversed prefix; UTF-8 order lemma by cases on the encoded length | `C07_byte_prefix_range_exact` |  |
| C08 | String prefix ranges select exactly the strings with the prefix | KeyPrefix, Utf8 | exact characterisation of the least string above all strings with the prefix, by induction on the reversed prefix; UTF-8 order lemma by cases on the encoded length | `C08_string_prefix_range_exact`, `C08_utf8_order_is_code_point_order`, `C08_string_prefix_is_byte_prefix`, `C08_next_string_sequence` |  |
| C09 | Option, Result, bool, unit, array and non-zero keys sort and round-trip | Key, KeySpec | deep embedding: the theorem quantifies over every key type (nested structs, tuples, enums, options …) and value; mutual induction over type and value with a decoder-state invariant; panics are an explicit outcome | `C09_simple_keys`, `C09_nonzero_rejects_zero`, `C09_nonzero_signed_order_refuted` | FINDING: non-zero signed integers inherit the order defect of C02 (C09_nonzero_signed_order_refuted). |
| C10 | Automatically assigned document ids are fresh and increasing | Docs (next id), Key (next value) | invariant over histories: assigned ids are above the greatest stored id | `C10_unsigned_ids_increase`, `C10_unsigned_values`, `C10_exhausted`, `C10_unsupported`, `C10_never_overwrites`, `C10_signed_ids_increase`, `C10_signed_values`, `C10_signed_ids_refuted`, `C10_optional_ids_refuted` | FINDING: with a signed id type and a negative id present, or with optional ids, automatic ids fail with a conflict for ever (C10_signed_ids_refuted, C10_optional_ids_refuted). |
| C11 | Document ids survive formatting and parsing | DocId | inversion of the textual form; induction on the bytes | `C11_display_parse_roundtrip`, `C11_dollar_roundtrip_refuted`, `C11_dollar_unparseable_refuted`, `C11_text_is_printable` | FINDING: printable ids with '$' parse as a different id or not at all (C11_dollar_*_refuted). |
| C12 | Document ids never exceed the maximum length | DocId | inversion of the textual form; induction on the bytes | `C12_bytes_limit`, `C12_parse_limit`, `C12_parse_plain_limit`, `C12_parse_limit_refuted`, `C12_deserialize_limit_refuted` | FINDING: parsing longer text with '$', and deserialization, are not limited (C12_parse_limit_refuted, C12_deserialize_limit_refuted). |
| C13 | Limited-resolution timestamps convert faithfully | Time | integer arithmetic (lia/nia), the code's rounding and saturation followed literally | `C13_value_exact`, `C13_roundtrip`, `C13_floor`, `C13_within_one_unit`, `C13_error_only_out_of_range`, `C13_time_roundtrip`, `C13_time_floor`, `C13_min_roundtrip_refuted`, `C13_min_value_refuted`, `C13_negative_floor_refuted`, `C13_days_saturate_refuted`, `C13_overflow_refuted`, `C13_to_time_exact`, `C13_epoch`, `C13_unix_epoch`, `C13_of_time_error_only_out_of_range` | FINDING: smallest values, negative minutes/hours/days/weeks (rounded towards zero, so later than the given time), saturating days and overflow panics: see the six _refuted theorems. |
| C14 | Key-value timestamp arithmetic is monotone and normalised | Time | arithmetic on seconds and nanoseconds; order of the concatenated big-endian encodings | `C14_add_exact`, `C14_add_never_panics`, `C14_add_not_earlier`, `C14_add_monotone`, `C14_add_nanos`, `C14_nanos_refuted`, `C14_saturation_refuted`, `C14_sub_exact` | FINDING: nanoseconds adding up to exactly one second are not carried (C14_nanos_refuted); at the end of the range the sum is earlier (C14_saturation_refuted). |
| C15 | Key-value timestamps as keys sort chronologically | Time | arithmetic on seconds and nanoseconds; order of the concatenated big-endian encodings | `C15_order`, `C15_chronological`, `C15_roundtrip`, `C15_decode_sound` |  |
| C16 | Schema names survive encoding and encode without collisions | Names | encoder/decoder inversion; separator argument (encoded names contain no dot) | `C16_name_roundtrip`, `C16_name_alphabet`, `C16_name_injective`, `C16_qualified_roundtrip`, `C16_qualified_injective`, `C16_view_roundtrip`, `C16_view_injective`, `C16_parse_noncanonical`, `C16_parse_accepts`, `C16_qualified_two_parts` |  |
| C17 | Storage trees of different objects never collide | Names | encoder/decoder inversion; separator argument (encoded names contain no dot) | `C17_tree_names_distinct` |  |
| C18 | Permission resource names identify one collection | Names | encoder/decoder inversion; separator argument (encoded names contain no dot) | `C18_shapes`, `C18_collections`, `C18_documents`, `C18_views`, `C18_kinds_distinct`, `C18_dotted_authority_refuted`, `C18_topics`, `C18_keys` | FINDING: with '.' in an authority two collections share all their resource names (C18_dotted_authority_refuted). |
| C19 | Transactions are all-or-nothing | Docs, DocsSpec | each operation refines `does` (an independent specification on a map collection -> id -> document); fold over the transaction; induction over histories of transactions, mapper runs and rebuilds | `C19_all_or_nothing`, `C19_first_error`, `C19_one_by_one` | C19_one_by_one: a second transaction does exactly what it would have done at the end of the first. |
| C20 | No lost updates | Docs, DocsSpec | each operation refines `does` (an independent specification on a map collection -> id -> document); fold over the transaction; induction over histories of transactions, mapper runs and rebuilds | `C20_only_current_revision`, `C20_stale_conflicts`, `C20_no_lost_update`, `C20_delete_reinsert_refuted` | FINDING: if the document is deleted and inserted again with its earlier contents, a stale revision is accepted (C20_delete_reinsert_refuted). |
| C21 | Insert, overwrite, delete and check do what they say | Docs, DocsSpec | each operation refines `does` (an independent specification on a map collection -> id -> document); fold over the transaction; induction over histories of transactions, mapper runs and rebuilds | `C21_success`, `C21_refused`, `C21_fails_only_if_refused`, `C21_overwrite_contents`, `C21_check_changes_nothing` |  |
| C22 | The transaction log records exactly the changed documents | Docs, DocsSpec | each operation refines `does` (an independent specification on a map collection -> id -> document); fold over the transaction; induction over histories of transactions, mapper runs and rebuilds | `C22_log_entry`, `C22_results` |  |
| C23 | Revisions count the changes of a document | Docs, DocsSpec | each operation refines `does` (an independent specification on a map collection -> id -> document); fold over the transaction; induction over histories of transactions, mapper runs and rebuilds | `C23_digest`, `C23_one_operation`, `C23_revision_identifies_contents` |  |
| C24 | Operations only touch the named documents | Docs, DocsSpec | each operation refines `does` (an independent specification on a map collection -> id -> document); fold over the transaction; induction over histories of transactions, mapper runs and rebuilds | `C24_independent`, `C24_commute`, `C24_frame`, `C24_new_documents` | C24_independent and C24_commute are about transactions of at most 65536 operations (beyond 65536 different collections the transaction log panics). |
| C25 | Listing returns exactly the documents in the range, in order, up to the limit | Docs | the scan of a sorted tree equals filtering the map by the range, ordering and cutting | `C25_list`, `C25_get_multiple` |  |
| C26 | A transaction without permission has no effect | Docs, DocsSpec | each operation refines `does` (an independent specification on a map collection -> id -> document); fold over the transaction; induction over histories of transactions, mapper runs and rebuilds | `C26_no_permission_no_effect`, `C26_required`, `C26_reads_need_permission` |  |
| C27 | modify applies the change to the latest document | Modify | loop of read-modify-write against arbitrary interleaved transactions of others | `C27_modify_applies_to_latest`, `C27_failure_changes_nothing` |  |
| C28 | Views equal the map of the current documents | View, ViewMap, DocsHist | invariant linking entries tree, document map and invalidated set to the documents, over all histories | `C28_document`, `C28_exact`, `C28_after_mapping`, `C28_mapping_succeeds`, `C28_repeated_keys_refuted` | FINDING: values emitted twice for one key by one document are not kept (C28_repeated_keys_refuted). |
| C29 | Unique views never hold two documents for a key | View, ViewMap, DocsHist | invariant linking entries tree, document map and invalidated set to the documents, over all histories | `C29_one_per_key`, `C29_no_two_documents`, `C29_history`, `C29_unique_always`, `C29_violation_fails`, `C29_errors_are_conflicts` |  |
| C30 | Reduced values equal the reduction of the mapped values | View | reduced value of each entry = reduce of the mapped values, grouped and rereduced | `C30_grouped`, `C30_reduce`, `C30_reduce_all` |  |
| C31 | View queries return exactly the matching entries | Query | queries against the set of entries (specification: set of (key, source, value) with order, bounds and limit) | `C31_exact`, `C31_order`, `C31_filter`, `C31_limit_keys`, `C31_limit_refuted`, `C31_keys_ignore_limit`, `C31_denied`, `C31_with_docs`, `C31_with_docs_denied` | FINDING: the limit counts keys, not entries, so more entries than the limit are returned (C31_limit_refuted); queries for one key or a set of keys ignore limit and order (C31_keys_ignore_limit). |
| C32 | delete_docs deletes exactly the documents matching the query | Query | queries against the set of entries (specification: set of (key, source, value) with order, bounds and limit) | `C32_exact`, `C32_failed`, `C32_succeeds`, `C32_two_mappings_refuted` | FINDING: if a document has two mappings in the query the whole deletion fails (C32_two_mappings_refuted). |
| C33 | Changing a view's version rebuilds it | ViewSync | small-step model of scanner, mapper and waiting queries interleaved with transactions; invariant over all schedules | `C33_same_version`, `C33_other_version`, `C33_rebuilt`, `C33_crash`, `C33_concurrent_refuted` | FINDING: a transaction committed between reading the documents and dropping the trees can leave a document unmapped (C33_concurrent_refuted). |
| C34 | A waiting view query reflects all earlier transactions | ViewSync | small-step model of scanner, mapper and waiting queries interleaved with transactions; invariant over all schedules | `C34_waits`, `C34_earlier_transactions`, `C34_recreated`, `C34_recreated_refuted` | FINDING: after deleting and recreating a database of the same name the old status answers for the new one (C34_recreated_refuted). It relies on nebari showing the trees of a transaction before its id (C95_trees_before_log, C95_log_first_stale). C34_recreated: the recreated database answers correctly once its transaction ids have passed the old status or one of its own mapper jobs has finished. |
| C35 | The key-value store behaves like a map whatever the persistence schedule | Kv, KvSpec | refinement (simulation) of an abstract map with expirations; every schedule of commits, loads and expirations | `C35_map`, `C35_fresh`, `C35_schedule_irrelevant` |  |
| C36 | Conditional sets and set results are exact | Kv, KvSpec | refinement (simulation) of an abstract map with expirations; every schedule of commits, loads and expirations | `C36_set` |  |
| C37 | Increment and decrement follow the requested arithmetic | Kv, KvSpec | refinement (simulation) of an abstract map with expirations; every schedule of commits, loads and expirations | `C37_arith`, `C37_signed`, `C37_unsigned` |  |
| C38 | Expired keys disappear on time and only then | Kv, KvSpec | refinement (simulation) of an abstract map with expirations; every schedule of commits, loads and expirations | `C38_expiration`, `C38_others`, `C38_kept`, `C38_not_yet_loaded_refuted` | FINDING: until stored expirations are loaded after opening, keys that expired long ago are still readable (C38_not_yet_loaded_refuted); see C43. |
| C39 | A crash loses at most the unpersisted suffix of key-value changes | Kv, KvDisk | crash = keep only the disk tree, at any point of any history; invariant relating disk to a prefix of the commits | `C39_prefix`, `C39_committed`, `C39_reopen` |  |
| C40 | Shutting down persists every key-value change | Kv, KvDisk | crash = keep only the disk tree, at any point of any history; invariant relating disk to a prefix of the commits | `C40_shutdown`, `C40_in_flight_refuted`, `C40_failed_write_refuted` | FINDING: changes are lost if a write is in flight at shutdown, and for ever after one failed write (C40_in_flight_refuted, C40_failed_write_refuted). |
| C41 | Key-value namespaces do not interfere | Kv, KvSpec | refinement (simulation) of an abstract map with expirations; every schedule of commits, loads and expirations | `C41_separate`, `C41_commute`, `C41_collision_refuted` | FINDING: namespaces containing NUL, which nested namespaces always do, can collide (C41_collision_refuted). |
| C42 | Persistence thresholds commit exactly when a rule applies | Kv, KvDisk | crash = keep only the disk tree, at any point of any history; invariant relating disk to a prefix of the commits | `C42_should_commit`, `C42_delay`, `C42_order`, `C42_immediate`, `C42_operation_commits` |  |
| C43 | Loading expirations at startup never expires a live key | Kv, KvDisk | crash = keep only the disk tree, at any point of any history; invariant relating disk to a prefix of the commits | `C43_overwritten_refuted`, `C43_recreated_refuted`, `C43_loading` | FINDING: a key overwritten without expiration (or deleted and recreated) while expirations are loaded still expires by its old expiration (C43_overwritten_refuted, C43_recreated_refuted). |
| C44 | Background jobs with equal keys are shared and all waiters get one result | Jobs | invariant over enqueue/complete/panic steps of any schedule | `C44_results`, `C44_exactly_one`, `C44_one_job`, `C44_progress`, `C44_no_lost_result`, `C44_panic_refuted` | FINDING: after a job panicked, requests for its key are attached to it for ever and never answered (C44_panic_refuted). |
| C45 | File contents are the concatenation of the appended data | Files, FilesRead | list algebra over blocks; refinement of the buffered reader to (bytes, position); interleavings of append/truncate/delete | `C45_contents`, `C45_appends`, `C45_append_succeeds`, `C45_last_appended`, `C45_newest_time` |  |
| C46 | Truncating removes whole blocks from the requested side down to the requested length | Files, FilesRead | list algebra over blocks; refinement of the buffered reader to (bytes, position); interleavings of append/truncate/delete | `C46_truncate`, `C46_truncate_file`, `C46_concurrent_append_refuted` | FINDING: with a concurrent append truncation can remove bytes below the requested length or from the middle (C46_concurrent_append_refuted). |
| C47 | Buffered reading and seeking behave like a file | Files, FilesRead | list algebra over blocks; refinement of the buffered reader to (bytes, position); interleavings of append/truncate/delete | `C47_handle`, `C47_others`, `C47_seek_end_refuted`, `C47_seek_after_end_refuted`, `C47_empty_read_refuted`, `C47_deleted_refuted` | FINDING: seeking relative to the end or beyond it, reading into an empty buffer, and reading a file deleted meanwhile misbehave (four _refuted theorems). |
| C48 | Directory listings are exact | FilePath | string reasoning on encoded paths; the contract of C28-C32 for the ByPath view | `C48_list`, `C48_recursive_char`, `C48_recursive`, `C48_recursive_short`, `C48_recursive_omits_refuted`, `C48_recursive_empty_refuted`, `C48_nul_refuted`, `C48_stats` | FINDING: the recursive listing omits files whose name sorts below the encoded path length, lists nothing for the empty path; NUL in paths mixes directories (three _refuted theorems). C48_recursive_char states exactly what is returned. |
| C49 | A file can be found under the path it was created with | FilePath | string reasoning on encoded paths; the contract of C28-C32 for the ByPath view | `C49_unique`, `C49_load`, `C49_load_sound`, `C49_create`, `C49_move`, `C49_double_slash_refuted`, `C49_empty_name_refuted`, `C49_move_answer`, `C49_rename_answer`, `C49_stale_handle`, `C49_create_answer` | FINDING: '/a//b' is created as '/a/b'; renaming to an empty name is accepted and the file cannot be found any more (C49_double_slash_refuted, C49_empty_name_refuted). |
| C50 | Buffered appends write the same bytes as direct appends | Files, FilesRead | list algebra over blocks; refinement of the buffered reader to (bytes, position); interleavings of append/truncate/delete | `C50_buffered`, `C50_progress`, `C50_large_block_refuted` | FINDING: with blocks above 1 MiB write can accept nothing for ever (C50_large_block_refuted). |
| C51 | Restoring a backup reproduces the data | Backup, BackupPath | composition of the id, name and key-value codecs over any location (contract) and the folder location (refinement) | `C51_database`, `C51_succeeds`, `C51_storage`, `C51_folder`, `C51_no_collections_refuted`, `C51_dollar_refuted`, `C51_separator_refuted`, `C51_empty_refuted`, `C51_stale_refuted`, `C51_folder_names_refuted` | FINDING: six ways to lose or mix data otherwise, see the _refuted theorems. Revisions restart. |
| C52 | Stored blocks survive compression and encryption | Vault | framing followed byte by byte; cipher and lz4 are section variables with the law open (seal x) = x (C52_tampered: and with authenticity) | `C52_transformed`, `C52_plain`, `C52_roundtrip`, `C52_same_settings`, `C52_encrypted`, `C52_compression_only`, `C52_encryption_only`, `C52_tampered`, `C52_refused`, `C52_damaged`, `C52_trv_refuted`, `C52_zeros_refuted`, `C52_disabled_refuted` | Encryption and compression are parameters with the law 'open (seal x) = x'. FINDING: short blocks starting with 'trv' are corrupted, 28 zero bytes panic, disabling both settings returns raw bytes (three _refuted theorems). |
| C53 | A user's permissions are those of its groups and roles | Perms | sets of statements; operations on users | `C53_role`, `C53_user_actual`, `C53_user_without_roles`, `C53_user_lower_bound`, `C53_role_ignored_refuted`, `C53_wrong_role_refuted` | FINDING (security): a user's own roles are ignored and roles with the ids of its groups are used instead, so the natural claim (union with the permissions of its roles) is false: C53_role_ignored_refuted, C53_wrong_role_refuted. C53_user_actual states exactly what is computed. |
| C54 | Databases are created once, listed and deleted by name without touching others | Databases | refinement to a map name -> schema with file contents; path components | `C54_databases_refine`, `C54_accepted_names`, `C54_accepted_names_safe`, `C54_others_untouched`, `C54_created_empty`, `C54_delete`, `C54_unique_names`, `C54_empty_name_refuted`, `C54_delete_escapes_refuted`, `C54_reserved_refuted`, `C54_only_if_needed_refuted`, `C54_admin_deletable_refuted`, `C54_failed_delete_refuted` | FINDING: '' is accepted and deleting it erases the storage, deletion does not validate names ('../x'), databases may take the names of the vault's files, only_if_needed accepts another schema, '_admin' can be deleted (five _refuted theorems). FINDING: when deleting the database's files fails, the name is no longer listed and cannot be opened, and creating it again is refused as already used until the storage is reopened (C54_failed_delete_refuted). |
| C55 | PubSub topics of different databases are separate | PubSub | invariant over histories of subscribe/publish/receive | `C55_topics_separate`, `C55_delivery`, `C55_receive_order` |  |
| C56 | Sessions and token challenges | Sessions | state machine over session table, tokens, handles and subscribers | `C56_ids_never_reused`, `C56_challenge_once`, `C56_response`, `C56_begin`, `C56_token_login`, `C56_password_login`, `C56_challenge_has_no_permissions`, `C56_password`, `C56_assume_identity`, `C56_refused_login`, `C56_subscriber_ids`, `C56_drop_subscriber`, `C56_subscribers_stay_refuted`, `C56_sessions_stay_refuted`, `C56_user_exists_refuted` | FINDING: ending a session removes neither its subscribers nor, in fact, the session (C56_subscribers_stay_refuted, C56_sessions_stay_refuted). |
| C57 | Deleting a file leaves no data behind | Files, FilesRead | list algebra over blocks; refinement of the buffered reader to (bytes, position); interleavings of append/truncate/delete | `C57_no_orphans`, `C57_delete`, `C57_new_file_empty`, `C57_interleaved_refuted` | FINDING: deleting is two transactions; an append in between leaves blocks behind (C57_interleaved_refuted). |
| C58 | Signed durations add exactly | Time | integer arithmetic (lia/nia), the code's rounding and saturation followed literally | `C58_add_exact`, `C58_add_overflow`, `C58_sum_exact`, `C58_empty_sum_refuted`, `C58_sum_overflow`, `C58_limited_sum`, `C58_limited_sum_found`, `C58_limited_days_refuted` | FINDING: the sum of no elements is None instead of zero (C58_empty_sum_refuted). |
| C59 | Listing executed transactions pages through the whole log | Docs | paging through the log by induction on the number of pages | `C59_listing`, `C59_next_page` |  |
| C60 | load_or_create is idempotent | FilePath | string reasoning on encoded paths; the contract of C28-C32 for the ByPath view | `C60_load_or_create`, `C60_double_slash_refuted` | FINDING: with '//' in the path the second call fails (C60_double_slash_refuted). |
| C61 | Managing a user's groups and roles | Perms | sets of statements; operations on users | `C61_add_group`, `C61_remove_group`, `C61_remove_role`, `C61_add_role_by_id`, `C61_add_role_by_name_refuted`, `C61_create_user`, `C61_delete_user`, `C61_wellformed` | FINDING: adding a role by its name looks the name up among the permission groups (C61_add_role_by_name_refuted). |
| C62 | What a storage handle may do | Sessions | state machine over session table, tokens, handles and subscribers | `C62_restrict`, `C62_assume_session`, `C62_login_restricted`, `C62_database_unrestricted_refuted`, `C62_widen_refuted` | FINDING: the databases and the admin database opened from a restricted handle are not restricted, and a restricted handle without a session can widen itself by resuming (C62_database_unrestricted_refuted, C62_widen_refuted). |
| C63 | Client requests each get their own answer, once | ClientWorker | counting invariant (each call is in exactly one place) and id/keyed invariant over all histories | `C63_one_result`, `C63_results_final`, `C63_answer_origin`, `C63_right_answer`, `C63_response_delivered`, `C63_disconnect`, `C63_send_failure`, `C63_error_replayed_once`, `C63_early_response_refuted`, `C63_stale_error_refuted`, `C63_websocket_close_refuted`, `C63_id_reuse_refuted` | FINDING: over QUIC a response that is processed between writing the first request of a connection and registering it is dropped and the caller only times out (C63_early_response_refuted); the error of a lost idle connection is given to a later unrelated request (C63_stale_error_refuted); a cleanly closed websocket leaves outstanding requests without a result until another request is written (C63_websocket_close_refuted); ids wrap at 2^32 (C63_id_reuse_refuted). |
| C64 | The server answers each request once, in order of slots, without losing any | ServerQueue | per-connection local view of the global transition system; counting invariants; measure for termination | `C64_answers`, `C64_value`, `C64_limit`, `C64_no_lost_wakeup`, `C64_shutdown_began`, `C64_nothing_lost`, `C64_all_answered`, `C64_comes_to_rest`, `C64_responses_kept`, `C64_malformed_payloads_refuted`, `C64_leaked_slots_refuted`, `C64_graceful_shutdown_refuted` | FINDING: request.value.unwrap() in the worker: a client, authenticated or not, sending one payload whose value is an Err kills a request worker for good; with as many payloads as workers the server never answers anyone again (C64_malformed_payloads_refuted). A panicking handler also leaks its connection's slot (C64_leaked_slots_refuted). A graceful shutdown drops the responses of QUIC connections (C64_graceful_shutdown_refuted). |
| C65 | A request acts only with a live session of its own connection | ConnSessions | invariant: the tables equal what can be read off the list of past events | `C65_accepted_as`, `C65_allowed_exactly`, `C65_from_own_login`, `C65_recorded`, `C65_answers`, `C65_login_fresh`, `C65_one_connection`, `C65_logout_ends`, `C65_disconnect_ends`, `C65_no_interference`, `C65_logout_revokes_refuted` | FINDING (C65_logout_revokes_refuted): a request accepted before a log out was answered is still handled with the ended session's permissions. |
| C66 | Remote subscribers belong to one session and get each message exactly once | ConnSessions | invariant: the tables equal what can be read off the list of past events | `C66_fresh`, `C66_one_owner`, `C66_needs_session`, `C66_publish_exact`, `C66_nothing_else_sent`, `C66_subscription_effect`, `C66_unregister_effect`, `C66_created_exists_refuted` | FINDING (C66_created_exists_refuted): a subscriber created for a session that was logged out between acceptance and handling is dropped at once, although its id is returned (the TODO in register_subscriber). |
| C67 | A schema answers exactly as it was declared | Schematic | specification read off the declarations; invariant over registration | `C67_accepted`, `C67_rejected`, `C67_answers`, `C67_views`, `C67_summary`, `C67_errors_dropped`, `C67_shared_type_refuted` | FINDING (C67_shared_type_refuted): views are stored by Rust type, so registering one view type under two names is accepted, the first name then answers with the second view, a unique view may silently become lazy, and the collection lists it twice. |
| C68 | Remote calls behave like one server executing them one at a time | Remote (= ClientWorker + network + ServerQueue + data) | invariant of the composed system; linearizability by the log of executions; second invariant for progress | `C68_one_at_a_time`, `C68_at_most_once`, `C68_as_issued`, `C68_nothing_else`, `C68_returned`, `C68_real_time`, `C68_all_answered`, `C68_failed_but_executed_refuted`, `C68_pipelined_order_refuted` | Calls of one client object up to 2^32. FINDING: a call that was reported as failed may still be executed afterwards (C68_failed_but_executed_refuted); calls waiting at the same time may be executed in any order (C68_pipelined_order_refuted). |
| C69 | A storage directory has one owner and one identity | OpenStorage: id file, lock, any number of processes, byte-wise writes, crashes | invariants of the lock and of the id file over all event sequences; concrete race for the refutation | `C69_exclusive`, `C69_same_id`, `C69_configured`, `C69_never_rewritten`, `C69_configured_kept`, `C69_empty_id_refuted`, `C69_race_refuted` | FINDING: two overlapping first openings: the second truncates the id file of the first and later replaces the id; the vault key is then not found any more (C69_race_refuted). FINDING: a crash between the creation of the id file and its first byte makes every later open panic (C69_empty_id_refuted). With the encryption feature (the vault steps) only. |
| C70 | The vault's master key is never lost or replaced | OpenStorage: vault key storage and master-keys file (bincode formats), HPKE as parameter | invariant relating the files to each process; frozen-files lemma; progress by rank | `C70_same_key`, `C70_written_once`, `C70_checked`, `C70_calm`, `C70_reopens`, `C70_torn_refuted`, `C70_lost_key`, `C70_newest`, `C70_key_errors` | HPKE is a parameter with the law that opening undoes sealing. FINDING: a crash or write error while master-keys is written makes the directory unopenable for ever (C70_torn_refuted). A wrong vault key panics (C70_ex_wrong_key). Power failures (nothing is synced) are not modelled. |
| C71 | Named entries: load, insert-or-update with retries, delete by name | Entry: load, attempts, entry and delete_by_name as relations with other clients between any two accesses | induction over the attempts; C19-C23, C28, C29, C31 at each access | `C71_load`, `C71_writes`, `C71_returned`, `C71_none`, `C71_failed`, `C71_no_second_document`, `C71_delete_by_name`, `C71_still_named_refuted`, `C71_reference_id` | FINDING: the view and the document are read one after the other: the document an entry returns or updates may have lost the name in between, and a retry reloads by id (C71_still_named_refuted). If the name view is not unique, NamedReference::id takes the first mapping of the entry while load takes the lowest id. |
| C72 | Passwords: the last one set, and only that one, logs in | Passwords: the pool of hashing threads, the one-time parameter cell, set_user_password and authenticate as interleaved steps; the calibration loop as a function of the clock readings; Argon2 itself is a parameter | invariant over all schedules, a replay of returned calls as specification, a progress argument by induction on the queue | `C72_login`, `C72_right_password`, `C72_no_user`, `C72_which_user`, `C72_set`, `C72_only_set`, `C72_own_answer`, `C72_one_request`, `C72_served`, `C72_same_parameters`, `C72_calibration`, `C72_parameters_found`, `C72_accepts_only`, `C72_calibration_steady`, `C72_coarse_clock_refuted`, `C72_failure_kept`, `C72_not_bound_refuted`, `C72_default_ram`, `C72_default_hashers`, `C72_documented_ram_refuted` | FINDING: the user's id is mixed into the hash but read back from the stored hash and never compared, so a hash copied to another user's document accepts the first user's password (C72_not_bound_refuted). A failed calibration is kept: no password can be set until the storage is opened again (C72_failure_kept); a clock that shows 0 ns for the first attempt makes the calibration divide by zero and ends the hashing thread (C72_coarse_clock_refuted). The documented memory share (1/16 of the system) is not what is computed: at most 128 MiB in total (C72_documented_ram_refuted), and zero detected CPUs divide by zero. Collision freedom of Argon2 is a hypothesis of C72_login only. |
| C73 | Timestamps survive formatting and parsing, and distances between them are exact | TimeText: text of a timestamp as bytes, the parser with its two number parts, distances, sums of limited durations | exactness of the decimal notation by induction over digits, then the conversion theorems of C13 | `C73_text`, `C73_text_exists`, `C73_shortest`, `C73_roundtrip`, `C73_roundtrip_any_epoch`, `C73_injective`, `C73_to_string`, `C73_parse`, `C73_parse_floor`, `C73_parse_close`, `C73_parse_total`, `C73_parse_only`, `C73_plus_refuted`, `C73_parse_range`, `C73_since`, `C73_between`, `C73_since_answers`, `C73_documented_since_refuted`, `C73_before_1970_refuted`, `C73_display`, `C73_display_injective` | FINDING: each part of the text may begin with a plus sign and in the fraction the sign counts as a digit, so 1.+5 is read as 1.05 seconds (C73_plus_refuted). The documentation of duration_since has the None case the wrong way round (C73_documented_since_refuted). A SystemTime before 1970 makes duration_since and duration_between panic (C73_before_1970_refuted). to_string of a time before 1970 cannot be parsed back (C73_to_string gives the exact condition). |
| C74 | Keys with a variable number of bytes come back and sort | VarKey: every key type built on variable-length integers, the integer format a parameter with a contract | round trip and order from the contract: prefix-freeness gives the composite order of enums | `C74_numbers`, `C74_nonzero`, `C74_decoded_in_range`, `C74_next`, `C74_next_nonzero`, `C74_durations`, `C74_system_time`, `C74_before_1970_refuted`, `C74_duration_decoded`, `C74_duration_bytes_panic_refuted`, `C74_duration_bytes_differ_refuted`, `C74_trailing_bytes_refuted`, `C74_rejected`, `C74_limited`, `C74_enum_roundtrip`, `C74_enum_order`, `C74_enum_units`, `C74_enum_decoded` | FINDING: bytes that no encoder wrote can panic the Duration decoder (u64::MAX seconds with 10^9 or more nanoseconds), two different byte strings can be the same duration, bytes after a number are ignored, and a SystemTime before 1970 panics when used as a key (C74_*_refuted). The crate ordered_varint is a parameter with its documented contract (prefix-free, order preserving); a concrete format meets it. |
| C75 | Old databases' tuple and option keys can still be read | KeyV1: the deprecated tuple and option encodings, field types as in C01-C04 | induction over the fields; exact order by prefix-freeness of the length | `C75_roundtrip`, `C75_field`, `C75_trailing`, `C75_rejected`, `C75_order`, `C75_order_fixed`, `C75_order_refuted`, `C75_option`, `C75_option_order`, `C75_option_panics`, `C75_option_empty_refuted`, `C75_option_in_tuple_refuted`, `C75_option_next_refuted`, `C75_option_next`, `C75_truncated_refuted` | FINDING: as documented, variable-width fields sort by length first (C75_order_refuted). Not documented: an OptionKeyV1 field of a fixed width makes tuples unreadable or ambiguous (C75_option_in_tuple_refuted), truncated keys panic the reader (C75_truncated_refuted), None is its own next value and the first value is not the least (C75_option_next_refuted). |
| C76 | The same call gives the same result through every kind of handle | Dispatch: every delegation of the async, server, client and Any layers as records of operations over an arbitrary local implementation and world; error conversions; API names, registry, dispatch, AnyWrapper, send_api_request; a codec with a round-trip law (shown inhabited in DispatchExample). Not modelled: the transport itself (C66-C70 do that), JoinErrors from a runtime shutting down, encoding failures | case analysis over the calls; the registry by induction over the registrations | `C76_async`, `C76_async_panic`, `C76_async_storage`, `C76_async_handles`, `C76_async_storage_panic`, `C76_server`, `C76_server_storage`, `C76_server_handles`, `C76_last_id_blocking`, `C76_last_id_async_refuted`, `C76_remote`, `C76_remote_no_database`, `C76_remote_no_session`, `C76_remote_no_panic`, `C76_remote_panic`, `C76_last_id_remote_refuted`, `C76_remote_subscriber`, `C76_remote_storage`, `C76_bad_name`, `C76_remote_storage_no_session`, `C76_remote_authenticate`, `C76_remote_assume_identity`, `C76_remote_connection`, `C76_open_unchecked_refuted`, `C76_token_refuted`, `C76_any_local`, `C76_any_remote`, `C76_any_storage_local`, `C76_any_storage_remote`, `C76_any_handles_local`, `C76_any_handles_remote`, `C76_names_distinct`, `C76_builtin_wins`, `C76_every_builtin`, `C76_last_registration_wins`, `C76_unknown_api`, `C76_undecodable`, `C76_custom_api`, `C76_errors` | FINDING: AsyncDatabase::last_transaction_id skips the GetLastId permission check the blocking Database makes, so async, server and network handles answer it to anyone (C76_last_id_async_refuted, C76_last_id_remote_refuted). A client's database::<DB>(name) checks neither that the database exists nor its schema, and the server's handlers open it without a schema, so a schema mismatch is never reported over the network (C76_open_unchecked_refuted). The Authenticate handler is registered only with the feature password-hashing: a server built with token-authentication alone answers ApiNotFound (C76_token_refuted). |
| C77 | Typed key-value calls read back what was written | KvApi: the set/get/increment/decrement/delete builders, nested Namespaced handles, strict and lossy conversions of Numeric, expire_in/expire_at, over the store model of Kv/KvSpec (C34-C38); serde is an arbitrary encoder/decoder pair. Not modelled: the async builders (same bodies with await) | refinement of the store model to a map of cells, induction over the interleaved history, SpecFloat arithmetic for the conversions | `C77_set`, `C77_serialized`, `C77_bytes`, `C77_number`, `C77_take`, `C77_delete`, `C77_increment`, `C77_counter`, `C77_into_i64`, `C77_into_i64_refuted`, `C77_into_i64_saturates_refuted`, `C77_into_u64`, `C77_into_u64_refuted`, `C77_into_f64`, `C77_lossy`, `C77_no_panic`, `C77_expire_at`, `C77_expire_refuted`, `C77_builders`, `C77_builders_ok`, `C77_typed_reads`, `C77_previous_as`, `C77_arith`, `C77_nested`, `C77_nested_refuted`, `C77_wrong_type` | FINDING: strict into_i64 turns infinity and every float of at least 2^63 into i64::MAX instead of failing (C77_into_i64_refuted, C77_into_i64_saturates_refuted); strict into_u64 turns 2^-60 into 0 and 2^70 into u64::MAX (C77_into_u64_refuted) and refuses -0.0; expire_at with a time before 1970 and expire_in with a too long duration panic (C77_expire_refuted); nested namespaces collide when a key contains NUL or a name is empty (C77_nested_refuted). |
| C78 | Every call needs exactly its documented permission | Access: every check_permission of the local database, pub/sub, key-value store and storage with its resource name and position; what follows the checks is an arbitrary computation on an arbitrary world; permissions are any predicate on resource and action. Not modelled: how actionable matches statements with resource names | case analysis over the calls against the documented table of bonsai.rs, induction over the operations of a transaction | `C78_sufficient`, `C78_necessary`, `C78_nothing_else`, `C78_no_view`, `C78_query_with_docs`, `C78_delete_docs`, `C78_delete_docs_refuted`, `C78_delete_docs_probe_refuted`, `C78_storage_sufficient`, `C78_storage_necessary`, `C78_storage_nothing`, `C78_challenge_response`, `C78_user_exists_refuted`, `C78_resources`, `C78_databases`, `C78_names`, `C78_arguments` | FINDING: delete_docs never looks at the documented DeleteDocs permission on the view, nor at Query (C78_delete_docs_refuted), and even without any permission it tells whether the view has a matching entry (C78_delete_docs_probe_refuted); delete_user, set_user_password and the group and role calls report UserNotFound before checking permission, so anyone can ask whether a user exists (C78_user_exists_refuted). See C62 and C76 for handles that are not restricted. |
| C79 | Shutting a server down | `Shutdown.v`: tokio's watch channel (value, version, receivers with the version they saw), every task that holds a watcher with its reaction, `graceful_shutdown` and `shutdown` one await at a time, timers at any time; `listen_for_shutdown` one iteration at a time; the three tasks and queues of one QUIC stream. | Invariant over all event sequences (a watcher that has seen the current announcement and goes on is a draining listener or a websocket; a watcher implies no clean return), then case analysis of one poll; induction over the rest of the run for the forced case. | `C79_no_new_watchers`, `C79_not_spurious`, `C79_forced_ends`, `C79_remaining`, `C79_graceful_ends`, `C79_graceful_waits`, `C79_clean_return`, `C79_graceful_completes`, `C79_overtaken_refuted`, `C79_draining_refuted`, `C79_websocket_refuted`, `C79_should_shutdown_refuted`, `C79_listen`, `C79_one_interrupt_refuted`, `C79_stream`, `C79_outstanding_refuted`, `C79_queued_refuted` | FINDINGS: a graceful call made after (or racing with) a forced one overwrites its announcement, so websockets go on (C79_overtaken_refuted); a QUIC listener waiting for its connections to go idle is never told of a force (C79_draining_refuted); an open websocket ignores a graceful shutdown, although its request loop has ended, so the call always waits its whole timeout (C79_websocket_refuted); after a clean graceful shutdown, or any shutdown of a server without listeners, should_shutdown() stays false and listen_for_shutdown never returns (C79_should_shutdown_refuted); one SIGINT is taken for two, because the flag is not reset: the graceful shutdown gets 300 ms (C79_one_interrupt_refuted); outstanding and queued requests are dropped in a graceful shutdown (C79_outstanding_refuted, C79_queued_refuted). Not modelled: listen_for_secure_tcp_on does not stop on shutdown, and websockets that arrive later panic at expect("watcher shut down"). |
| C80 | Typed collection calls do exactly what they report | `Typed.v`: SerializedCollection, CollectionDocument, the list builder and LowLevelConnection function by function on top of the transactions of `Docs.v`; contents of any type with a serialization format as a parameter. `TypedSpec.v`: stored, absent, only_at, in_range. | Composition of C19, C21, C25 with the key theorems C03/C04; induction over the inserted documents for push_all; invariant that all ids of the collection are encodings of keys (next_value keeps a key in its type). | `C80_get`, `C80_insert`, `C80_push`, `C80_overwrite`, `C80_insert_conflict`, `C80_insert_refused_only`, `C80_update`, `C80_delete`, `C80_refresh`, `C80_push_all`, `C80_configure`, `C80_list`, `C80_get_multiple`, `C80_committed_error_refuted`, `C80_errors`, `C80_unreadable_refuted` | Contents of any type, format given by ser/de with de after ser the identity; digests assumed not to collide with the contents being written (no_collision). FINDING: for key types with an Option of a fixed size type among the fields of a composite the document is committed and the call then reports a key error or panics, since the new header's id cannot be decoded (C80_committed_error_refuted). FINDING: one document whose contents cannot be deserialized makes list and get_multiple fail for all documents in the range (C80_unreadable_refuted). |
| C81 | Typed view queries answer from the stored documents | `TypedView.v`: Mappings, the serializing view adapter, query, query_with_docs, query_with_collection_docs, reduce, reduce_grouped, delete_docs and the View builder, over the stored entries of `Query.v` and the typed documents of `Typed.v`; keys in any key type, values of any type with a serialization format as parameter. | Composition of C28/C29/C30/C31 (entries of the stored documents), C25/C80 (typed documents) and C03/C04 (order of encoded keys); a relation between typed and stored entries carried through filter, sort, limit and grouping. | `C81_mappings`, `C81_query`, `C81_limit`, `C81_configure`, `C81_range`, `C81_entries`, `C81_with_docs`, `C81_reduce`, `C81_grouped`, `C81_delete`, `C81_stale_panic_refuted`, `C81_stored_form`, `C81_bad_key` | The view is taken to be up to date (what the access policy does about that is C32/C33) and its map function to be able to map every stored document. FINDING: if the view is stale (AccessPolicy NoUpdate or UpdateAfter, or a document deleted between the two reads of one call) query_with_docs succeeds, and get or the iterators of the MappedDocuments it returns panic with 'missing mapped document' (C81_stale_panic_refuted). |
| C82 | Compaction covers every tree and the worker pool never gets stuck | `Workers.v`: the pool of worker threads over the job queue of `Jobs.v`, and the compaction jobs that queue jobs of their own and wait for them, one atomic step per lock acquisition. | Every step of the pool simulates steps of `Jobs.v`, so the invariant of C44 holds; an invariant for what each waiting worker still waits for; a decreasing measure for completion; an explicit schedule and a closed stuck state for the deadlock. | `C82_database`, `C82_collection`, `C82_completes`, `C82_deadlock_refuted`, `C82_panics_refuted` | What nebari's compaction of one tree does is not modelled. FINDING: a compaction of a collection or database occupies a worker while it waits for jobs that need a worker; with as many of them in progress as there are workers (two on a one-core machine) they wait for each other forever, and no view update, integrity scan or compaction of the whole storage ever finishes again (C82_deadlock_refuted). FINDING: a panicking job, such as a panicking map function, ends its worker thread, which is never replaced; after worker_count panics no background job runs any more (C82_panics_refuted). |
| C83 | A server presents the certificate that was installed | `Certs.v`: the install and listen calls as steps between their accesses to the database, the cached key and the pinned file, with failures, crashes and restarts; the certificate resolver, the choice of a connection protocol and the ACME accounts. X.509, TLS and the ACME protocol are not modelled. | Invariants over every interleaving for what can be presented; a step invariant for calls that run alone; witnesses for what interleavings and crashes break. | `C83_genuine`, `C83_install`, `C83_install_succeeds`, `C83_listen`, `C83_calm`, `C83_no_overwrite`, `C83_race_refuted`, `C83_overwrite_refuted`, `C83_failed_install_refuted`, `C83_pinned_refuted`, `C83_endpoint_refuted`, `C83_handshake`, `C83_protocol`, `C83_accounts`, `C83_accounts_refuted` | FINDING: two overlapping installs can both succeed and leave TLS listeners presenting the certificate that is not the stored one (C83_race_refuted); two self-signed installs without overwrite can both succeed, and a failed look-up counts as 'no certificate' (C83_overwrite_refuted); a key that any_ecdsa_type rejects (RSA, Ed25519) is only noticed after the certificate was stored: the call fails, and after the next restart no certificate is presented although listening succeeds (C83_failed_install_refuted); pinned-certificate.der can be stale or empty after a crash or with another server name (C83_pinned_refuted); QUIC endpoints keep the certificate they were started with (C83_endpoint_refuted); contacts with ';' can share an ACME account (C83_accounts_refuted). |
| C84 | Key types describe their encoding | `Describe.v`: the visits every key implementation and derived key makes, and the stack machine (KeyDescriber) that turns them into a description, with the growth of its vectors. | Induction on key types: the visits of a regular type act as recording one tree; counting for enums; injectivity of descriptions for plain types. | `C84_describes`, `C84_undescribed`, `C84_enum`, `C84_empty_struct`, `C84_determines`, `C84_lawful_key_refuted`, `C84_wrong_refuted`, `C84_ambiguous_refuted` | FINDING: #[derive(Key)] on an enum reports the number of variants but then visits every field, so that for_key panics for an enum with a variant of two or more fields (or with braces and none), although it is a lawful key: a schema with a collection keyed by it cannot be opened, and one with a view keyed by it cannot be listed (C84_lawful_key_refuted, C84_enum); so does a struct with braces and no fields (C84_empty_struct). Nested, such types can also yield a wrong description (C84_wrong_refuted). Arrays and null handling are not part of descriptions (C84_ambiguous_refuted). Also: limited-resolution times are described with their integer type, whose documented encoding is big-endian, but are encoded as varints. Vec::with_capacity is taken to give exactly the capacity asked for. |
| C85 | Backend hooks and connected clients of a server | ClientHooks.v: initialize_client, disconnect_client, connected_clients, broadcast, logged_in_as, log_out, OwnedClient and the Authenticate/AssumeIdentity/LogOutSession handlers as interleaved steps; the u32 client id is abstracted to a fresh number | invariant counting, per connection and session, what is pending and what was reported; induction on the history | `C85_once`, `C85_connected_first`, `C85_caused`, `C85_denied`, `C85_connected_clients`, `C85_broadcast`, `C85_each_ends`, `C85_disconnected_last`, `C85_quiet`, `C85_logout_after_login`, `C85_late_login_not_ended`, `C85_rejected`, `C85_every_login_ends_refuted`, `C85_ended_once_refuted`, `C85_ended_after_authenticated_refuted`, `C85_broadcast_accepted_refuted` | FINDING: a login handled while its client is leaving calls client_authenticated after client_disconnected and its session is never reported ended (C85_every_login_ends_refuted, C85_late_login_not_ended); a log-out handled then reports the session's end twice (C85_ended_once_refuted); a session may be reported ended before it is reported authenticated (C85_ended_after_authenticated_refuted); a connection the Backend rejects still gets client_session_ended and client_disconnected (C85_rejected), and receives broadcasts before client_connected has answered (C85_broadcast_accepted_refuted). |
| C86 | The executed-transaction log: stored form, upgrade, iteration | TxLog.v: compat.rs, list_executed_transactions, DocumentChanges::get/len/iter/into_iter; pot, bincode and transmog_versions are parameters | canonical form of the change table and its uniqueness; induction on the entry list | `C86_upgrade_exact`, `C86_upgrade_panics`, `C86_upgrade_bad_id`, `C86_same_as_new`, `C86_roundtrip`, `C86_reads_old`, `C86_reads_old_keys`, `C86_newer_refused`, `C86_list`, `C86_list_stored`, `C86_loops_agree`, `C86_get`, `C86_bad_entry_skipped_refuted`, `C86_old_log_readable_refuted`, `C86_fused`, `C86_into_fused_refuted` | FINDING: one entry that cannot be decoded makes list_executed_transactions fail as a whole (C86_bad_entry_skipped_refuted); a legacy entry with more than 65536 collections panics instead of failing (C86_old_log_readable_refuted).  pot, bincode and transmog_versions are not in /repo and are parameters with the laws stated in lawful_codec. |
| C87 | The asynchronous file appender keeps the byte stream | AsyncAppend.v: one step per poll of poll_write/poll_flush/set_buffer_size, one step per execution of a submitted transaction (Files.append; executed, answer lost or never sent), Drop with its spawned task, dropped futures; other clients on other files in between. | invariant over histories: accepted bytes = pieces already submitted ++ in flight ++ buffer, contents = old contents ++ landed pieces, lost pieces <= errors; C87_pieces, C87_stream, C87_flush, C87_pending, C87_progress, C87_no_panic, C87_drop; refutations by concrete histories. | `C87_pieces`, `C87_stream`, `C87_flush`, `C87_pending`, `C87_error_discards`, `C87_no_panic`, `C87_quick_answer`, `C87_quick_write`, `C87_progress`, `C87_default_size`, `C87_drop`, `C87_retry_refuted`, `C87_drop_pending_refuted`, `C87_order_refuted` | FINDING: (1) a flush whose transaction is answered within the poll that submits it leaves a finished future in flush_future: the next poll panics, and after such a flush inside poll_write dropping the appender panics on its assert (C87_quick_answer, C87_quick_write); (2) a failed asynchronous flush discards the buffered bytes, while the synchronous appender keeps them for the next try (C87_error_discards, C87_retry_refuted); (3) dropping the appender while a flush is pending can lose accepted bytes with no error anywhere, although with bytes buffered it would assert (C87_drop_pending_refuted); (4) the flush spawned by Drop is unordered with the next appender (C87_order_refuted). |
| C88 | Mapping a view is the same under every schedule, and when it can hang | DocumentRequest::map as a transition system of three stages over channels of capacity 1, with the batch's own document channel, p workers, and failures of each stage; the functions of View.v plugged in for C88_view. | an invariant over all reachable states, a decreasing measure for termination, and an invariant of the stuck states. | `C88_result`, `C88_saved_in_order`, `C88_ends`, `C88_no_hang`, `C88_success`, `C88_no_panic`, `C88_map_error_hangs`, `C88_save_error_hangs`, `C88_view`, `C88_always_returns_refuted`, `C88_map_error_panic_refuted`, `C88_io_error_panic_refuted`, `C88_zero_workers_refuted` | C88_result/C88_saved_in_order/C88_view: an Ok answer is the in-order save of every batch, each with a permutation of its documents' mappings. C88_ends/C88_no_hang/C88_success/C88_no_panic: every run is finite; without failures a run that cannot go on has answered Ok. FINDINGS: C88_map_error_hangs and C88_save_error_hangs: a failure with two more batches behind it is never answered (the receivers are borrowed by the frame of map and stay alive, so the bounded sends of the other stages block), while the transaction's locks are held; C88_map_error_panic_refuted, C88_io_error_panic_refuted, C88_zero_workers_refuted: errors that surface as panics. |
| C89 | The key-value background worker acts in time and sleeps otherwise | the state of Kv.v with the watched target, its version and the worker's program counter; the target computation with the saturating, not fully normalised Timestamp addition; a system and a monotonic clock. | an invariant: at every later time, if something is due the target is not later; and a sleeping worker whose version is current sleeps for the current target. | `C89_no_panic`, `C89_in_time`, `C89_expired_gone`, `C89_written`, `C89_sleeps`, `C89_same_store`, `C89_known`, `C89_within_a_day`, `C89_clock_jump_refuted` | C89_in_time, C89_expired_gone, C89_written: one turn of the worker at any time does all that is due, in terms of the map of C35. C89_sleeps: two turns bring it to rest. C89_same_store: the store under the worker is a history of Kv.v, so C35-C43 apply. C89_known: the hypothesis synced holds in a database opened empty. FINDING: C89_clock_jump_refuted: the sleep is measured with the monotonic clock, so after the system clock is set forward (or a suspend) an expired key stays until the sleep ends, at most a day (C89_within_a_day). Assumed of the watchable crate: a watcher that has read version v returns from watch once the version differs. |
| C90 | Asynchronous reading of a file is a position in its content | FilesAsync.v on top of the reader of Files.v: request/response channels, one optional turn of the fetching task before each round of the loop, tokio's read, read_exact and StreamExt::next as callers that may be dropped at any poll. Wakers and the end of the runtime are not modelled. | Invariant on the channels (what is requested or answered is a run of blocks from the current one), induction on the rounds of a poll with a decreasing weight, a potential for the bounded number of polls, then induction over the calls against an abstract handle. | `C90_handle`, `C90_poll_returns`, `C90_to_vec`, `C90_remaining_refuted`, `C90_failure_refuted`, `C90_failure_reported`, `C90_read_refuted`, `C90_seek_refuted` | C90_handle is the full claim for any schedule (with the lost bytes of read() explicit in the specification, and no promise for a seek while blocks are under way); C90_poll_returns, C90_to_vec. Four counter-theorems: C90_read_refuted, C90_remaining_refuted (for every file), C90_seek_refuted, C90_failure_refuted (for every history). Findings: poll_read returns Pending after having filled part of the caller's ReadBuf (tokio's read drops it); to_vec/into_vec use read_exact(len()); fetch_blocks numbers the received blocks from the current position at receipt; `requested` stays true after an error. |
| C91 | Files used by several clients at once | FilesConc (calls split into query and transaction), Files | invariant over all interleavings; a cut-off zone protects what trimming keeps; simulation of the reader by a database with the removed blocks put back | `C91_order`, `C91_call`, `C91_linearizable`, `C91_trimming`, `C91_reader`, `C91_two_sides_refuted`, `C91_reader_other_file_refuted`, `C91_reader_twice_refuted` | FINDINGS: concurrent truncations at both ends remove more than either asked for (C91_two_sides_refuted); block ids of removed blocks are used again, so an open reader of one file can return bytes of another file (C91_reader_other_file_refuted); blocks are numbered by their position in the answer, so a reader whose first unread block was removed returns a later block twice (C91_reader_twice_refuted). |
| C92 | A transaction uses its own collections' trees, and they are encrypted as declared | `OpenTrees.v`: the table of opened trees, the lookups of every operation, the settings of each tree (Vault.v) and a disk with writes, log entries and compactions; names of Names.v, schema of Schematic.v. | Invariant of the table (index and list agree, names distinct, every tree belongs to a collection of the transaction) by induction over the operations, with the injectivity of tree names (C17) and what the schema answers (C67); induction over the disk's history with C52. | `C92_trees`, `C92_unknown`, `C92_disjoint`, `C92_readers`, `C92_sealed`, `C92_compact_content`, `C92_same_type_refuted`, `C92_compact_plain_refuted`, `C92_compact_raw_refuted`, `C92_log_refuted` | nebari is not in /repo: that compaction reads and writes each chunk through the settings the tree was opened with, and that log entries are stored through the Roots' settings, is assumed. FINDING: compact_tree opens the tree without the collection's key, so compacting a collection with its own key stores it unencrypted when the storage has compression but no default key (C92_compact_plain_refuted), and without either it takes the ciphertext for the tree's data (C92_compact_raw_refuted). FINDING: log entries, with the ids of the changed documents, are encrypted only with a default key (C92_log_refuted). FINDING: one view type registered under two names, once eager and once lazy, makes every write to the collection panic (C92_same_type_refuted). |
| C93 | Derived collections, views and schemas are what their attributes say | Derive.v: attributes and fields as records, the generated impls as records, programs as maps from type numbers to derived types; define_collections runs Schematic.v's registration with a bound on call nesting; the at-rest settings of both places that build them, by cargo features. | Case analysis of the field loop through the list of marked positions; mutual induction on the inclusion tree reduces registration to one list of Schematic registrations, then C67; success at some depth implies success of everything included at a smaller depth, so cycles never succeed. | `C93_compiles`, `C93_collection`, `C93_view`, `C93_schema_name`, `C93_schema`, `C93_answers`, `C93_ranked`, `C93_cycle`, `C93_twice`, `C93_file_config`, `C93_file_registered`, `C93_api`, `C93_builds`, `C93_full_build`, `C93_optional`, `C93_required`, `C93_endless_refuted`, `C93_listed_elsewhere_refuted`, `C93_enum_natural_refuted`, `C93_private_refuted`, `C93_plain_build_refuted` | Findings: C93_plain_build_refuted (with neither the encryption nor the compression feature the checks are compiled out and an encryption_required collection is stored as plain bytes), C93_endless_refuted (two collection-less schemas including each other recurse for ever), C93_listed_elsewhere_refuted (a view is registered for the collection it names, not the one listing it), C93_enum_natural_refuted (#[natural_id] inside an enum is ignored), C93_private_refuted (no authority and authority "private" clash). |
| C94 | Only clients of the server's protocol version are connected | Handshake.v: headers as an ordered list, split on commas and trimming, both answers, the client's reading of the answer, ALPN as the intersection of the two lists, the message loop. | join/split lemmas relate the list grammar to an independent 'offers' relation; induction over messages. | `C94_accepts`, `C94_client`, `C94_upgrade`, `C94_messages`, `C94_hyper_unversioned_refuted`, `C94_second_line_refuted` | Findings: C94_hyper_unversioned_refuted (upgrade_websocket, the hyper entry point, never compares versions), C94_second_line_refuted (only the first header line is read). tungstenite's own header checks, TLS/ALPN in fabruic, SHA-1, base64 and bincode are parameters or assumed. |
| C95 | Transactions that overlap in time behave as if executed one after the other | ConcTx.v: in-flight transactions over the trees of Docs.v, with locks per tree, and the steps of commit in any order; ConcTxSpec.v: serial execution. | Frame lemmas (an operation reads and writes only the trees its collection locks, by agreement on sets of trees), an invariant relating published trees, private trees and the serial state, induction over traces. | `C95_serializable`, `C95_failed_leaves_nothing`, `C95_at_rest`, `C95_never_stuck`, `C95_trees_before_log`, `C95_two_reads_refuted`, `C95_log_first_stale` | Overlapping transactions taken apart into steps (begin with the lock of exactly the trees open_trees_for_document_change and map_view name, each operation, invalidation, publication of each tree, log entry, end). Proved for all interleavings: serializability with real-time order, equality of results, log and final trees, single-tree reads explained, failed transactions removable, no waiting once the locks are held, at rest the state is one of those C19-C34 speak of. Assumed of nebari: atomic acquisition of the locks, private copies, locks held to the end; failing writes are not modelled. Found: two reads are not atomic (C95_two_reads_refuted), and C34 needs nebari to show a transaction's trees before its id: with the opposite order a view is marked current without the last documents (C95_log_first_stale); with the right order every visible log entry's changes are visible (C95_trees_before_log). |
| C96 | Requests of a client in a browser | WasmWorker.v: the starter, the forwarding task, the callbacks and the task of on_open as events on a state of connections; garbage collection of the closures is an event | counting invariants over all histories (places, sends, actors), an invariant for stuck connections, and computed counterexamples | `C96_accounted`, `C96_one_result`, `C96_answer_origin`, `C96_one_actor`, `C96_sent_once`, `C96_stuck_in_connecting`, `C96_always_answered_refuted`, `C96_rest`, `C96_collected`, `C96_stale_error`, `C96_recovers`, `C96_explained`, `C96_stale_origin`, `C96_never_displaced` | C96_always_answered_refuted: a request handed to a connection that never opens (it times out or is refused) is kept in the closure of on_open and never answered; C96_stuck_in_connecting says so for every such history. C96_stale_error: when an idle connection closes, the next request is not sent but fails with the old connection's error (as in the native websocket worker). Dropping the client is not modelled, nor the payloads of custom APIs. |
| C97 | Documents and views used by several remote clients behave like one local database | RemoteDocs.v: handlers over Docs.v/Query.v as the exec of Remote.v; RemoteDocsProofs.v: what one handler does to a document | C68's serialisation lifted to database states by induction over the executed requests; reach as the invariant; real-time order from C68_real_time; frame and monotone-revision lemmas for the rest | `C97_server_state`, `C97_returned`, `C97_read_written`, `C97_query_written`, `C97_query_exact`, `C97_delete_exact`, `C97_get_exact`, `C97_list_exact`, `C97_log_exact`, `C97_no_lost_update`, `C97_malformed`, `C97_apply_exact`, `C97_refused_changes_nothing` | Composition of C68 (every schedule of clients and server is one order of executions) with the document and view model of C19-C34. A handler is one atomic action (C95 and C34 are about the overlaps inside the local database), the mapper job of a query runs inside the query (access policy UpdateBefore), integrity checks are done, one database, the sessions' permissions are fixed. 'Exactly those contents' is up to a collision of the revision hash, as in C21: an update whose hash equals the stored one keeps the stored contents. |
| C98 | The key-value store shared by remote clients is one atomic map | RemoteKv.v: the handler over Kv.v as the exec of Remote.v, with arbitrary background events and clock readings before every request | C68's serialisation and the simulation of Kv.v by the plain map of KvSpec.v, lifted to the executed requests by induction; invariants per key for counters, locks and mailboxes; real-time order from C68_real_time | `C98_store`, `C98_returned`, `C98_increment`, `C98_unique_numbers`, `C98_no_lost_increment`, `C98_lock_exclusive`, `C98_lock_visible`, `C98_taken_once`, `C98_read_written`, `C98_no_panic` | Composition of C68 (one order) with C35-C38 (the store is a map). The store's lock makes the operation one atomic action in the code, too. The expiration loader has finished (C43, C89); the sessions' permissions are fixed; one database. A failed (disconnected) call may still be executed (C68), so an increment whose call failed may count. |
| C99 | Serde forms of documents, transactions and key-value operations come back | SerdeForm.v: serde's data model as trees, formats as choices made when writing a tree, the derived and hand-written readers type by type | a lemma per combinator (integers, vectors, options, structs, variants), then each type; exact characterisations of the two visitors by induction on the map | `C99_documents`, `C99_collection_document`, `C99_transactions`, `C99_names`, `C99_key_values`, `C99_same_form`, `C99_collection_document_map`, `C99_collection_document_seq`, `C99_header_map`, `C99_array`, `C99_wellformed`, `C99_header_seq`, `C99_optional_field`, `C99_option`, `C99_json_refuted`, `C99_long_id`, `C99_stored_names` | Findings: a document's JSON form can be written but never read (C99_json_refuted); an id longer than the limit is accepted when received (C99_long_id). Formats are described by four choices, their texts are not modelled; whether the external type arc_bytes::Bytes reads lists of numbers is a parameter. |
| C100 | Records of earlier versions are read | SerdeForm.v: records with defaulted fields, retrieve_key, scan_entries, deserialize_document | what a reader finds when the last field is missing, by induction on the fields; induction over the store | `C100_old_user`, `C100_old_entry`, `C100_old_entry_refuted`, `C100_entries`, `C100_documents`, `C100_view_version` | Finding: #[serde(default)] on Entry::last_updated has no effect in bincode (C100_old_entry_refuted): an entry written before the field existed reads as absent and makes a backup fail. The byte level of pot and bincode is a parameter. |
| C101 | A remote subscriber receives what is published, in order and once | RemotePubSub.v: the server's subscribers of one connection with their queues, the first-in-first-out wire, the client's SubscriberMap and handles, and every step either side can take. | An invariant relating each handle to the messages it is due (a fold over the history), kept by every step; drains by induction on the queue and the wire; refutations by concrete histories. | `C101_delivery`, `C101_complete`, `C101_prefix`, `C101_arrives`, `C101_only_subscribed`, `C101_unsubscribed`, `C101_waits`, `C101_receive_ends`, `C101_independent`, `C101_after_unsubscribe_refuted`, `C101_receive_ends_quic_refuted`, `C101_late_register_refuted`, `C101_stale_drop_refuted` | Assumption: circulate's relay counts subscriber ids from the start in a new process (used only by C101_stale_drop_refuted). Which requests a session may make is C66, the server's relay C55. Findings: the QUIC worker clears the subscriber map only once; create_subscriber's registration races with the reconnect's clear; ids are reused after a server restart. |
| C102 | Awaiting an asynchronous builder makes the blocking builder's calls, each once | AsyncBuilders.v: builders as state machines over programs of calls; poll advances as far as the answers go; the bodies of the set, get, increment, list and entry builders. | One induction on the program shows a sequence of polls equals a prefix of the blocking run; the builders are instances. | `C102_same`, `C102_once`, `C102_lazy`, `C102_dropped`, `C102_completes`, `C102_no_reuse`, `C102_set`, `C102_get`, `C102_increment`, `C102_list`, `C102_entry`, `C102_entry_result`, `C102_entry_options` | The results of the blocking builders are C80 (lists), C77 (key-value) and C71 (entries). expire_in counts from the call of expire_in, not from the await. |
| C103 | Vault keys kept in S3: each storage's own, read back, never replaced by opening | S3Keys.v: names, the object store with failing calls and requests still under way, Vault::initialize and unseal step by step for any number of directories | invariant over all histories: a master-keys file, whole or cut off, was sealed for the key pair in the object; the elliptic curve operations are parameters with a lawfulness hypothesis | `C103_objects`, `C103_name`, `C103_region`, `C103_builders`, `C103_read_back`, `C103_no_key`, `C103_put_failed`, `C103_same_key`, `C103_opens`, `C103_retry`, `C103_noticed`, `C103_missing`, `C103_own_only`, `C103_quiet`, `C103_late_put_refuted` | FINDINGS: (1) C103_late_put_refuted: a put that was reported as failed and is carried out later replaces the key of a later, successful initialisation; the next opening panics (unwrap of the HPKE opening) and the data are lost. (2) C103_region: without an endpoint the configured region is ignored. Assumes that the service stores objects as a whole and returns the last one put. LocalVaultKeyStorage is in C70. |
| C104 | A server with ACME keeps its certificate renewed | Acme.v: the loop of the task as a state machine in time, for any number of tasks, with the served key, the challenge keys and a log of the orders begun. duration_until_renewal_attempt is a parameter of every theorem. | Invariants over all runs: a sleeping task watches a key that was served (a prefix of the run shows it) and slept from a moment at which more than two weeks were left; the single-listener bound by an invariant over the places of the task. | `C104_only_when_due`, `C104_failure_refuted`, `C104_failed_order`, `C104_served`, `C104_stale_refuted`, `C104_short_refuted`, `C104_in_time`, `C104_kept`, `C104_at_once`, `C104_challenge`, `C104_two_refuted` | Findings (C104_failure_refuted, C104_stale_refuted, C104_two_refuted, C104_short_refuted): acme.rs:99 clones the key outside the waiting loop; the ? of acme.rs:127 ends the task for good, which is only logged; one task per listener; no back-off. |
| C105 | The command-line tools do what was typed, as who was asked for | Cli.v: the loop over the input's bytes, the user commands over any storage with any answers, CollectionOrView::from_str on the parsers of C16, and the actions of the top-level tool as a log with every action able to fail. | Equations between inputs (typing a character and Backspace is typing nothing, in any context), case analysis for the commands, and a plan given beforehand of which every run is a prefix, all of it if it succeeds. | `C105_typed`, `C105_backspace`, `C105_backspace_empty`, `C105_clear`, `C105_ignored`, `C105_cancel`, `C105_confirmed`, `C105_not_ascii_refuted`, `C105_crlf_refuted`, `C105_create`, `C105_set_password`, `C105_one_call`, `C105_create_refuted`, `C105_items`, `C105_listed`, `C105_listed_refuted`, `C105_plan`, `C105_runs`, `C105_builtin_refuted` | Findings: C105_not_ascii_refuted (cli.rs:204 pushes `other as char`), C105_crlf_refuted, C105_create_refuted, C105_listed_refuted (Display lists the unescaped name, FromStr parses the escaped one), C105_builtin_refuted. Terminal errors and printing are not modelled. |
| C106 | Errors name what they are about | Errors.v: the two helpers, the view whose map request fails, and the error an application gets from apply_transaction of Docs.v. | the failing operation of a transaction is found by induction on its operations; C21 says when a conflict is reported and with what; the unique case follows the failing eager view through update_eager_views and reuses the lemma of C29. | `C106_conflicting_document`, `C106_current`, `C106_retry`, `C106_own_header`, `C106_own_header_refuted`, `C106_uncommitted_refuted`, `C106_unique`, `C106_is_unique_key_error`, `C106_same_name`, `C106_unique_any` | Refuted: after a delete conflict conflicting_document gives back the caller's own stale header (database.rs:652-655), and after a failed check likewise (743-746), so its documentation 'the header of the conflicting document' holds only for inserts and updates; within one transaction the header may be of a revision that was rolled back. That the error names the very view is stated for transactions of one operation, under the hypotheses of C29. C106_unique_any: the same for a violation anywhere in a transaction, at the state the operations before the failing one make. |
| C107 | Sessions and identities are compared by who they are | SessionEq.v: identities, authentication states and sessions with their equality and what they feed a hasher. | case analysis against an inductive specification of 'the same who'. | `C107_equal`, `C107_equivalence`, `C107_hash`, `C107_renamed`, `C107_other`, `C107_permissions_refuted` | Refuted: equal sessions being interchangeable. Two sessions of one user with different permissions and ids are equal and hash alike, so a map keyed by Session mixes them up. |
| C108 | A client's session: reported while current, logged out once when its last handle goes | ClientSession.v: the Arcs, the handles with the two steps of a drop, the connection counter and the answers in flight, as a state machine. | an invariant over all schedules (a logged out Arc has no handle in use; tags lie between the connection of the answer and the counter). | `C108_at_most_once`, `C108_not_in_use`, `C108_only_drops`, `C108_drop`, `C108_race_refuted`, `C108_reported`, `C108_gone_after_reconnect`, `C108_stale_refuted`, `C108_lost_refuted` | Refuted: (1) two handles dropped at the same time can each read a strong count of 2, so the session is never logged out (C108_race_refuted); (2) the connection counter is read after the answer arrived, so if the connection was replaced in between, a session the new connection does not know is reported as current (C108_stale_refuted); (3) after the connection is lost the session is still reported until the next request connects again (C108_lost_refuted). Requests carry the id of an outdated session all the same (client.rs:497). |
| C109 | Building a client, and messages it did not ask for | ClientBuilder.v: the builder as a fold of setter calls, the scheme dispatch of new_from_parts, the callback table and the dispatch of a received payload | induction on the list of calls, from the end, against the specification 'the last call of each kind'; case analysis on the payload | `C109_worker`, `C109_settings`, `C109_apis`, `C109_callback`, `C109_answer`, `C109_certificate_refuted`, `C109_callback_lost_refuted`, `C109_error_refuted`, `C109_survives` | C109_certificate_refuted, C109_callback_lost_refuted and C109_error_refuted are the three findings, stated as theorems about the code as it is. |
| C110 | What a storage and a server are opened with | Config.v: both Builder implementations transcribed separately, what open does with each setting, and the sockets of serve | induction on the list of calls against 'the last call of each kind'; equality of the two Builder implementations setter by setter | `C110_storage`, `C110_refused`, `C110_server`, `C110_server_refused`, `C110_workers`, `C110_opened`, `C110_open_server`, `C110_files`, `C110_memory_refuted`, `C110_schema_replaced_refuted`, `C110_serve`, `C110_localhost_refuted`, `C110_serve_refuted` | C110_memory_refuted, C110_schema_replaced_refuted, C110_localhost_refuted and C110_serve_refuted are the four findings, stated about the code as it is. |

## What is modelled and what is not

| crate, file | modelled | not modelled |
|---|---|---|
| core `key.rs`, `key/*`, macros `Key` derive | all encodings of primitive, composite, enum, optional, array keys, prefix ranges, `next_value` (C01-C10); variable-length integers (C74, the integer format of the external crate ordered-varint is a parameter); the deprecated tuple and option encodings (C75); key descriptions (C84); durations and timestamps with their text form (C13-C15, C58, C73) | borrowing (`CowBytes`, `CowString`), `chrono` conversions |
| core `document/*` | ids (text form, limits), revisions, headers, `CollectionDocument`, their serde forms (C99) | `BorrowedDocument`/`OwnedDocument` plumbing |
| core `schema/*`, macros `Collection`/`View`/`Schema` derives | names, `Schematic`, summaries, the map/reduce contract, natural ids, what the derives generate (C93), named entries (C71) | the parsing of attributes by `syn`/`attribute-derive` |
| core `connection.rs`, `connection/lowlevel.rs` | the semantics of each call, the typed calls and their builders (C80, C81), the layers that delegate (C76), the permission of each call (C78) | the hand-written state machines of the futures (`AsyncGet`, …): each runs the synchronous twin's call once |
| core `transaction.rs`, `admin/*`, `permissions/*`, `pubsub.rs`, `keyvalue/*`, `api.rs`, `networking.rs` | yes; serde forms of transactions and key-value operations (C99, C100) | serde forms of the remaining messages; how `actionable` matches statements with resource names |
| local `database.rs`, `database/*`, `open_trees.rs` | transactions, also overlapping ones (C95), reads, queries, `delete_docs`, the log with its old format (C86), automatic ids, permissions, the opened trees and their encryption (C92), key-value store with background commits, expiration, worker timing and shutdown, pub/sub | I/O errors on reading |
| local `views/*`, `tasks/*` | mapper, mapping pipeline with its threads and channels (C88), integrity scanner, job manager, waiting queries, worker pool and compaction jobs (C82) | what compaction does inside nebari |
| local `storage.rs`, `storage/*`, `vault.rs` | databases, sessions, token challenges, users, passwords with the hashing threads (C72), backups, block framing, opening (id file, lock, vault keys) | the CLI (`cli.rs`, `cli/*`): argument parsing around the modelled calls |
| files | blocks, appending, truncating, reading, paths, listings; the asynchronous appender (C87) and reader (C90); several clients at once (C91) | — (the asynchronous twins of the remaining calls differ from the synchronous ones only by `.await`) |
| client | request multiplexing of the QUIC, WebSocket and browser workers (C63, C96), end-to-end calls (C68), protocol versions (C94), API callbacks | the builder, TLS |
| server | request loop, workers, responses, shutdown (C64, C79), sessions and subscribers of connections, backend hooks and the table of clients (C85), certificates and the ACME bookkeeping (C83), custom APIs, handshakes (C94) | HTTP itself, the ACME protocol, TLS, the CLI |
| keystorage-s3 | S3Keys | names of objects, both calls with failures, late requests; the vault over it. Not: the aws sdk, credentials, tokio runtimes |
| network | in-order streams that may stop | the byte encoding of payloads (`pot`, `bincode`) |

## Wrong programs

`seeded/LOG.jsonl` records every seeded bug: the definition edited, the edit, the claim it breaks,
the theorems that failed (found by replacing each failing proof with `Admitted` and asking
`Print Assumptions` which property theorems depend on it), and the theorems that were tightened or
added when an edit survived.

## Findings

Each is a `_refuted` theorem (see the remark column above). The most consequential ones:

* C53/C61: a user's own roles are ignored (`user.rs` passes `self.groups` to `Role::get_multiple`); adding a role by name looks it up among the permission groups.
* C62, C56: restrictions of a storage handle are dropped by `database()`/`admin()`; ended sessions stay alive; `delete_docs` by view name never checks its permission.
* C64: one malformed payload ends a request worker for good; as many payloads as workers stop the server.
* C54: deleting a database does not validate the name; `""` is a valid name and deleting it erases the storage.
* C51: a backup of a schema without collections loses the key-value store; ids `[0x11]` and `"$11"` are stored in one file; restoring over an old backup resurrects deleted documents.
* C40/C43: key-value changes are lost when a write is in flight at shutdown, and a re-created key may expire by its old expiration.
* C52: short unencrypted blocks starting with `trv` are not read back as written.
* C48/C49/C60: recursive listings omit files whose names sort low; `//` in paths.
* C02/C04/C09/C10: signed integer keys do not sort numerically, escaped nulls break composite order, automatic ids on signed keys get stuck.
* C06: decoding a composite key of foreign bytes can panic.
* C63/C68: a QUIC response that is early is dropped; a call reported as failed may still be executed.
* C95: correctness of a reader that skips what the transaction log says it has seen rests on nebari showing a transaction's trees before its id (`C95_log_first_stale`).
* C96: in a browser, requests handed to a connection that never opens are never answered.
* C67: one view type registered under two names.

Reviewed but not modelled: `stats()` omits files created
with relative paths; QUIC clients do not clear their subscriber map on reconnect.
