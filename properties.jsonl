{"id": "C01", "title": "Unsigned integer keys sort numerically and round-trip", "statement": "For every unsigned integer key type (u8..u128), the bytes produced for a key compare (byte-wise, lexicographically) exactly as the integers compare, decoding the bytes gives back the integer, and decoding rejects any other byte length.", "quantifier": "every width, every pair of values of that width, every byte string offered to the decoder", "why_tests_cant": "2^128 values and all pairs; only boundary samples can be run", "anchors": ["crates/bonsaidb-core/src/key.rs:impl_key_for_primitive", "crates/bonsaidb-core/src/key.rs:KeyEncoding::as_ord_bytes", "crates/bonsaidb-core/src/key.rs:Key::from_ord_bytes"]}
{"id": "C02", "title": "Signed integer keys sort numerically and round-trip", "statement": "For every signed integer key type (i8..i128) encoding then decoding returns the value, and the encoded bytes compare as the two's complement patterns do: values of the same sign compare as the integers, and every negative value sorts after every non-negative one.", "quantifier": "every width and every pair of values", "why_tests_cant": "all pairs of 128 bit values", "anchors": ["crates/bonsaidb-core/src/key.rs:impl_key_for_primitive"]}
{"id": "C03", "title": "Composite keys round-trip", "statement": "Decoding the encoding of any tuple, derived struct or derived enum key returns the original value and consumes the whole input, for every arity and every nesting of fixed-length and variable-length fields, including fields containing null bytes, provided that no composite has a field that is an Option of a fixed-length type.", "quantifier": "every tuple arity, every field type mix and every field value", "why_tests_cant": "field contents, lengths and arities are unbounded", "anchors": ["crates/bonsaidb-core/src/key.rs:CompositeKeyEncoder", "crates/bonsaidb-core/src/key.rs:CompositeKeyDecoder", "crates/bonsaidb-core/src/key.rs:impl_key_tuple"]}
{"id": "C04", "title": "Composite keys sort field by field", "statement": "Byte order of two encoded keys of the same type equals the Rust order of the values (fields compared first to last), for all values that contain no negative signed integer and, inside composites that allow or escape nulls, no null byte in a variable-length field.", "quantifier": "every pair of composite values of the same shape", "why_tests_cant": "pairs of unbounded strings", "anchors": ["crates/bonsaidb-core/src/key.rs:CompositeKeyEncoder::encode", "crates/bonsaidb-core/src/key.rs:CompositeKeyEncoder::finish"]}
{"id": "C05", "title": "Composite encoding fails exactly when documented", "statement": "Encoding a composite key fails if and only if some variable-length field is longer than 65535 bytes after null handling or (in the deny-null mode) contains a null byte; it never truncates silently.", "quantifier": "every field list and every null handling mode", "why_tests_cant": "unbounded contents", "anchors": ["crates/bonsaidb-core/src/key.rs:CompositeKeyEncoder::encode", "crates/bonsaidb-core/src/key.rs:EscapeNullBytes", "crates/bonsaidb-core/src/key.rs:DenyNullBytes", "crates/bonsaidb-core/src/key.rs:AllowNullBytes"]}
{"id": "C06", "title": "Decoding arbitrary composite bytes never panics", "statement": "Offering any byte string to the decoder of a key type returns a value or an error and never panics, for all types whose composites have only fields of fixed length; and integers, byte arrays, byte strings, strings and composites of those with fixed lengths accept no byte string but the encoding of the value returned.", "quantifier": "all byte strings, all expected field layouts", "why_tests_cant": "the input space is all byte strings", "anchors": ["crates/bonsaidb-core/src/key.rs:CompositeKeyDecoder::decode", "crates/bonsaidb-core/src/key.rs:decode_nulls_if_needed"]}
{"id": "C07", "title": "Byte prefix ranges select exactly the keys with the prefix", "statement": "The key range built from a byte-string prefix contains a key if and only if the key starts with the prefix.", "quantifier": "every prefix and every key", "why_tests_cant": "all byte string pairs, including trailing 0xFF runs", "anchors": ["crates/bonsaidb-core/src/key.rs:next_byte_sequence", "crates/bonsaidb-core/src/key.rs:IntoPrefixRange"]}
{"id": "C08", "title": "String prefix ranges select exactly the strings with the prefix", "statement": "The key range built from a string prefix contains a string key if and only if the string starts with the prefix, and the order used is that of the UTF-8 bytes, which is also the order of the code points.", "quantifier": "every pair of Unicode strings", "why_tests_cant": "all Unicode strings, including surrogate-adjacent and maximal code points", "anchors": ["crates/bonsaidb-core/src/key.rs:IntoPrefixRange for String", "crates/bonsaidb-utils/src/lib.rs:next_string_sequence"]}
{"id": "C09", "title": "Option, Result, bool, unit, array and non-zero keys sort and round-trip", "statement": "Option, Result, bool, unit, byte array and NonZero keys, in every nesting, round-trip and their byte order equals the Rust Ord order, for values without negative integers; NonZero decoding rejects zero.", "quantifier": "every value of an order-preserving inner key type", "why_tests_cant": "closed under nesting, so infinitely many types", "anchors": ["crates/bonsaidb-core/src/key.rs:impl KeyEncoding for Option", "crates/bonsaidb-core/src/key.rs:impl KeyEncoding for Result", "crates/bonsaidb-core/src/key.rs:impl KeyEncoding for bool", "crates/bonsaidb-core/src/key.rs:impl_key_for_primitive"]}
{"id": "C10", "title": "Automatically assigned document ids are fresh and increasing", "statement": "Each insert without an explicit id gets an id under which no document existed, so it never overwrites a document; with unsigned and non-zero unsigned ids, and with signed ids as long as the collection holds no negative one, the id is greater than every id present; when the key type has no next value the insert fails with no effect.", "quantifier": "every history of transactions and every id type with a next value", "why_tests_cant": "depends on the whole insert/delete history", "anchors": ["crates/bonsaidb-local/src/database.rs:execute_insert", "crates/bonsaidb-core/src/schema/schematic.rs:next_id_for_collection", "crates/bonsaidb-core/src/key.rs:next_value"]}
{"id": "C11", "title": "Document ids survive formatting and parsing", "statement": "Parsing the textual form of a document id returns the same id, for every id except printable ones that contain '$'.", "quantifier": "every document id (any bytes up to the maximum length)", "why_tests_cant": "all byte strings up to 65535 bytes", "anchors": ["crates/bonsaidb-core/src/document/id.rs:Display for DocumentId", "crates/bonsaidb-core/src/document/id.rs:FromStr for DocumentId", "crates/bonsaidb-core/src/document/id.rs:decode_big_endian_hex"]}
{"id": "C12", "title": "Document ids never exceed the maximum length", "statement": "A document id built from bytes is rejected exactly when it is longer than the documented maximum of 65535 bytes; parsing text gives an id within the limit if the text has at most 131070 bytes or contains no '$'.", "quantifier": "every input string or byte slice", "why_tests_cant": "inputs are unbounded", "anchors": ["crates/bonsaidb-core/src/document/id.rs:DocumentId::MAX_LENGTH", "crates/bonsaidb-core/src/document/id.rs:FromStr for DocumentId"]}
{"id": "C13", "title": "Limited-resolution timestamps convert faithfully", "statement": "For each resolution (ns, us, ms, s, min, h, d, w): converting a timestamp to a duration or time and back returns the same timestamp, for every value but the smallest one (ns and days: for every value); converting a time rounds down for times at or after the epoch and for resolutions down to seconds, and is less than one unit off in every case where it succeeds (days: unless it yields the smallest value); an error is reported only when the time does not fit.", "quantifier": "every representation value and every signed duration", "why_tests_cant": "64-bit representation spaces", "anchors": ["crates/bonsaidb-core/src/key/time.rs:TimeResolution", "crates/bonsaidb-core/src/key/time.rs:SignedDuration"]}
{"id": "C14", "title": "Key-value timestamp arithmetic is monotone and normalised", "statement": "Adding a duration to a key-value timestamp is exact, never yields an earlier timestamp, and is monotone in the duration as long as the sum is representable, and never panics; the nanosecond part of a sum stays below one second unless the nanoseconds add up to exactly one second; the difference of two timestamps is exact, and absent when it would be negative.", "quantifier": "every timestamp and every duration", "why_tests_cant": "96-bit inputs", "anchors": ["crates/bonsaidb-core/src/keyvalue/timestamp.rs:Add<Duration> for Timestamp"]}
{"id": "C15", "title": "Key-value timestamps as keys sort chronologically", "statement": "The 12-byte key encoding of a key-value timestamp sorts chronologically and round-trips.", "quantifier": "every pair of timestamps", "why_tests_cant": "96-bit inputs", "anchors": ["crates/bonsaidb-core/src/keyvalue/timestamp.rs:KeyEncoding for Timestamp"]}
{"id": "C16", "title": "Schema names survive encoding and encode without collisions", "statement": "Parsing the encoded form of a name gives the name back, the encoded form only uses ASCII letters, digits, hyphen and underscore, and distinct names have distinct encodings; the same holds for qualified names and view names with the dot separator.", "quantifier": "every Unicode name", "why_tests_cant": "all strings", "anchors": ["crates/bonsaidb-core/src/schema/names.rs:Name::parse_encoded", "crates/bonsaidb-core/src/schema/names.rs:Display for Name", "crates/bonsaidb-core/src/schema/names.rs:Qualified::parse_encoded", "crates/bonsaidb-core/src/schema/names.rs:FromStr for ViewName"]}
{"id": "C17", "title": "Storage trees of different objects never collide", "statement": "The on-disk tree names used for collections, view entries, view document maps, view invalidations, view versions and the key-value store are pairwise distinct for distinct objects, whatever names the schema uses.", "quantifier": "every pair of collections and views", "why_tests_cant": "all name pairs", "anchors": ["crates/bonsaidb-local/src/views.rs", "crates/bonsaidb-local/src/database.rs:document_tree_name", "crates/bonsaidb-local/src/database/keyvalue.rs:KEY_TREE"]}
{"id": "C18", "title": "Permission resource names identify one collection", "statement": "Two different collections, documents or views never share the resource name that permission statements are checked against, provided that the authorities of the collections contain no '.'; topics and keys never share one with different topics and keys, nor objects of different kinds.", "quantifier": "every pair of collection names", "why_tests_cant": "all name pairs", "anchors": ["crates/bonsaidb-core/src/permissions/bonsai.rs:collection_resource_name"]}
{"id": "C19", "title": "Transactions are all-or-nothing", "statement": "Applying a transaction either performs every operation in order or, if any operation fails, leaves every collection, every view's pending work and the transaction log exactly as before and returns the first error.", "quantifier": "every database state and every operation list", "why_tests_cant": "unbounded operation lists and states", "anchors": ["crates/bonsaidb-local/src/database.rs:apply_transaction", "crates/bonsaidb-local/src/database.rs:apply_transaction_to_roots", "crates/bonsaidb-local/src/database.rs:execute_operation"]}
{"id": "C20", "title": "No lost updates", "statement": "An update or delete carrying a revision succeeds only if that revision is the document's current one at that moment, otherwise it is a conflict that changes nothing; so of any set of clients that read the same revision of a document which is not deleted meanwhile, once one has changed it every other one gets a conflict, in every interleaving.", "quantifier": "every interleaving of client reads and writes, every history", "why_tests_cant": "interleavings are unbounded", "anchors": ["crates/bonsaidb-local/src/database.rs:execute_update", "crates/bonsaidb-local/src/database.rs:execute_delete", "crates/bonsaidb-core/src/document/revision.rs:Revision"]}
{"id": "C21", "title": "Insert, overwrite, delete and check do what they say", "statement": "Insert with an existing id reports a conflict; overwrite always leaves exactly the given contents; delete removes exactly one document and reports not-found for a missing one; a check never changes anything and fails when the document is missing or its revision differs.", "quantifier": "every state, every id and every contents", "why_tests_cant": "state space", "anchors": ["crates/bonsaidb-local/src/database.rs:execute_insert", "crates/bonsaidb-local/src/database.rs:execute_update", "crates/bonsaidb-local/src/database.rs:execute_delete", "crates/bonsaidb-local/src/database.rs:execute_check"]}
{"id": "C22", "title": "The transaction log records exactly the changed documents", "statement": "After a successful transaction, exactly one log entry is appended with a larger id than all earlier ones, listing, in order, the collection, id and deleted flag of each insert, update, overwrite and delete of the transaction, and checks contribute nothing; iterating the entry yields every change.", "quantifier": "every history of transactions", "why_tests_cant": "unbounded histories", "anchors": ["crates/bonsaidb-local/src/database.rs:apply_transaction_to_roots", "crates/bonsaidb-core/src/transaction.rs:DocumentChanges"]}
{"id": "C23", "title": "Revisions count the changes of a document", "statement": "While a document lives, each change of its contents increments its revision number by one, writing identical contents leaves the revision alone, and a revision identifies the contents written with it.", "quantifier": "every history of a document", "why_tests_cant": "unbounded histories", "anchors": ["crates/bonsaidb-core/src/document/revision.rs:next_revision", "crates/bonsaidb-local/src/database.rs:execute_update"]}
{"id": "C24", "title": "Operations only touch the named documents", "statement": "A transaction leaves every document that none of its operations names unchanged, in every collection. Transactions on different collections do not influence each other: each answers the same whether or not the other was done before it, and in either order they leave the same documents and the same answers of every view query.", "quantifier": "every state and transaction", "why_tests_cant": "state space", "anchors": ["crates/bonsaidb-local/src/database.rs:execute_operation"]}
{"id": "C25", "title": "Listing returns exactly the documents in the range, in order, up to the limit", "statement": "list/list_headers/count over a range return the documents whose ids lie in the range, in ascending or descending id order, cut to the limit; get_multiple returns each requested existing document once.", "quantifier": "every collection state, range, order and limit", "why_tests_cant": "state and range space", "anchors": ["crates/bonsaidb-local/src/database.rs:list_from_collection", "crates/bonsaidb-local/src/database.rs:list_headers_from_collection", "crates/bonsaidb-local/src/database.rs:count_from_collection", "crates/bonsaidb-local/src/database.rs:get_multiple_from_collection_id"]}
{"id": "C26", "title": "A transaction without permission has no effect", "statement": "If the session lacks the permission for any single operation of a transaction, nothing is changed and a permission error is returned.", "quantifier": "every permission set, transaction and state", "why_tests_cant": "all permission predicates", "anchors": ["crates/bonsaidb-local/src/database.rs:apply_transaction", "crates/bonsaidb-core/src/permissions/bonsai.rs"]}
{"id": "C27", "title": "modify applies the change to the latest document", "statement": "The modify helper, in every interleaving with other writers, if it returns success, has applied the modifier to the contents that were current at that moment, losing nobody's update.", "quantifier": "every interleaving with other writers", "why_tests_cant": "interleavings are unbounded", "anchors": ["crates/bonsaidb-core/src/document/collection.rs:CollectionDocument::modify"]}
{"id": "C28", "title": "Views equal the map of the current documents", "statement": "After pending documents have been mapped, for each view and each document the stored entries are exactly, for each key the view's map function emits for that document, the last value emitted for it, attributed to the document, whatever sequence of inserts, updates, deletes and partial mapping runs happened before; where no key is emitted twice for a document these are all emitted keys and values.", "quantifier": "every map function, every history of transactions and mapper runs, every batch split", "why_tests_cant": "histories and map functions are unbounded", "anchors": ["crates/bonsaidb-local/src/views/mapper.rs:map_view", "crates/bonsaidb-local/src/views/mapper.rs:DocumentRequest::map", "crates/bonsaidb-local/src/database.rs:invalidate_changed_documents"]}
{"id": "C29", "title": "Unique views never hold two documents for a key", "statement": "With a unique view, no committed state holds two documents emitting the same key, and a transaction that would create such a state fails without effect.", "quantifier": "every history and map function", "why_tests_cant": "histories are unbounded", "anchors": ["crates/bonsaidb-local/src/views/mapper.rs:compare_swap_view_entry"]}
{"id": "C30", "title": "Reduced values equal the reduction of the mapped values", "statement": "The reduced value stored for a key is the view's reduce of exactly the values currently mapped under this key, and reducing a query equals reducing those per key results.", "quantifier": "every reduce function and history", "why_tests_cant": "functions and histories", "anchors": ["crates/bonsaidb-local/src/views/mapper.rs:compare_swap_view_entry", "crates/bonsaidb-local/src/database.rs:reduce_by_name"]}
{"id": "C31", "title": "View queries return exactly the matching entries", "statement": "A view query over a key, set of keys or range returns exactly the entries whose keys match, in key order (or reversed for ranges); a limit on a range cuts after that many distinct keys.", "quantifier": "every view state and query", "why_tests_cant": "state space", "anchors": ["crates/bonsaidb-local/src/database.rs:create_view_iterator", "crates/bonsaidb-local/src/database.rs:query_by_name"]}
{"id": "C32", "title": "delete_docs deletes exactly the documents matching the query", "statement": "Deleting the documents of a view query either removes every document with a mapping in the query and nothing else, and returns the number of mappings, or fails and removes nothing; it succeeds when the view is up to date, deletion is permitted and no document has two mappings in the query.", "quantifier": "every view state and query", "why_tests_cant": "state space", "anchors": ["crates/bonsaidb-local/src/database.rs:delete_docs_by_name"]}
{"id": "C33", "title": "Changing a view's version rebuilds it", "statement": "When a view's version (or the internal version) differs from the stored one, all stored entries are dropped, every document is queued and the new version is stored, after which mapping gives exactly the entries of the new map function; when it is equal nothing is dropped; if the process dies during this, any number of times, no document and no other view is affected and the next scan still leads to exactly the entries of the new map function; no other view changes.", "quantifier": "every stored state and version", "why_tests_cant": "state space", "anchors": ["crates/bonsaidb-local/src/views/integrity_scanner.rs:IntegrityScanner::execute"]}
{"id": "C34", "title": "A waiting view query reflects all earlier transactions", "statement": "A view query that waits for updates only answers after the view covers every transaction committed before the query started, in every schedule of transactions and background mapper jobs, as long as the database is not deleted and created again.", "quantifier": "every schedule of transactions, mapper jobs and queries", "why_tests_cant": "schedules are unbounded", "anchors": ["crates/bonsaidb-local/src/tasks.rs:update_view_if_needed", "crates/bonsaidb-local/src/views/mapper.rs:Mapper::execute"]}
{"id": "C35", "title": "The key-value store behaves like a map whatever the persistence schedule", "statement": "Every result of a key-value operation is that of a plain map of keys to values, no matter when buffered changes are staged, written and finished in the background.", "quantifier": "every operation sequence interleaved with every persistence schedule", "why_tests_cant": "interleavings are unbounded", "anchors": ["crates/bonsaidb-local/src/database/keyvalue.rs:KeyValueState", "crates/bonsaidb-local/src/database/keyvalue.rs:perform_kv_operation", "crates/bonsaidb-local/src/database/keyvalue.rs:stage_dirty_keys", "crates/bonsaidb-local/src/database/keyvalue.rs:persist_keys"]}
{"id": "C36", "title": "Conditional sets and set results are exact", "statement": "set with only-if-vacant/only-if-present changes the key exactly when the condition holds, reports inserted/updated/not-changed correctly, returns the previous value when asked, and rejects NaN without any change.", "quantifier": "every state, value and option combination", "why_tests_cant": "state space", "anchors": ["crates/bonsaidb-local/src/database/keyvalue.rs:execute_set", "crates/bonsaidb-core/src/keyvalue/implementation/set.rs"]}
{"id": "C37", "title": "Increment and decrement follow the requested arithmetic", "statement": "Increment/decrement add or subtract in the type of the amount, saturating or wrapping as requested, keep the key's expiration, and fail without change on non-numeric values.", "quantifier": "all numeric values and amounts", "why_tests_cant": "2^64 x 2^64 pairs", "anchors": ["crates/bonsaidb-local/src/database/keyvalue.rs:execute_increment", "crates/bonsaidb-local/src/database/keyvalue.rs:execute_decrement", "crates/bonsaidb-local/src/database/keyvalue.rs:increment", "crates/bonsaidb-core/src/keyvalue.rs:Numeric"]}
{"id": "C38", "title": "Expired keys disappear on time and only then", "statement": "Once an operation or background round runs at a time at or after a key's expiration, the key is absent for this and all later operations, and keys without expiration or with a later one are unaffected; setting a key replaces its expiration, and commands asked to keep it (and increments) keep it. (For databases whose stored expirations have been loaded.)", "quantifier": "every operation sequence with non-decreasing times", "why_tests_cant": "histories are unbounded", "anchors": ["crates/bonsaidb-local/src/database/keyvalue.rs:update_key_expiration", "crates/bonsaidb-local/src/database/keyvalue.rs:remove_expired_keys"]}
{"id": "C39", "title": "A crash loses at most the unpersisted suffix of key-value changes", "statement": "At any crash point the persisted key-value data equals the map after some prefix of the operations, namely at least all operations before the last finished commit started.", "quantifier": "every crash point in every schedule", "why_tests_cant": "crash points and schedules", "anchors": ["crates/bonsaidb-local/src/database/keyvalue.rs:persist_keys", "crates/bonsaidb-local/src/database/keyvalue.rs:commit_dirty_keys"]}
{"id": "C40", "title": "Shutting down persists every key-value change", "statement": "After an orderly shutdown of a database with no write in flight, reopening shows every key-value change made before it, whatever the persistence policy; keys expire meanwhile only by their expirations.", "quantifier": "every state of the background writer at shutdown", "why_tests_cant": "timing dependent", "anchors": ["crates/bonsaidb-local/src/database/keyvalue.rs:KeyValueState::shutdown", "crates/bonsaidb-local/src/database/keyvalue.rs:persist_keys"]}
{"id": "C41", "title": "Key-value namespaces do not interfere", "statement": "An operation on a key of one namespace never changes or reads a key of another namespace, or another key of the same namespace, for namespaces without NUL characters (the empty namespace being the same as none). Operations made at one time on different keys answer the same in either order, and so does everything after them.", "quantifier": "every pair of (namespace,key)", "why_tests_cant": "all string pairs", "anchors": ["crates/bonsaidb-local/src/database/keyvalue.rs:full_key", "crates/bonsaidb-local/src/database/keyvalue.rs:split_key", "crates/bonsaidb-core/src/keyvalue/namespaced.rs"]}
{"id": "C42", "title": "Persistence thresholds commit exactly when a rule applies", "statement": "With lazy persistence a commit is due if and only if some configured threshold has both its number of changes and its duration met; the computed delay is the time until the first threshold becomes due; the order of rules is irrelevant; immediate persistence commits on any change; no commit is due with no changes.", "quantifier": "every rule list, change count and elapsed time", "why_tests_cant": "unbounded rule lists", "anchors": ["crates/bonsaidb-local/src/config.rs:duration_until_next_commit", "crates/bonsaidb-local/src/config.rs:should_commit"]}
{"id": "C43", "title": "Loading expirations at startup never expires a live key", "statement": "While stored expirations are being loaded after opening a database, every operation, in every interleaving with the loader, the background worker and the writer, returns what a plain map with expirations returns, as long as no operation touches a key that was stored with an expiration before loading has finished.", "quantifier": "every interleaving of the loader with operations", "why_tests_cant": "timing dependent", "anchors": ["crates/bonsaidb-local/src/database/keyvalue.rs:ExpirationLoader"]}
{"id": "C44", "title": "Background jobs with equal keys are shared and all waiters get one result", "statement": "At most one job per key is queued or running, each handle receives at most one result, that of the first job of its key to finish after the request, handles are never forgotten while no job panics, and a key becomes available again when the job completes.", "quantifier": "every interleaving of enqueues and completions", "why_tests_cant": "schedules are unbounded", "anchors": ["crates/bonsaidb-local/src/tasks/manager/jobs.rs:Jobs"]}
{"id": "C45", "title": "File contents are the concatenation of the appended data", "statement": "Reading a file returns exactly the bytes appended so far, in order, regardless of block size and of appends to other files.", "quantifier": "every sequence of appends to any files, every block size", "why_tests_cant": "unbounded histories", "anchors": ["crates/bonsaidb-files/src/schema/block.rs:Block::append", "crates/bonsaidb-files/src/schema/block.rs:for_file", "crates/bonsaidb-files/src/direct.rs:Contents"]}
{"id": "C46", "title": "Truncating removes whole blocks from the requested side down to the requested length", "statement": "Truncating to a length removes data only from the chosen side, never below the requested length, leaves less than one block size of excess, to zero empties the file, and leaves other files alone, when no append to the file happens at the same time.", "quantifier": "every block list, length and side", "why_tests_cant": "unbounded block lists", "anchors": ["crates/bonsaidb-files/src/schema/file.rs:create_truncate_transaction"]}
{"id": "C47", "title": "Buffered reading and seeking behave like a file", "statement": "Reads into non-empty buffers return consecutive bytes from the current position and end-of-file only at the end, and seeks go to the position asked for (to the end if it lies beyond), for every buffer size and every sequence of reads, seeks, clones and buffer changes, while other clients append or work on other files; no call hangs or panics, except seeks to before the start or beyond 2^63, and relative seeks directly after reading has reached the end.", "quantifier": "every sequence of reads and seeks, every buffer size", "why_tests_cant": "unbounded sequences", "anchors": ["crates/bonsaidb-files/src/direct.rs:non_blocking_read", "crates/bonsaidb-files/src/direct.rs:Seek for Contents", "crates/bonsaidb-files/src/direct.rs:next_blocks"]}
{"id": "C48", "title": "Directory listings are exact", "statement": "Listing a path returns exactly the files directly in it. The recursive listing returns exactly the files whose path starts with it when the names of the files directly in that path sort above the encoded length of the path (in particular for paths shorter than 32 bytes and names without control characters). Paths without NUL characters.", "quantifier": "every set of file paths and every listed path", "why_tests_cant": "all strings", "anchors": ["crates/bonsaidb-files/src/schema/file.rs:list_path_contents", "crates/bonsaidb-files/src/schema/file.rs:list_recursive_path_contents", "crates/bonsaidb-files/src/schema/file.rs:FileKey"]}
{"id": "C49", "title": "A file can be found under the path it was created with", "statement": "No two files share a path. After creating a file with a path without empty components, loading this path finds the file; moving a file makes it available at exactly the new path and nothing else moves; what is found under a path is at that path.", "quantifier": "every path string", "why_tests_cant": "all strings", "anchors": ["crates/bonsaidb-files/src/direct.rs:FileBuilder::new", "crates/bonsaidb-files/src/schema/file.rs:create_file", "crates/bonsaidb-files/src/schema/file.rs:find", "crates/bonsaidb-files/src/direct.rs:update_document_for_move"]}
{"id": "C50", "title": "Buffered appends write the same bytes as direct appends", "statement": "Writing data in arbitrary pieces through the buffered appender and flushing (or dropping) appends exactly the concatenation of the accepted bytes, in order; and with blocks of at most 1 MiB every write accepts something.", "quantifier": "every split of the data, every buffer capacity", "why_tests_cant": "unbounded sequences", "anchors": ["crates/bonsaidb-files/src/direct.rs:BufferedAppend"]}
{"id": "C51", "title": "Restoring a backup reproduces the data", "statement": "Restoring a backup into a fresh storage gives the same documents (ids and contents) in every collection and the same key-value entries, and nothing else, for databases whose schema has a collection, whose ids have distinct textual forms that parse back, whose namespaces do not overlap the separator, and a backup location that was empty; a folder keeps what is stored when the names can be file names.", "quantifier": "every database content", "why_tests_cant": "all contents", "anchors": ["crates/bonsaidb-local/src/storage/backup.rs:backup_database", "crates/bonsaidb-local/src/storage/backup.rs:restore_database"]}
{"id": "C52", "title": "Stored blocks survive compression and encryption", "statement": "Reading back a block written with any combination of compression and encryption settings returns the original bytes, also after the settings changed in between, provided that a block stored untransformed does not look like a transformed one and that a vault stays configured for transformed blocks; blocks of collections with a key are stored encrypted.", "quantifier": "every payload and every settings pair", "why_tests_cant": "all payloads", "anchors": ["crates/bonsaidb-local/src/storage.rs:TreeVault", "crates/bonsaidb-local/src/vault.rs:decrypt_payload"]}
{"id": "C53", "title": "A user's permissions are those of its groups and roles", "statement": "The effective permissions of a role are exactly the union of those of its groups and the inherited ones. Those of a user always include its groups' and the inherited ones, and are exactly these if it has no roles; for a user with roles the roles consulted are those whose ids equal the ids of its groups.", "quantifier": "every user, role and group configuration", "why_tests_cant": "unbounded configurations", "anchors": ["crates/bonsaidb-core/src/admin/user.rs:effective_permissions", "crates/bonsaidb-core/src/admin/role.rs:effective_permissions"]}
{"id": "C54", "title": "Databases are created once, listed and deleted by name without touching others", "statement": "Creating a database registers exactly one database per name, rejects duplicates and names outside the documented alphabet; a newly created database is empty; deleting removes exactly the named one, also after restarts and failed deletions; accepted non-empty names are safe single path components; no call touches the files of a database it does not name. (Names that are neither empty nor one of the storage's own file names; deletion of accepted names only.)", "quantifier": "every history of create/delete calls and every name", "why_tests_cant": "histories and names", "anchors": ["crates/bonsaidb-local/src/storage.rs:validate_name", "crates/bonsaidb-local/src/storage.rs:create_database_with_schema", "crates/bonsaidb-local/src/storage.rs:delete_database"]}
{"id": "C55", "title": "PubSub topics of different databases are separate", "statement": "A message published in one database on one topic is delivered to exactly the subscribers of that topic in that database.", "quantifier": "every pair of database name and topic, every subscription history", "why_tests_cant": "all topic pairs", "anchors": ["crates/bonsaidb-core/src/pubsub.rs:database_topic", "crates/bonsaidb-local/src/database/pubsub.rs"]}
{"id": "C56", "title": "Sessions and token challenges", "statement": "Session ids are never reused, a token challenge can be answered at most once and only with the right response, a challenge session grants no permission before that, logins grant exactly the permissions of the identity; subscriber ids are unique and dropping a subscriber removes exactly that one.", "quantifier": "every history of logins, logouts and subscriptions", "why_tests_cant": "histories are unbounded", "anchors": ["crates/bonsaidb-local/src/storage/token_authentication.rs", "crates/bonsaidb-local/src/storage.rs:AuthenticatedSession"]}
{"id": "C57", "title": "Deleting a file leaves no data behind", "statement": "After a file is deleted no block of it remains, other files are unchanged and nothing can be appended to it; in every history in which deletions are not interleaved with appends to the same file no block belongs to a missing file, so a later file never shows bytes of a deleted one.", "quantifier": "every interleaving of delete, append and create", "why_tests_cant": "interleavings", "anchors": ["crates/bonsaidb-files/src/direct.rs:File::delete", "crates/bonsaidb-files/src/schema/block.rs:append"]}
{"id": "C58", "title": "Signed durations add exactly", "statement": "Adding two signed durations gives the exact signed sum or reports overflow only when the sum does not fit; summing a non-empty sequence gives its exact total, or reports overflow only when the exact total of some leading elements does not fit.", "quantifier": "every pair and every sequence of signed durations", "why_tests_cant": "all values and unbounded sequences", "anchors": ["crates/bonsaidb-core/src/key/time.rs:SignedDuration::checked_add", "crates/bonsaidb-core/src/key/time.rs:Sum for Option<SignedDuration>"]}
{"id": "C59", "title": "Listing executed transactions pages through the whole log", "statement": "list_executed_transactions returns, in order of their ids, the logged document transactions from the given id on, at most the requested number (default 100, at most 1000), and continuing after the last listed id misses and repeats none.", "quantifier": "every history and page size", "why_tests_cant": "pagination must be exact for every log and limit", "anchors": ["crates/bonsaidb-local/src/database.rs: list_executed_transactions"]}
{"id": "C60", "title": "load_or_create is idempotent", "statement": "load_or_create with a path without empty components returns the file stored at exactly this path, creates one only if there was none, and calling it again returns the same file.", "quantifier": "every set of files, every path string without an empty component before the name", "why_tests_cant": "all strings and all earlier creations, moves, renames and deletions", "anchors": ["crates/bonsaidb-files/src/lib.rs:load_or_create", "crates/bonsaidb-files/src/direct.rs:FileBuilder::new", "crates/bonsaidb-files/src/schema/file.rs:find"]}
{"id": "C61", "title": "Managing a user's groups and roles", "statement": "Adding or removing a permission group, removing a role, or adding a role given by its id changes exactly the named user's groups (roles) by exactly the named id, is refused without permission on that user, and leaves every other user, group and role as it was; user names and ids stay unique.", "quantifier": "every history of user-management calls, every user, group and role given by name or id", "why_tests_cant": "histories and name/id combinations are unbounded", "anchors": ["crates/bonsaidb-local/src/storage.rs:update_user_with_named_id", "crates/bonsaidb-local/src/storage.rs:add_role_to_user", "crates/bonsaidb-core/src/schema/collection.rs:NamedReference::id"]}
{"id": "C62", "title": "What a storage handle may do", "statement": "Restricting a storage handle gives a handle allowed exactly the given permissions, and is possible only for a handle without a session. A handle returned by a login is allowed exactly its session's permissions. Resuming a session gives a handle allowed exactly the given permissions together with the session's own, and fails for a session id that does not exist.", "quantifier": "all handles, sessions, permission lists and sequences of logins", "why_tests_cant": "Permissions of a handle depend on the whole chain of calls that produced it.", "anchors": ["crates/bonsaidb-local/src/storage.rs:with_effective_permissions", "crates/bonsaidb-local/src/storage.rs:assume_session", "crates/bonsaidb-core/src/connection/has_session.rs:HasSession"]}
{"id": "C63", "title": "Client requests each get their own answer, once", "statement": "For every history of a client's requests, sends, responses, failures and disconnections: each issued request is at any time either still held by the client or has exactly one result, which never changes; an answer is always the value of a response that carried the request's id and arrived on the connection the request was written to after it was written; if the server answers only requests it received on that connection and at most 2^32 requests are issued, every answer handed out is the answer to that very request; a response that arrives for a registered request is handed to it; when the connection fails or a write fails, every outstanding request gets an error, none stays outstanding and the failure is reported to one of them or to the next request only.", "quantifier": "all histories (lists of events in any order) of both transports, all response ids and values", "why_tests_cant": "the outcome depends on the interleaving of callers, the worker, the response task and the network; tests see a few schedules", "anchors": ["bonsaidb-client/src/client.rs:send_request_without_confirmation", "bonsaidb-client/src/client.rs:process_response_payload", "bonsaidb-client/src/client.rs:disconnect_pending_requests", "bonsaidb-client/src/client/quic_worker.rs:connect_and_process", "bonsaidb-client/src/client/tungstenite_worker.rs:reconnecting_client_loop"]}
{"id": "C64", "title": "The server answers each request once, in order of slots, without losing any", "statement": "For every interleaving of the server's tasks and connections: every response written to a connection carries the id and session id of a request that arrived on it and the value that request's handler returned, and no request is answered twice; at most the configured number of a connection's requests is handed over and unanswered at any time; a connection's request loop never sleeps while a slot is free without a notification pending; as long as no handling panics, no payload carries an error and no shutdown was begun, processing comes to rest after boundedly many steps between arrivals and then every arrived request has been answered; responses are never dropped except on QUIC connections during a graceful shutdown.", "quantifier": "all histories of all tasks of all connections, all limits and numbers of workers", "why_tests_cant": "depends on the interleaving of readers, loops, workers, completion tasks and writers", "anchors": ["bonsaidb-server/src/server.rs:handle_client_requests", "bonsaidb-server/src/server.rs:handle_request_through_worker", "bonsaidb-server/src/server.rs:open", "bonsaidb-server/src/server.rs:handle_stream", "bonsaidb-server/src/server/websockets.rs:handle_websocket", "bonsaidb-server/src/server/shutdown.rs:graceful_shutdown"]}
{"id": "C65", "title": "A request acts only with a live session of its own connection", "statement": "Over a network server, a request is processed with the session it names only if that session was opened by a login on the same connection and neither it was logged out nor the connection closed before the request was accepted, and then with exactly the permissions that login granted; otherwise it is processed unauthenticated. Session ids are never reused and are active on at most one connection; logging out ends exactly that session for good, with its subscribers; closing the connection ends all of them.", "quantifier": "every number of connections, every history of connects, disconnects, logins, log outs, requests accepted and handled in any order, and sessions forgotten by the storage", "why_tests_cant": "A test fixes one interleaving of acceptance, handling, log out and disconnection; guessing another connection's session id or a race with a log out needs all interleavings.", "anchors": ["crates/bonsaidb-server/src/server/connected_client.rs:session,logged_in_as,log_out", "crates/bonsaidb-server/src/server.rs:handle_request_through_worker,disconnect_client", "crates/bonsaidb-server/src/dispatch.rs:Authenticate,LogOutSession", "crates/bonsaidb-local/src/storage.rs:assume_session"]}
{"id": "C66", "title": "Remote subscribers belong to one session and get each message exactly once", "statement": "Over a network server, subscribing, unsubscribing and unregistering succeed exactly if the named subscriber was created by the same session of the same connection, still exists, and its permissions allow it; they change that subscriber only. Subscriber ids are unique across the server. An allowed publication appends, after everything sent earlier, exactly one message for each subscriber of that database that follows the topic at that moment, addressed to the connection and session that created it; nothing else sends a message.", "quantifier": "every history of connections, logins, subscriber requests and publications, handled in any order", "why_tests_cant": "Exactly-once delivery to exactly the followers is a statement over all histories of subscriptions across all connections and sessions; tests use one or two subscribers.", "anchors": ["crates/bonsaidb-server/src/server/connected_client.rs:register_subscriber,subscribe_by_id,unsubscribe_by_id,unregister_subscriber_by_id,forward_notifications_for", "crates/bonsaidb-server/src/dispatch.rs:CreateSubscriber,SubscribeTo,Publish", "crates/bonsaidb-local/src/database/pubsub.rs"]}
{"id": "C67", "title": "A schema answers exactly as it was declared", "statement": "Building a database's schema from its collection and view definitions succeeds exactly when no two collections share a name and no two views share a name; otherwise the error is the one for the first repeated name. An accepted schema lists each declared collection once with its own key description, id generator and encryption key, finds each view by its name and type, and lists for a collection exactly the views declared for it, and as eagerly updated exactly the eager and unique ones; the summary sent to clients says the same. This requires every view type to be registered under one name only.", "quantifier": "every list of collection definitions, each with any views and nested definitions, with errors returned or dropped", "why_tests_cant": "the order, nesting and repetition of definitions is unbounded and the registries are keyed by name and by type", "anchors": ["crates/bonsaidb-core/src/schema/schematic.rs: Schematic::define_collection, define_view_with_schema, view_by_name, views_in_collection, eager_views_in_collection", "crates/bonsaidb-core/src/schema/summary.rs: SchemaSummary"]}
{"id": "C68", "title": "Remote calls behave like one server executing them one at a time", "statement": "A call made through a remote client returns what its own execution on the server answered, for the session and request it was issued with. The server's data is always that of executing the requests one after the other in some order; each call is executed at most once, whatever fails, reconnects or is delayed; a call that returned before another call was issued (by any client) is executed before it; connections of other programs cannot affect this. When the server and the network have come to rest, every call a websocket client sent on its open connection has returned.", "quantifier": "every number of clients, connections and request workers, every interleaving of callers, client workers, network, server tasks and handlers, every failure and reconnection", "why_tests_cant": "Tests run a few calls on a good network; the claim is about every interleaving of several concurrent tasks on both sides and every point at which a connection can fail.", "anchors": ["crates/bonsaidb-client/src/client.rs:send_request_async", "crates/bonsaidb-client/src/client/quic_worker.rs", "crates/bonsaidb-client/src/client/tungstenite_worker.rs", "crates/bonsaidb-server/src/server.rs:handle_client_requests", "crates/bonsaidb-server/src/server/websockets.rs"]}
{"id": "C69", "title": "A storage directory has one owner and one identity", "statement": "At any moment at most one process has a storage directory open. When the processes that open it up to the first success do not overlap, every later Storage::open without a configured unique_id reports the same unique id, through crashes and concurrent openings; a configured unique_id is used as given and an id file that exists is never rewritten.", "quantifier": "all numbers of processes, interleavings of their steps, crash points, random draws, configured ids", "why_tests_cant": "races between processes and crash points inside Storage::open cannot be enumerated by tests", "anchors": ["crates/bonsaidb-local/src/storage.rs: Storage::open, lookup_or_create_id, StorageLock, LockData"]}
{"id": "C70", "title": "The vault's master key is never lost or replaced", "statement": "Whenever a storage directory is opened again under the same id with its vault key storage intact, encryption uses the master key of the first opening; the sealed key file is never rewritten once somebody had the directory open; a key storage that does not return the key it was given is noticed before anything is sealed; and when one process at a time opens the directory and none dies while the id file is empty or the key file incomplete, every opening succeeds.", "quantifier": "all histories of openings, closings, crashes, partial writes and outside changes of the key storage", "why_tests_cant": "key loss shows only after particular crash points and orders of openings", "anchors": ["crates/bonsaidb-local/src/vault.rs: Vault::initialize, initialize_vault_key_storage, unseal, LocalVaultKeyStorage", "crates/bonsaidb-local/src/storage.rs: Storage::open"]}
{"id": "C71", "title": "Named entries: load, insert-or-update with retries, delete by name", "statement": "NamedCollection::load by name returns, among the documents that had the name when the view was read and still exist when the documents are read, the one with the lowest id, and None only if none of them exists any more. Entry::execute makes no write, one insert (only if nothing was loaded), or at most retry_limit+1 updates of one document, all but the last refused as conflicts without effect; a returned document is the one stored, and after update_with its contents are the callback's result on the contents the document had at the moment of the update (unless a hash collision is exhibited). None is returned only if nothing was found and there is no insert callback, or if the document was deleted after a conflict. A failed entry changed nothing, and a conflict is reported only after retry_limit+1 conflicts. With a unique name view no entry creates a second document of a name. delete_by_name deletes exactly the documents listed under the name, each in the version listed, or fails without effect.", "quantifier": "every interleaving with other clients' transactions and view jobs between the call's own accesses; every callback, retry limit, name, reference and state", "why_tests_cant": "it depends on what other clients do between the reads and the writes of one call", "anchors": ["crates/bonsaidb-core/src/schema/collection.rs:NamedCollection,Entry,AsyncEntry,NamedReference", "crates/bonsaidb-core/src/connection/lowlevel.rs:query_with_docs,update,insert", "crates/bonsaidb-core/src/document/collection.rs:update"]}
{"id": "C72", "title": "Passwords: the last one set, and only that one, logs in", "statement": "A login with a password is decided by the user as it was read: it succeeds if and only if the password is the one set by the last set_user_password that had returned Ok for that user (none after the user was deleted and for a user whose password was never set), whatever runs in between. When set_user_password returns Ok the user was unchanged since it was read and only its hash changed; if it was changed or deleted meanwhile the call returns a conflict and changes nothing. Nothing else changes a stored hash. Through any number of hashing threads every caller gets the answer to its own request, once, and while one thread is alive every call can finish. All hashes use the cost parameters chosen once: at least 2 passes, the first cost whose measured time reached the minimum duration.", "quantifier": "every number of callers, users and hashing threads, every interleaving of reading, sending, taking, hashing, answering and writing with user creation, deletion and group changes, every clock, every password", "why_tests_cant": "the schedules of callers and hashing threads, the points where users change between reading and writing, and the clock readings of the calibration cannot be enumerated", "anchors": ["crates/bonsaidb-local/src/storage/argon.rs: Hasher, HashingThread", "crates/bonsaidb-local/src/storage.rs: set_user_password, authenticate_inner, authenticate", "crates/bonsaidb-local/src/config/argon.rs: TimedArgonParams, ArgonConfiguration", "crates/bonsaidb-core/src/admin/user.rs: User"]}
{"id": "C73", "title": "Timestamps survive formatting and parsing, and distances between them are exact", "statement": "to_timestamp_string of a limited-resolution timestamp is the exact decimal number of seconds since 1970 with 0, 3, 6 or 9 decimals; parsing it gives the same timestamp back; to_string never turns into a different timestamp; parsing any decimal number of seconds gives the same timestamp as converting that SystemTime; anything else is refused without a panic. duration_since and duration_between return the exact time between two timestamps of any resolutions and epochs.", "quantifier": "all resolutions, all representations, both epochs (and any other offset), all texts", "why_tests_cant": "the ranges are 32 and 64 bits wide and texts are unbounded; tests use the current time", "anchors": ["crates/bonsaidb-core/src/key/time.rs: LimitedResolutionTimestamp::{display,to_timestamp_string,from_str,duration_since,duration_between}, AnyTimestamp"]}
{"id": "C74", "title": "Keys with a variable number of bytes come back and sort", "statement": "A key of type VarInt<T>, isize, usize, Signed, Unsigned, Duration, SystemTime (from 1970 on), a limited resolution duration or timestamp, or an enum with a derived key and no #[repr], decodes to the value that was stored, and the stored bytes of two values compare as the values do (numerically, chronologically, or as Rust's derived Ord: discriminant, then fields). Encoding a Duration never panics. Decoding any bytes never gives a number outside the type, zero for a non-zero type, or a value that is not one of the enum's variants. The next value of a number is the least larger one, and an error exactly for the largest.", "quantifier": "every number, duration, time and enum value; every pair of them; every byte string to decode; every implementation of the variable-length integers that meets its documented contract", "why_tests_cant": "the pairs of values are unbounded, the bytes may come from anywhere, and the order must hold across length boundaries", "anchors": ["crates/bonsaidb-core/src/key/varint.rs:VarInt", "crates/bonsaidb-core/src/key.rs:next_value", "crates/bonsaidb-core/src/key/time.rs:as_ord_bytes", "crates/bonsaidb-macros/src/lib.rs:key_derive"]}
{"id": "C75", "title": "Old databases' tuple and option keys can still be read", "statement": "A tuple wrapped in TupleEncodingV1 decodes to the tuple that was stored, provided its OptionKeyV1 fields have a variable width; its keys sort field by field, where a field of a variable width is compared by its encoded length first, so that tuples of fixed-width fields sort as Rust's Ord. An OptionKeyV1 key decodes to the stored option, None is the empty key and sorts first, and a present value with an empty encoding panics instead of being taken for None.", "quantifier": "every tuple of key types and options of them, every pair of tuples, every byte string", "why_tests_cant": "the old format has no tests for most combinations and its order depends on the lengths of the values", "anchors": ["crates/bonsaidb-core/src/key/deprecated.rs:TupleEncodingV1", "crates/bonsaidb-core/src/key/deprecated.rs:OptionKeyV1", "crates/bonsaidb-core/src/key/deprecated.rs:encode_composite_field"]}
{"id": "C76", "title": "The same call gives the same result through every kind of handle", "statement": "A call on a database or storage has the same effect and the same result (value or error) whether it is made on the blocking local handle, the async local handle, a handle inside a server, AnyServerConnection/AnyDatabase, or an async or blocking network client whose session the server accepts. Exceptions: a panic of the local call arrives as an error; reading the last transaction id is permission-checked only on the blocking local handle; opening a database through a client is never refused, the error arrives with the first call. A session the server does not accept, an unknown API name or undecodable bytes give an error and change nothing. Built-in requests reach the built-in handlers whatever custom APIs are registered; of several registrations of a custom name the last one counts; a custom API's response and its own error arrive unchanged.", "quantifier": "every call with every argument, every local implementation, every world, every set of custom APIs in every order", "why_tests_cant": "each layer repeats some thirty-five delegations with arguments of equal types; a test of one call through one layer says nothing about the others, and error conversions nest four types", "anchors": ["crates/bonsaidb-server/src/dispatch.rs:ServerDispatcher", "crates/bonsaidb-client/src/client/remote_database.rs:AsyncRemoteDatabase", "crates/bonsaidb-client/src/client/sync.rs:BlockingRemoteDatabase", "crates/bonsaidb-local/src/async.rs:AsyncDatabase", "crates/bonsaidb-server/src/server/database.rs:ServerDatabase", "crates/bonsaidb/src/any_connection.rs:AnyDatabase", "crates/bonsaidb-server/src/api.rs:AnyWrapper", "crates/bonsaidb-server/src/config.rs:register_custom_api"]}
{"id": "C77", "title": "Typed key-value calls read back what was written", "statement": "For every reachable key-value store and every typed call on a (possibly nested) namespace: set_key/set_binary_key/set_numeric_key write the given value exactly when only_if_exists/only_if_vacant hold, report Inserted/Updated/NotChanged (or the previous value with returning_previous) truthfully, and whatever other keys do in the meantime and however persistence interleaves, get_key(..).into / query / into_u64 / into_i64 / into_f64 return exactly what was stored; a strict numeric conversion returns a number only if it is exactly the stored one (up to the documented exceptions below) and never refuses an exactly representable one; lossy conversions truncate and then saturate or wrap; increment_key_by/decrement_key_by return the new value and concurrent increments of a counter all count; and_delete returns the value and removes the key; delete_key reports whether the key existed; commands through one namespace never affect keys read through another; no typed call panics.", "quantifier": "every reachable store, every namespace nesting, key, value, serializer, sequence of interleaved commands and persistence steps, every integer and every IEEE double", "why_tests_cant": "the conversions range over 2^64 integers and all doubles and the interleavings are unbounded; unit tests try a handful of values", "anchors": ["crates/bonsaidb-core/src/keyvalue.rs", "crates/bonsaidb-core/src/keyvalue/implementation/set.rs", "crates/bonsaidb-core/src/keyvalue/implementation/get.rs", "crates/bonsaidb-core/src/keyvalue/implementation/increment.rs", "crates/bonsaidb-core/src/keyvalue/implementation/namespaced.rs", "crates/bonsaidb-core/src/keyvalue/timestamp.rs"]}
{"id": "C78", "title": "Every call needs exactly its documented permission", "statement": "For every session permissions, database, view and storage content: a call on a local database, its pub/sub and key-value store or on the storage made with a session that has every permission documented for that call on the named resource behaves exactly as if made without a session; if one of them is missing the call fails with PermissionDenied and changes nothing; no other permission makes a difference. A transaction needs the permission of each of its operations, publishing to several topics that of each topic, fetching several documents Get on each. Querying with documents needs Query on the view and Get on every document found. A storage call on a user or role that does not exist does nothing but fail.", "quantifier": "every set of permissions (any predicate on resource and action), every call with every argument, every state", "why_tests_cant": "the matrix of calls, arguments and permission sets is unbounded; a test shows one denied call", "anchors": ["crates/bonsaidb-core/src/permissions/bonsai.rs", "crates/bonsaidb-local/src/database.rs", "crates/bonsaidb-local/src/database/pubsub.rs", "crates/bonsaidb-local/src/database/keyvalue.rs", "crates/bonsaidb-local/src/storage.rs", "crates/bonsaidb-core/src/connection/has_session.rs"]}
{"id": "C79", "title": "Shutting a server down", "statement": "Once a shutdown call has returned, no new connection, listener or stream is served. No task is ever told to stop unless a shutdown was asked for, nor to stop at once unless a forced one was carried out. After a forced shutdown every task that looks is told so and ends, whatever else happens, unless a graceful shutdown is asked for afterwards; after a graceful one every TCP listener, QUIC stream task and request loop that looks ends and a QUIC listener stops accepting. A graceful call returns as soon as no task is left and not before its time is up, after which it is a forced one; when it returned in time no task is left, ever. Every answer on a stream answers a request read from it, and until a shutdown is announced no request is lost. Termination signals force a shutdown at once; an interrupt starts a graceful one.", "quantifier": "all interleavings of any number of listeners, connections and shutdown calls, all moments at which timers fire and signals arrive", "why_tests_cant": "interleavings of announcements, clones of watchers and polls cannot be enumerated; a race shows up in one schedule of very many", "anchors": ["crates/bonsaidb-server/src/server/shutdown.rs", "crates/bonsaidb-server/src/server.rs:CustomServer::shutdown", "crates/bonsaidb-server/src/server.rs:listen_for_shutdown", "crates/bonsaidb-server/src/server.rs:handle_stream", "crates/bonsaidb-server/src/server/tcp.rs", "crates/bonsaidb-server/src/server/websockets.rs"]}
{"id": "C80", "title": "Typed collection calls do exactly what they report", "statement": "For a collection with a lawful serialization format: get returns exactly the stored document (id, revision, contents); push, insert, overwrite and push_all either store the given contents under the given (or natural, or a fresh) key, return the document with the revision it has, and touch nothing else, or leave the database as it was and give the contents back; update and delete succeed only for the revision the caller has and leave database and document alone otherwise; refresh gives the stored document; list and get_multiple return exactly the stored documents in range in key order, the last of several order or limit settings counting.", "quantifier": "all collections (key type, format, natural ids), contents, keys, sessions, ranges and settings, and all reachable database states", "why_tests_cant": "the claim is about every key type and every database state, and failures in the middle of a call must leave no trace; tests use a few key types and never the ones whose ids cannot be read back", "anchors": ["crates/bonsaidb-core/src/schema/collection.rs:SerializedCollection", "crates/bonsaidb-core/src/document/collection.rs:CollectionDocument", "crates/bonsaidb-core/src/connection.rs:Collection", "crates/bonsaidb-core/src/connection/lowlevel.rs:LowLevelConnection"]}
{"id": "C81", "title": "Typed view queries answer from the stored documents", "statement": "For a view of a collection with typed keys and values whose map function can map every stored document and that is up to date: Mappings built with push/and/extend/collect give the mappings in the order they were added; a query by key, keys, key range or prefix-less range gives exactly one typed entry per mapping of a stored document whose key matches, with that document's header as source and the emitted value, in key order (or its reverse) for ranges; limit n gives the first n of them; the last setting of each kind given to the builder counts; query_with_docs gives for the same entries the stored documents, and its get and iterators pair every entry with its own document; reduce gives the reduction of the matching entries and reduce_grouped one entry per distinct key, in order, with the reduction of that key's entries; delete_docs deletes exactly the documents with a matching entry, returns how many, and leaves all others.", "quantifier": "every typed view, every stored state reachable by transactions, every query, order, limit and builder call sequence, every reduce function", "why_tests_cant": "Depends on every history of documents, every emitted key and value and every query shape; tests use a handful of documents with u32 keys.", "anchors": ["crates/bonsaidb-core/src/connection.rs:View", "crates/bonsaidb-core/src/connection/lowlevel.rs:LowLevelConnection::query", "crates/bonsaidb-core/src/connection/lowlevel.rs:LowLevelConnection::query_with_docs", "crates/bonsaidb-core/src/connection/lowlevel.rs:LowLevelConnection::delete_docs", "crates/bonsaidb-core/src/schema/view/map.rs:Mappings", "crates/bonsaidb-core/src/schema/view/map.rs:MappedDocuments", "crates/bonsaidb-core/src/schema/schematic.rs:ViewInstance"]}
{"id": "C82", "title": "Compaction covers every tree and the worker pool never gets stuck", "statement": "When compact (or compact_collection) returns, then while its job ran the compaction of every tree of the database (of the collection: documents, view versions, and the three trees of every view; for the database also the key-value tree) has returned, all successfully if it succeeds, and if it fails, with the error of one of them. While fewer compactions of collections or databases are in progress than there are workers and no job panics, every background job that has been asked for finishes after a bounded number of steps of the workers, whatever their order, and every caller gets its result. (Without that bound this is false: FINDING.)", "quantifier": "every number of workers, every set of schemas, every history of calls, every interleaving of workers and every result of each job", "why_tests_cant": "Depends on all interleavings of worker threads and of calls; the tests run one compaction at a time with many workers.", "anchors": ["crates/bonsaidb-local/src/tasks/compactor.rs:Target::compact", "crates/bonsaidb-local/src/tasks/compactor.rs:compact_trees", "crates/bonsaidb-local/src/tasks/manager.rs:worker_thread", "crates/bonsaidb-local/src/tasks.rs:TaskManager::compact_database", "crates/bonsaidb-local/src/config.rs:Tasks"]}
{"id": "C83", "title": "A server presents the certificate that was installed", "statement": "A certificate chain is only ever stored and presented together with the private key it was installed with, and only certificates stored for the server's name are presented. When an install call that no other overlaps returns Ok, certificate_chain() and new TLS connections have exactly that certificate, and pinned-certificate.der exists exactly if it is self-signed and holds it; install_self_signed_certificate without overwrite is refused when there is a certificate and then changes nothing. Listening picks up the stored certificate. A TLS client gets the ACME challenge certificate exactly if it asks for the challenge protocol; a connection's protocol is the negotiated one or the first offered. ACME accounts are read back as last written for the same contacts.", "quantifier": "every sequence and interleaving of install_self_signed_certificate, install_certificate, install_pem_certificate, listen_on, listen_for_secure_tcp_on, failures of single database or file accesses, crashes and restarts under any name; every client hello; every list of contacts", "why_tests_cant": "The calls consist of several awaits between which other installs, failures and crashes can come; tests install one certificate once.", "anchors": ["crates/bonsaidb-server/src/server.rs:install_self_signed_certificate", "crates/bonsaidb-server/src/server.rs:install_certificate", "crates/bonsaidb-server/src/server.rs:refresh_certified_key", "crates/bonsaidb-server/src/server.rs:certificate_chain", "crates/bonsaidb-server/src/server.rs:listen_on", "crates/bonsaidb-server/src/server/tcp.rs:resolve", "crates/bonsaidb-server/src/server/acme.rs:write_account"]}
{"id": "C84", "title": "Key types describe their encoding", "statement": "KeyDescription::for_key of a key type returns the tree of its parts (basic kinds, Option, Result, tuples, structs with their names, attributes), never panicking, for every type whose structs have fields and whose enum variants have at most one field; for an enum it works out exactly if the variants have as many parts as there are variants and panics otherwise. For types made of integers, bool, (), strings, byte vectors, Option, Result and tuples, two types with the same description encode and decode alike. Since defining a collection and listing schemas compute descriptions, a schema with such keys can be opened and listed.", "quantifier": "every key type built from the provided key implementations and derived structs and enums, of any depth and number of fields", "why_tests_cant": "Key types are a recursive grammar; the tests describe three of them and no enum with several fields.", "anchors": ["crates/bonsaidb-core/src/key.rs:KeyDescription::for_key", "crates/bonsaidb-core/src/key.rs:KeyDescriber", "crates/bonsaidb-core/src/key.rs:KeyEncoding::describe", "crates/bonsaidb-macros/src/lib.rs:key_derive", "crates/bonsaidb-core/src/schema/schematic.rs:define_collection", "crates/bonsaidb-core/src/schema/summary.rs:SchemaSummary"]}
{"id": "C85", "title": "Backend hooks and connected clients of a server", "statement": "For every interleaving of connections, requests, disconnections and broadcasts: client_connected is a connection's first hook; every hook is called at most once per connection, per granted session, and per session and reason of its end; each call has its cause (a granted login, a log-out request, the end of the connection), and no session belongs to two connections; when client_disconnected is called, the default session has been reported ended, and so has every session granted before the server removed the client, unless a log-out of it is just being reported; when nothing of the client is under way at its removal, each session is reported authenticated once, ended once and in that order, and client_disconnected is its last hook; connected_clients lists exactly the clients registered and not removed, and broadcast sends exactly to those, in order; without permission to connect no hook is called.", "quantifier": "all histories of connections, answers of client_connected, requests, logins, log-outs, closes, disconnect tasks and broadcasts, in any interleaving", "why_tests_cant": "the login and log-out handlers run on shared workers while the disconnection runs as its own task, so the claim is about every interleaving of them", "anchors": ["crates/bonsaidb-server/src/server.rs:initialize_client", "crates/bonsaidb-server/src/server.rs:disconnect_client", "crates/bonsaidb-server/src/server.rs:broadcast", "crates/bonsaidb-server/src/server/connected_client.rs:OwnedClient", "crates/bonsaidb-server/src/dispatch.rs:LogOutSession", "crates/bonsaidb-server/src/backend.rs:Backend"]}
{"id": "C86", "title": "The executed-transaction log: stored form, upgrade, iteration", "statement": "What is written for an executed transaction is read back as it was; list_executed_transactions gives, of the entries with data from starting_id on, the first min(limit or 100, 1000) in order; entries written by the first version (pot or bincode) are upgraded with every changed document kept in order, numeric ids as their 8 big-endian bytes, each collection listed once by first use, and to exactly the entry the current version writes for the same changes; data of a later version is refused; looping over the changes by reference and by value gives the same documents, len many, and get(i) is the i-th.", "quantifier": "all transactions, log contents, legacy entries, start ids and limits, and every codec that reads back what it wrote", "why_tests_cant": "old logs cannot be enumerated and the claims range over all lists of changes, including ones with tens of thousands of collections", "anchors": ["crates/bonsaidb-local/src/database/compat.rs:deserialize_executed_transaction_changes", "crates/bonsaidb-local/src/database.rs:list_executed_transactions", "crates/bonsaidb-core/src/transaction.rs:DocumentChanges"]}
{"id": "C87", "title": "The asynchronous file appender keeps the byte stream", "statement": "For every history of polls of write, flush, shutdown and set_buffer_size on one asynchronous appender of a file, whatever was cancelled and polled again and whenever the transactions ran: as long as no call answered an error, the old contents followed by the accepted bytes are the file, the flush in flight and the buffer, in that order; a flush that answers Ok makes the file complete; with errors the file is the old contents followed by the accepted bytes minus at most one whole piece per error; polls are Pending only while a flush is under way and take no bytes then; a ready write of a non-empty slice accepts at least one byte; no call panics as long as answers arrive between polls; dropping an idle appender leaves at most one task, and once that has run the file is complete.", "quantifier": "every block size, file contents, sequence of polls with their data and capacities, time and fate (executed, answer lost, never sent) of every transaction, and interleaving with other clients on other files", "why_tests_cant": "the appender is a hand-written poll state machine: tests run one schedule, and the local database answers slowly enough that the fast-answer states never occur in them", "anchors": ["crates/bonsaidb-files/src/direct.rs:AsyncBufferedAppend", "crates/bonsaidb-files/src/schema/block.rs:append_async"]}
{"id": "C88", "title": "Mapping a view is the same under every schedule, and when it can hang", "statement": "When mapping a set of changed documents into a view answers Ok, the view afterwards holds for these documents exactly what the map function says about the stored documents, saved batch after batch, and nothing else has changed, however the generator, the mapping workers and the saver are interleaved. If no map, reduce or storage call fails, the request always answers, with success. It is false that it always answers: a failing map or save in a batch with at least two batches of 1024 documents behind it leaves the request waiting forever; and with one worker a map error, and with any number an I/O error, reaches the caller as a panic.", "quantifier": "every number of batches, documents and workers, every map and save function, every interleaving of the generator, the mapper's workers and the saver, every place a call fails", "why_tests_cant": "the three stages and the workers talk over bounded channels; the interleavings and the number of batches behind a failure are unbounded", "anchors": ["crates/bonsaidb-local/src/views/mapper.rs: DocumentRequest::map, generate_batches, map_batches, save_mappings"]}
{"id": "C89", "title": "The key-value background worker acts in time and sleeps otherwise", "statement": "Whatever operations, commits, write failures, shutdowns and expiration loading went before: whenever the background worker gets to run, afterwards no key whose expiration the store knows is past its expiration, no persistence threshold is met unless a writer is already at work, and if a threshold was met the writer stores everything that can be read. Nothing ever leaves it asleep past such a moment, and it never spins: with nothing due it goes to sleep. It changes nothing else that can be read. It does not notice the system clock being set forward while it sleeps, but wakes within a day.", "quantifier": "every persistence policy, every history of operations (successful or refused), writer steps and failures, shutdowns, loader steps and worker steps, every time at which the worker may run", "why_tests_cant": "a missed wake-up or a wrong target shows only for particular orders of operations, expirations, thresholds and completed writes, at times a test would have to wait for", "anchors": ["crates/bonsaidb-local/src/database/keyvalue.rs: background_worker, KeyValueState::update_background_worker_target, update_key_expiration, perform_kv_operation, persist_keys", "crates/bonsaidb-core/src/keyvalue/timestamp.rs: Add<Duration> for Timestamp"]}
{"id": "C90", "title": "Asynchronous reading of a file is a position in its content", "statement": "A file opened through the asynchronous interface acts as a position in the file's content, however the background task that fetches blocks is scheduled between (and during) polls: read_exact gives exactly the next n bytes, or everything that is left with UnexpectedEof; the block stream gives consecutive pieces and ends only at the end; seeks go where asked; a dropped call leaves the position after the bytes it took in; and when the task answers promptly every call completes after a bounded number of polls. Every single poll comes back. into_vec/to_vec of an unread file give the whole file. Not so: read() with a buffer larger than what is loaded loses the bytes of a poll that ends Pending; into_vec/to_vec after something was read answer UnexpectedEof rather than the remaining contents; a seek while a dropped call's blocks are under way makes later reads return wrong bytes; after one failed load every later call on the reader waits for ever.", "quantifier": "all files made by any history of appends, truncations and deletions, all block and buffer sizes, all sequences of read / read_exact / next / seek / buffer change / clone, all poll schedules and database states seen by the task that still hold the file's blocks; for the failing reader all histories whatsoever", "why_tests_cant": "The outcome depends on where the fetching task is when the reader is polled, on when futures are dropped and on block boundaries; a test takes one schedule.", "anchors": ["crates/bonsaidb-files/src/direct.rs Contents::fetch_blocks", "crates/bonsaidb-files/src/direct.rs spawn_block_fetching_task", "crates/bonsaidb-files/src/direct.rs AsyncRead::poll_read", "crates/bonsaidb-files/src/direct.rs AsyncSeek", "crates/bonsaidb-files/src/direct.rs Stream::poll_next", "crates/bonsaidb-files/src/direct.rs into_vec"]}
{"id": "C91", "title": "Files used by several clients at once", "statement": "For every interleaving of any number of clients appending to, truncating and deleting files (each truncation and deletion being a query followed later by a transaction): (1) a file always holds whole blocks of the successfully appended data, in the order in which they were appended, all of them if no removal of that file succeeded; (2) a truncation or deletion that succeeds removes exactly the bytes it chose from the content its query saw, and changes no other file; one that fails changes nothing, and fails only because another removal from the same file succeeded in between; (3) if only appends to the file happen between its query and its transaction, it succeeds with the result of running at the time of its query; (4) if all truncations are on the same side to at least m bytes, a file of at least m bytes never becomes shorter than m; (5) an open reader continues as if nothing happened while the blocks it has not finished are still stored. Refuted: truncations at both ends at once can leave nothing although each asks for one byte; an open reader can be given another file's data, or the same block twice, after blocks were removed.", "quantifier": "all block sizes, all interleavings of the queries and transactions of any number of clients on any files, all data, all reader buffer and read sizes", "why_tests_cant": "the set of interleavings of two-step operations is unbounded and the failing ones need a third party to act between a view query and a transaction", "anchors": ["crates/bonsaidb-files/src/schema/file.rs (File::truncate, create_truncate_transaction)", "crates/bonsaidb-files/src/schema/block.rs (Block::append, for_file, delete_for_file, load)", "crates/bonsaidb-files/src/direct.rs (Contents::load_blocks, read)", "crates/bonsaidb-local/src/database.rs (delete_docs_by_name)"]}
{"id": "C92", "title": "A transaction uses its own collections' trees, and they are encrypted as declared", "statement": "In a database whose schema registers every view type once, a transaction on registered collections never fails to find a tree: each operation works on exactly the trees of its own collection (the documents; for a change also the document map and the entries of the eager views and the list of changed documents of the others), each tree is locked once, and each has the encryption key of its collection (the storage's default key if the collection names none) and the storage's compression, the same as for readers, view queries, the view mapper and the integrity scanner. A transaction that names an unregistered collection is refused, and transactions on different collections have no tree in common. Every chunk in a tree of a collection with a key is stored encrypted as long as the tree was not compacted, or the storage has a default key; compacting keeps the content if the storage has a default key or compression.", "quantifier": "all schemas, names, transactions, storage settings and histories of writes, log entries and compactions", "why_tests_cant": "A wrong index or a tree opened with another collection's settings only shows for particular combinations of schema, operation order and settings; reading works with the wrong settings too, so a test that reads back what it wrote cannot see that data was stored in plain.", "anchors": ["crates/bonsaidb-local/src/open_trees.rs: OpenTrees::open_tree, open_trees_for_document_change", "crates/bonsaidb-local/src/database.rs: open_trees_for_transaction, apply_transaction_to_roots, execute_insert, update_eager_views, invalidate_changed_documents, collection_encryption_key, collection_tree", "crates/bonsaidb-local/src/tasks/compactor.rs: compact_tree", "crates/bonsaidb-local/src/storage.rs: StorageInstance::open_roots, TreeVault"]}
{"id": "C93", "title": "Derived collections, views and schemas are what their attributes say", "statement": "`#[derive(Collection)]` accepts the attributes exactly if at most one struct field is marked `#[natural_id]`, no field is marked when a `natural_id` expression is given, `encryption_required` comes with an `encryption_key`, and `serialization = None` comes without a natural id; the generated collection then has the declared name (authority \"private\" unless given), the declared primary key type or else the marked field's or else u64, the listed views in order, the natural id of the marked field or expression, and the declared encryption key unless it is `encryption_optional` (and not required) and encryption is not compiled in. A derived schema registers its own collections and then those of the schemas it includes, recursively and in order; if inclusions end it is accepted exactly when all collection names and all view names differ, and then every collection and view answers with what its attributes declare. In particular it is never accepted if the same collection comes in twice (through two included schemas) or if an inclusion leads back to itself. In a build with the encryption or compression feature, a collection with a key that is not optional is sealed with that key or refused with EncryptionDisabled, one with an optional key is always storable and sealed whenever the build can, and readers and writers agree.", "quantifier": "all attribute combinations and field lists, all programs of derived collections, views and schemas with any nesting of includes, all builds, storage settings and keys", "why_tests_cant": "the macro has dozens of attribute combinations, inclusion trees are unbounded, and feature combinations each compile a different program", "anchors": ["crates/bonsaidb-macros/src/lib.rs collection_derive, schema_derive", "crates/bonsaidb-macros/src/view.rs derive, derive_schema", "crates/bonsaidb-core/src/schema.rs Schema", "crates/bonsaidb-core/src/schema/schematic.rs define_collection, define_view", "crates/bonsaidb-local/src/database.rs open_trees_for_transaction, collection_tree"]}
{"id": "C94", "title": "Only clients of the server's protocol version are connected", "statement": "The websocket listener accepts a handshake exactly if its first Sec-WebSocket-Protocol header line is text whose comma separated list offers the server's protocol version (blanks around it allowed), selects that version, and answers every other request with 406. A client whose version is a plain token is connected, over websockets or the BonsaiDb protocol, exactly if it has the server's version, and otherwise gets ProtocolVersionMismatch. `upgrade_websocket` answers 400 without an Upgrade or Sec-WebSocket-Key header, else 101 with the digest of that key. Of an open websocket's messages the server handles the longest run of decodable requests and pings in order, answers each ping with its own bytes, and stops at the first other message.", "quantifier": "all request headers, all client versions, all sequences of websocket messages", "why_tests_cant": "header values and message sequences are arbitrary remote input; tests try a few", "anchors": ["crates/bonsaidb-server/src/server/websockets.rs VersionChecker::on_request, upgrade_websocket, handle_websocket", "crates/bonsaidb-server/src/server.rs listen_on", "crates/bonsaidb-client/src/client/tungstenite_worker.rs", "crates/bonsaidb-client/src/client/quic_worker.rs connect", "crates/bonsaidb-client/src/error.rs"]}
{"id": "C95", "title": "Transactions that overlap in time behave as if executed one after the other", "statement": "Whatever way transactions and view-mapping passes of any number of threads overlap, there is one order of them such that executing them one after the other in that order gives every caller the result it got, leaves the same transaction log and, once none is running, the same documents and views; a transaction that was over before another began comes before it; a failed one leaves no trace; a reader of one collection or view sees it as it is after some prefix of the order or with the one commit under way; no running transaction ever waits for another. Reading two collections is not atomic (refuted).", "quantifier": "every set of transactions and mapping passes over any schema, every interleaving of their operations, invalidations, tree publications and log entries", "why_tests_cant": "interleavings of several threads inside one transaction cannot be enumerated by tests; the result depends on which trees are locked together", "anchors": ["crates/bonsaidb-local/src/database.rs:apply_transaction_to_roots", "crates/bonsaidb-local/src/database.rs:open_trees_for_transaction", "crates/bonsaidb-local/src/open_trees.rs:open_trees_for_document_change", "crates/bonsaidb-local/src/views/mapper.rs:map_view"]}
{"id": "C96", "title": "Requests of a client in a browser", "statement": "In a browser every request of a client is, at any time, in exactly one place or has its result; it is handed to a socket at most once however often the client reconnects; its caller gets at most one result, and an answer only from a message that carries the request's id and arrives on the connection the request was sent on. There is always exactly one thing that takes care of further requests: a starter that waits for one, or a connection. When connections are over, requests without a result are only those handed to a connection that never opened, or sent after the connection was closed; those get no result from the client at all (only their own timeout). After any failure the next request opens a new connection and is answered.", "quantifier": "every sequence of calls, browser callbacks, task turns, timeouts, errors and closes, over any number of reconnections", "why_tests_cant": "The interleavings of the browser's callbacks with the tasks are unbounded, and the crate's tests do not run in a browser.", "anchors": ["crates/bonsaidb-client/src/client/wasm_websocket_worker.rs: create_websocket, forward_request_with_shutdown, on_open_callback, send_request, on_message_callback, connect_timeout_callback, on_error_callback, take_initial_request, on_close_callback", "crates/bonsaidb-client/src/client.rs: disconnect_pending_requests, process_response_payload"]}
{"id": "C97", "title": "Documents and views used by several remote clients behave like one local database", "statement": "Any number of clients use one server for document transactions, reads, lists, view queries, bulk deletions through views and the transaction log. Whatever the schedule of the clients' workers, the network, the server's queues and its request workers: the server's database is always in a state that local calls can produce; every call that returned got the answer that the same local call gives at one point of a single order; once a write has returned, every get issued afterwards by any client returns the document with exactly that revision and contents, and every view query issued afterwards shows for it exactly what the map function gives, as long as no other call writes that document; of two updates from the same revision that both return success one changed nothing, unless the document was deleted; a view query returns exactly what the map function gives for the stored documents and the keys asked for, in their order; a bulk deletion removes exactly the documents with such a key; gets, lists and the log show exactly what is stored at their place in the order, to those who may read; and a transaction that returned results did exactly its operations, one that returned an error changed nothing.", "quantifier": "all schemas with lawful views, all request and response encodings that are injective on responses, all permissions of sessions, all histories of calls, worker, network, server and handler events of any number of clients and connections", "why_tests_cant": "The claim ranges over every interleaving of clients, connections and request workers and over every schema; tests exercise a few schedules.", "anchors": ["crates/bonsaidb-server/src/dispatch.rs: Handler<Get>, Handler<List>, Handler<Query>, Handler<ApplyTransaction>, Handler<DeleteDocs>, Handler<ListExecutedTransactions>", "crates/bonsaidb-local/src/tasks.rs: update_view_if_needed", "crates/bonsaidb-local/src/database.rs: apply_transaction, for_each_in_view", "crates/bonsaidb-client/src/client.rs: send_request_async", "crates/bonsaidb-server/src/server.rs: handle_client_requests"]}
{"id": "C98", "title": "The key-value store shared by remote clients is one atomic map", "statement": "Any number of clients send key-value operations to one server, while the store's background worker, its writer thread and a shutdown do what they want in between. Every call that returned has the result that a plain map gives at its place in one order; nothing panics. On a key that was absent and is only incremented by natural numbers, every increment's answer is the sum of all increments so far, no two increments get the same number, and a read issued after increments returned shows at least their sum (exactly it if there are no others). Of the clients that set a vacant key only-if-vacant at most one succeeds, and every read issued afterwards shows that client's value. A value put once is taken (get-and-delete) by at most one client. A value set without an expiration is what every read issued afterwards shows, if nothing else writes the key.", "quantifier": "all stored data, persistence policies, clock readings, background activity (also failing writes and shutdown) between requests, permissions, injective response encodings, and all histories of calls, worker, network, server and handler events of any number of clients and connections", "why_tests_cant": "Atomicity across clients must hold for every interleaving of connections, request workers and the store's threads; tests run a few clients with lucky schedules.", "anchors": ["crates/bonsaidb-server/src/dispatch.rs: Handler<ExecuteKeyOperation>", "crates/bonsaidb-local/src/database/keyvalue.rs: execute_key_operation, perform_kv_operation", "crates/bonsaidb-local/src/async.rs: execute_key_operation", "crates/bonsaidb-client/src/client/remote_database/keyvalue.rs: execute_key_operation"]}
{"id": "C99", "title": "Serde forms of documents, transactions and key-value operations come back", "statement": "In every serialization format that keeps byte strings, whether it names fields or not, whether or not it marks optional values, the serde forms of DocumentId, Revision, Header, OwnedDocument, Operation, Transaction, OperationResult, Changes and Executed are read back as the value written; names, numbers and key-value operations on numbers in every format, and a CollectionDocument in every format in which its key and contents come back. VarInt and the limited-resolution durations and timestamps have exactly the form of the number inside. A CollectionDocument is accepted from a map exactly if all its fields are `header` or `contents`, each given at least once and each occurrence readable (the last one counts, in any order), a Header exactly if each of its fields is given once (others are skipped). In a format that writes byte strings as lists of numbers (JSON) no DocumentId, Header, OwnedDocument or document operation with an id or header comes back, and reading an id does not check its length.", "quantifier": "every value of the named types, every key and contents type, every format described by the four choices, every input tree", "why_tests_cant": "values, formats and inputs are unbounded; tests use a few documents in two formats", "anchors": ["crates/bonsaidb-core/src/document/id.rs:Serialize/Deserialize for DocumentId", "crates/bonsaidb-core/src/document/collection.rs:Serialize/Deserialize for CollectionDocument", "crates/bonsaidb-core/src/transaction.rs", "crates/bonsaidb-core/src/keyvalue.rs", "crates/bonsaidb-core/src/key/varint.rs", "crates/bonsaidb-core/src/key/time.rs", "crates/bonsaidb-core/src/schema/names.rs"]}
{"id": "C100", "title": "Records of earlier versions are read", "statement": "A user stored before passwords existed is read with no password, and a key-value entry stored before `last_updated` existed with the earliest time, in a format that names fields or knows where a record ends; in bincode, the format in which the store keeps key-value entries, such an entry cannot be read: its key counts as absent and an export of a store containing it fails, whatever else is stored. Entries of this version are found under their keys and exported, each once. A document of this version is read as stored; bytes that are no document in the current format but one of the first versions' (a number for an id) are read as the document with that number's id, the same revision and contents; nothing else is read as a document.", "quantifier": "every record, every format described by its choices, every store with an old entry anywhere in it, all stored bytes", "why_tests_cant": "stores and records are unbounded; the compatibility tests read two sample databases", "anchors": ["crates/bonsaidb-core/src/admin/user.rs:User", "crates/bonsaidb-local/src/database/keyvalue.rs:Entry", "crates/bonsaidb-local/src/database/keyvalue.rs:retrieve_key_from_disk", "crates/bonsaidb-local/src/database/keyvalue.rs:all_key_value_entries", "crates/bonsaidb-local/src/database.rs:deserialize_document"]}
{"id": "C101", "title": "A remote subscriber receives what is published, in order and once", "statement": "A subscriber created through a client's connection receives every message published (by anyone) to a topic after the server executed its subscription to it and before it executed an unsubscription, each exactly once and in the order of publication, for as long as the connection lasts and the subscriber is not dropped; at any other time what it received is a prefix of that, so nothing arrives twice, out of order or with a gap. Whatever is on its way arrives once the two ends run. Nothing arrives that was not published to one of its topics. Subscribing, unsubscribing or dropping another subscriber of the same client changes nothing. Over websockets, once the client reconnects the subscribers of the earlier connection fail to receive instead of waiting for ever. (Not promised, and shown: a message already sent may arrive after unsubscribe returned; over QUIC the receivers of a broken connection wait for ever, because the map of subscribers is not cleared; so does a subscriber whose creation was answered just before a reconnect; and after a restart of the server dropping an old subscriber unregisters a new one that was given the same id.)", "quantifier": "every history of creations, registrations, subscriptions, unsubscriptions, publications, forwarded and delivered messages, drops, session ends, broken connections, reconnections and (for the refutations) restarts; any number of subscribers, topics and messages; both transports", "why_tests_cant": "Races between the server's forwarding tasks, the client's worker and the callers: a test sees one interleaving of publish, forward, register, drop and reconnect.", "anchors": ["crates/bonsaidb-client/src/client/remote_database/pubsub.rs:AsyncRemoteSubscriber", "crates/bonsaidb-client/src/client.rs:register_subscriber", "crates/bonsaidb-client/src/client.rs:unregister_subscriber_async", "crates/bonsaidb-client/src/client/tungstenite_worker.rs:reconnecting_client_loop", "crates/bonsaidb-client/src/client/quic_worker.rs:reconnecting_client_loop", "crates/bonsaidb-server/src/server/connected_client.rs:forward_notifications_for"]}
{"id": "C102", "title": "Awaiting an asynchronous builder makes the blocking builder's calls, each once", "statement": "The asynchronous builders (lists, key-value set, get and increment, entries) make no request before they are first polled; however often and at whatever moments they are polled, they make the requests the blocking builder makes with the same options, in the same order and none twice, and as soon as the last is answered they finish with what the blocking builder returns; polled while a call is unanswered they send nothing again. Dropped at any time, they made a prefix of those requests. The options may be set in any order, the last setting of each counts; setting one after the first poll, or polling after the end, panics. In particular an awaited set, get, increment or list returns what the blocking call returns when executed where its one request was executed, and an awaited entry makes at most retry_limit + 1 updates, or one insertion, and never both.", "quantifier": "every builder of these kinds with any options, every number and timing of polls, every moment of dropping the future, every sequence of answers of the connection (so every interference by others)", "why_tests_cant": "How often and when an executor polls a future, and when it drops it, is up to the executor and to races with the answers; tests await to the end.", "anchors": ["crates/bonsaidb-core/src/connection.rs:AsyncList", "crates/bonsaidb-core/src/schema/collection.rs:AsyncEntry", "crates/bonsaidb-core/src/keyvalue/implementation/set.rs:AsyncBuilder", "crates/bonsaidb-core/src/keyvalue/implementation/get.rs:AsyncBuilder", "crates/bonsaidb-core/src/keyvalue/implementation/increment.rs:AsyncBuilder"]}
{"id": "C103", "title": "Vault keys kept in S3: each storage's own, read back, never replaced by opening", "statement": "With S3VaultKeyStorage two storages keep their keys in the same object exactly if they use the same service, bucket and storage id and the same path up to a final slash; the object's name is the path, a slash, and the sixteen hexadecimal digits of the id. A key that set_vault_key_for stored is what vault_key_for returns until that object is changed; Ok(None) is returned only if the service says there is no such object, never for a failed call or undecodable contents. Of any number of storage directories opened, closed and killed over one bucket in any interleaving, with calls that fail at will, every successful opening of a directory has the master key of its first one; once it was open it can be opened again whenever the service answers; a failing service or a missing key makes the opening fail without changing anything; an initialisation that failed does not stand in the way of the next one; and nothing is sealed with a key the bucket does not give back. Provided the object is not changed from outside while a master-keys file depends on it (FINDING: a put that timed out may do exactly that, and then the directory cannot be opened any more).", "quantifier": "every path, bucket and id, every number of directories, every interleaving of their calls with failures, crashes, partial writes, given-up requests that arrive late and outside changes of the bucket", "why_tests_cant": "key loss shows only after particular failures of the service between two calls; the tests need a real S3 account and are skipped without one", "anchors": ["crates/bonsaidb-keystorage-s3/src/lib.rs:S3VaultKeyStorage::path_for_id", "crates/bonsaidb-keystorage-s3/src/lib.rs:S3VaultKeyStorage::client", "crates/bonsaidb-keystorage-s3/src/lib.rs:set_vault_key_for", "crates/bonsaidb-keystorage-s3/src/lib.rs:vault_key_for", "crates/bonsaidb-local/src/vault.rs:Vault::initialize", "crates/bonsaidb-local/src/vault.rs:Vault::unseal", "crates/bonsaidb-local/src/storage.rs:StorageId"]}
{"id": "C104", "title": "A server with ACME keeps its certificate renewed", "statement": "Every call of listen_for_secure_tcp_on on a server with ACME starts a task that orders certificates. An order is begun only for a certificate (or the lack of one) that the server was serving at some earlier moment of its life and that, when the order begins, has at most two weeks until async_acme wants it renewed. A server that has no certificate begins an order as soon as the task runs. A certificate the task watches is never within an hour (plus the time the task was scheduled late) below the two weeks without an order having been begun, so with one listener, orders that succeed and take at most a given time, and certificates that last, the served certificate always has the corresponding time left, for ever, and the task never ends. The key that answers the validation of a name is the last one an order handed over for that name. What does not hold: the task watches the key it cloned when it last went through its loop, so a certificate installed by other means while it sleeps is not looked at, however short it lasts; a failed order, of whatever cause, ends the task for good, and nothing orders again until another listener is started or the server restarts; two listeners order two certificates at the same time; a certificate that is issued with less than two weeks until its renewal is ordered again at once, without a pause and without end.", "quantifier": "all runs of any number of listeners' tasks, interleaved with the passing of time, other calls that change the served certificate, orders that succeed with any certificate or fail before or after it was served; every function that says how much time a certificate has left (for the timing claims: one that falls no faster than the clock), every lateness and duration", "why_tests_cant": "The loop sleeps for weeks and acts on what other calls installed meanwhile; a test sees neither the months of a renewal cycle nor every interleaving of an install, a failed order and a second listener.", "anchors": ["crates/bonsaidb-server/src/server/acme.rs: update_acme_certificates, write_certificate", "crates/bonsaidb-server/src/server/tcp.rs: listen_for_secure_tcp_on"]}
{"id": "C105", "title": "The command-line tools do what was typed, as who was asked for", "statement": "A password typed at the prompt and ended with Enter or ^D or the end of the input is the text typed, if it is printable ASCII; Backspace takes back the character before it, ^U the whole line, Escape and ^C cancel, other control characters do nothing, and with confirmation the answer is a password exactly if it was entered twice the same. A user command asks nothing of the storage when the password was not typed; user create creates the user and then sets the password of exactly the id it was given back; every other command makes exactly the call of its name with its arguments and ends as that call does. A name in encoded form is read as the view or the collection it names, and a listed name can be given back if it consists of letters, digits and '-'. Before a command of the application runs, the tool connects to the server asked for (or opens the local one), authenticates the user and then the token asked for, in this order, and stops at the first failure: the command runs only as all the identities asked for. A built-in server command with --url is refused before anything is opened. What does not hold: a password with any character beyond ASCII is stored as a different text, one character per UTF-8 byte, and Backspace takes back half a character; a line that ends with CR LF spoils the confirmation; create --password is two calls, so a failing second one leaves a user without a password; a listed name with '_' or another character that needs escaping is refused, or read as a different name; a built-in command never looks at --username and --token.", "quantifier": "all inputs of any length, all passwords, users, roles and groups, every storage and every way its calls answer, all names, all options and every step failing or not", "why_tests_cant": "The byte loop must be right for every sequence of keys, and the order of authentication and execution for every combination of options and failing steps; tests type a few ASCII words or none.", "anchors": ["crates/bonsaidb-local/src/cli.rs: read_password_from_stdin, read_password_loop", "crates/bonsaidb-local/src/cli/admin.rs: Command::execute", "crates/bonsaidb-local/src/cli/schema.rs: CollectionOrView, print_collection_list", "crates/bonsaidb/src/cli.rs: Command::execute, Args::execute", "crates/bonsaidb-server/src/cli.rs: Command::execute_on"]}
{"id": "C106", "title": "Errors name what they are about", "statement": "Error::conflicting_document::<C>() answers exactly when the transaction failed with a conflict in collection C. For an insert with an id or an update alone, the header it gives is the stored document's, so an update that names that header does not conflict unless something came between. For a delete or a check it is the header the caller passed, not the stored one's: naming it again fails again, whatever is tried with it. In a transaction of several operations it can be a header the failed transaction itself wrote and that is never stored. A violated unique view reaches the application as a unique key error naming that view, the refused document's header and the header of a stored document that emits the same key; is_unique_key_error::<V>() holds for it exactly for the view types registered under that name.", "quantifier": "every schema, reachable state, session, transaction, collection and view type", "why_tests_cant": "needs every state a history can lead to and every operation that can fail in it", "anchors": ["crates/bonsaidb-core/src/lib.rs: Error::conflicting_document, Error::is_unique_key_error, Error::DocumentConflict, Error::UniqueKeyViolation", "crates/bonsaidb-local/src/database.rs: execute_insert, execute_update, execute_delete, execute_check, update_eager_views", "crates/bonsaidb-local/src/views/mapper.rs: compare_swap_view_entry"]}
{"id": "C107", "title": "Sessions and identities are compared by who they are", "statement": "Two Sessions are equal exactly if both are unauthenticated, both are authenticated as the same user id or the same role id, or both are in the same token challenge. This is an equivalence, and two sessions feed a hasher the same exactly if they are equal. Renaming a user or a role, the session's own id and its permissions make no difference, so two equal sessions may be allowed different actions.", "quantifier": "all pairs and triples of sessions, all ids, names, nonces and permissions", "why_tests_cant": "Eq and Hash must agree for all pairs of values", "anchors": ["crates/bonsaidb-core/src/connection.rs: impl PartialEq for Session, impl Hash for Session, impl PartialEq for Identity, impl Hash for Identity, Session::identity"]}
{"id": "C108", "title": "A client's session: reported while current, logged out once when its last handle goes", "statement": "In every schedule of requests, lost connections, authentications, clones and drops of client handles: a session is logged out at most once, only by dropping a handle that has it, and never while another handle with it is in use. A handle dropped while no other handle of the same session is being dropped logs the session out exactly if it is the last one, the session has an id and the client has not connected again since authenticate read the connection counter. session() answers with the session as long as the client has not connected again since the server made it, and with None after the client has connected again.", "quantifier": "all schedules of requests, lost connections, server answers, authenticate calls returning, clones and the two steps of a drop, all sessions", "why_tests_cant": "depends on how drops, reconnects and answers interleave", "anchors": ["crates/bonsaidb-client/src/client.rs: impl Drop for AsyncClient, session_is_current, HasSession::session, authenticate, ClientSession", "crates/bonsaidb-client/src/client/quic_worker.rs: reconnecting_client_loop", "crates/bonsaidb-client/src/client/sync.rs: authenticate"]}
{"id": "C109", "title": "Building a client, and messages it did not ask for", "statement": "AsyncClient::build(url) followed by any calls of the builder's setters and finish: a bonsaidb:// url connects by QUIC to the url's port, 5645 if it has none; ws:// and wss:// connect by websocket when that is compiled in; every other scheme is refused with an error naming it. Of each kind of setting the last call counts, the timeouts are one minute unless given, and the runtime is the given one, else the current one, else one of the client's own. The callback of a custom api is the one given by the last with_api or with_api_callback for that name, except that the name published messages use is always the client's own. A message from the server without a request id goes to exactly the callback registered under its name, one with an id only to the request waiting for it. Three things a user would expect fail: a pinned certificate is silently ignored for websocket urls, calling with_api after with_api_callback removes the callback, and an out-of-band message carrying an error of the api panics the client's task.", "quantifier": "every url, every sequence of builder calls, every set of waiting requests and every message received from the server", "why_tests_cant": "The outcome depends on the order and combination of arbitrarily many builder calls and on messages a server may send at any time; tests build a client one way and receive only the messages they provoke.", "anchors": ["crates/bonsaidb-client/src/builder.rs: Builder", "crates/bonsaidb-client/src/client.rs: AsyncClient::new_from_parts, process_response_payload, ApiCallback", "crates/bonsaidb-client/src/client/quic_worker.rs: reconnecting_client_loop", "crates/bonsaidb-client/src/client/sync.rs: spawn_client"]}
{"id": "C110", "title": "What a storage and a server are opened with", "statement": "StorageConfiguration and ServerConfiguration: after any sequence of Builder calls every setting is that of the last call for it, or its default, and no call changes another setting; only registering a schema that cannot be described is refused. A server's storage is configured exactly as a storage would be by the same calls. Without settings there are as many threads as processors, at least one, and twice as many workers. The opened storage has the path, the workers, the threads, the vault storage and the schemas asked for, each schema as registered last, plus Admin, whose name nobody else may use; a server adds its own schema for certificates and lets clients that have not logged in do exactly what default_permissions says: nothing if it was never called. serve binds the addresses it is given and the standard ports otherwise. Not so, against the documentation or expectation: memory_only still leaves the folder, the identity and the vault's keys on the disk; a second schema of the same name silently replaces the first; without --listen-on the server listens on every interface, not on localhost; serve reports nothing when none of its sockets could be bound.", "quantifier": "every system, every sequence of configuration calls on a storage or a server, every set of serve flags and of sockets that can be bound", "why_tests_cant": "The outcome of arbitrarily many builder calls in any order, through two separate implementations of the same trait, cannot be enumerated; tests call each builder method once and never compare the two.", "anchors": ["crates/bonsaidb-local/src/config.rs: StorageConfiguration, Tasks, Builder", "crates/bonsaidb-local/src/storage.rs: Storage::open", "crates/bonsaidb-server/src/config.rs: ServerConfiguration, DefaultPermissions, BonsaiListenConfig", "crates/bonsaidb-server/src/server.rs: CustomServer::open", "crates/bonsaidb-server/src/cli/serve.rs: Serve::execute_with"]}
