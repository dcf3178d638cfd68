{
 "claims": [
  {
   "property": "C01",
   "status": "proved",
   "theorems": [
    "C01_unsigned_sorted_roundtrip",
    "C01_unsigned_rejects_other_lengths",
    "C01_unsigned_decodes_every_key"
   ],
   "note": ""
  },
  {
   "property": "C02",
   "status": "proved",
   "theorems": [
    "C02_signed_order_refuted",
    "C02_signed_roundtrip_order"
   ],
   "note": "FINDING: numeric order across zero, which the Key contract promises, is false (C02_signed_order_refuted). The theorem gives the exact order for all pairs."
  },
  {
   "property": "C03",
   "status": "proved",
   "theorems": [
    "C03_key_roundtrip",
    "C03_option_field_refuted",
    "C03_option_field_panic_refuted"
   ],
   "note": "FINDING: with an Option of a fixed-length type as a field, decoding a legal key fails or panics (C03_option_field_refuted, C03_option_field_panic_refuted). 2^63 is the largest possible allocation."
  },
  {
   "property": "C04",
   "status": "proved",
   "theorems": [
    "C04_key_order",
    "C04_escaped_null_order_refuted"
   ],
   "note": "FINDING: escaped null bytes break the order (C04_escaped_null_order_refuted), negative integers too (C02)."
  },
  {
   "property": "C05",
   "status": "proved",
   "theorems": [
    "C05_struct_encodes_iff",
    "C05_tuple_encodes_iff",
    "C05_field_failure_propagates",
    "C05_encode_never_panics",
    "C05_no_truncation"
   ],
   "note": ""
  },
  {
   "property": "C06",
   "status": "proved",
   "theorems": [
    "C06_decode_panics_refuted",
    "C06_decode_never_panics",
    "C06_accepts_only_encodings",
    "C06_accepts_other_bytes_refuted"
   ],
   "note": "FINDING: with a variable-length field some byte strings make the decoder panic (C06_decode_panics_refuted); bool, Option and variable-length fields accept several byte strings for one value (C06_accepts_other_bytes_refuted)."
  },
  {
   "property": "C07",
   "status": "proved",
   "theorems": [
    "C07_byte_prefix_range_exact"
   ],
   "note": ""
  },
  {
   "property": "C08",
   "status": "proved",
   "theorems": [
    "C08_string_prefix_range_exact",
    "C08_utf8_order_is_code_point_order",
    "C08_string_prefix_is_byte_prefix",
    "C08_next_string_sequence"
   ],
   "note": ""
  },
  {
   "property": "C09",
   "status": "proved",
   "theorems": [
    "C09_simple_keys",
    "C09_nonzero_rejects_zero",
    "C09_nonzero_signed_order_refuted"
   ],
   "note": "FINDING: non-zero signed integers inherit the order defect of C02 (C09_nonzero_signed_order_refuted)."
  },
  {
   "property": "C10",
   "status": "proved",
   "theorems": [
    "C10_unsigned_ids_increase",
    "C10_unsigned_values",
    "C10_exhausted",
    "C10_unsupported",
    "C10_never_overwrites",
    "C10_signed_ids_increase",
    "C10_signed_values",
    "C10_signed_ids_refuted",
    "C10_optional_ids_refuted"
   ],
   "note": "FINDING: with a signed id type and a negative id present, or with optional ids, automatic ids fail with a conflict for ever (C10_signed_ids_refuted, C10_optional_ids_refuted)."
  },
  {
   "property": "C11",
   "status": "proved",
   "theorems": [
    "C11_display_parse_roundtrip",
    "C11_dollar_roundtrip_refuted",
    "C11_dollar_unparseable_refuted",
    "C11_text_is_printable"
   ],
   "note": "FINDING: printable ids with '$' parse as a different id or not at all (C11_dollar_*_refuted)."
  },
  {
   "property": "C12",
   "status": "proved",
   "theorems": [
    "C12_bytes_limit",
    "C12_parse_limit",
    "C12_parse_plain_limit",
    "C12_parse_limit_refuted",
    "C12_deserialize_limit_refuted"
   ],
   "note": "FINDING: parsing longer text with '$', and deserialization, are not limited (C12_parse_limit_refuted, C12_deserialize_limit_refuted)."
  },
  {
   "property": "C13",
   "status": "proved",
   "theorems": [
    "C13_value_exact",
    "C13_roundtrip",
    "C13_floor",
    "C13_within_one_unit",
    "C13_error_only_out_of_range",
    "C13_time_roundtrip",
    "C13_time_floor",
    "C13_min_roundtrip_refuted",
    "C13_min_value_refuted",
    "C13_negative_floor_refuted",
    "C13_days_saturate_refuted",
    "C13_overflow_refuted",
    "C13_to_time_exact",
    "C13_epoch",
    "C13_unix_epoch",
    "C13_of_time_error_only_out_of_range"
   ],
   "note": "FINDING: smallest values, negative minutes/hours/days/weeks (rounded towards zero, so later than the given time), saturating days and overflow panics: see the six _refuted theorems."
  },
  {
   "property": "C14",
   "status": "proved",
   "theorems": [
    "C14_add_exact",
    "C14_add_never_panics",
    "C14_add_not_earlier",
    "C14_add_monotone",
    "C14_add_nanos",
    "C14_nanos_refuted",
    "C14_saturation_refuted",
    "C14_sub_exact"
   ],
   "note": "FINDING: nanoseconds adding up to exactly one second are not carried (C14_nanos_refuted); at the end of the range the sum is earlier (C14_saturation_refuted)."
  },
  {
   "property": "C15",
   "status": "proved",
   "theorems": [
    "C15_order",
    "C15_chronological",
    "C15_roundtrip",
    "C15_decode_sound"
   ],
   "note": ""
  },
  {
   "property": "C16",
   "status": "proved",
   "theorems": [
    "C16_name_roundtrip",
    "C16_name_alphabet",
    "C16_name_injective",
    "C16_qualified_roundtrip",
    "C16_qualified_injective",
    "C16_view_roundtrip",
    "C16_view_injective",
    "C16_parse_noncanonical",
    "C16_parse_accepts",
    "C16_qualified_two_parts"
   ],
   "note": ""
  },
  {
   "property": "C17",
   "status": "proved",
   "theorems": [
    "C17_tree_names_distinct"
   ],
   "note": ""
  },
  {
   "property": "C18",
   "status": "proved",
   "theorems": [
    "C18_shapes",
    "C18_collections",
    "C18_documents",
    "C18_views",
    "C18_kinds_distinct",
    "C18_dotted_authority_refuted",
    "C18_topics",
    "C18_keys"
   ],
   "note": "FINDING: with '.' in an authority two collections share all their resource names (C18_dotted_authority_refuted)."
  },
  {
   "property": "C19",
   "status": "proved",
   "theorems": [
    "C19_all_or_nothing",
    "C19_first_error",
    "C19_one_by_one"
   ],
   "note": "C19_one_by_one: a second transaction does exactly what it would have done at the end of the first."
  },
  {
   "property": "C20",
   "status": "proved",
   "theorems": [
    "C20_only_current_revision",
    "C20_stale_conflicts",
    "C20_no_lost_update",
    "C20_delete_reinsert_refuted"
   ],
   "note": "FINDING: if the document is deleted and inserted again with its earlier contents, a stale revision is accepted (C20_delete_reinsert_refuted)."
  },
  {
   "property": "C21",
   "status": "proved",
   "theorems": [
    "C21_success",
    "C21_refused",
    "C21_fails_only_if_refused",
    "C21_overwrite_contents",
    "C21_check_changes_nothing"
   ],
   "note": ""
  },
  {
   "property": "C22",
   "status": "proved",
   "theorems": [
    "C22_log_entry",
    "C22_results"
   ],
   "note": ""
  },
  {
   "property": "C23",
   "status": "proved",
   "theorems": [
    "C23_digest",
    "C23_one_operation",
    "C23_revision_identifies_contents"
   ],
   "note": ""
  },
  {
   "property": "C24",
   "status": "proved",
   "theorems": [
    "C24_independent",
    "C24_commute",
    "C24_frame",
    "C24_new_documents"
   ],
   "note": "C24_independent and C24_commute are about transactions of at most 65536 operations (beyond 65536 different collections the transaction log panics)."
  },
  {
   "property": "C25",
   "status": "proved",
   "theorems": [
    "C25_list",
    "C25_get_multiple"
   ],
   "note": ""
  },
  {
   "property": "C26",
   "status": "proved",
   "theorems": [
    "C26_no_permission_no_effect",
    "C26_required",
    "C26_reads_need_permission"
   ],
   "note": ""
  },
  {
   "property": "C27",
   "status": "proved",
   "theorems": [
    "C27_modify_applies_to_latest",
    "C27_failure_changes_nothing"
   ],
   "note": ""
  },
  {
   "property": "C28",
   "status": "proved",
   "theorems": [
    "C28_document",
    "C28_exact",
    "C28_after_mapping",
    "C28_mapping_succeeds",
    "C28_repeated_keys_refuted"
   ],
   "note": "FINDING: values emitted twice for one key by one document are not kept (C28_repeated_keys_refuted)."
  },
  {
   "property": "C29",
   "status": "proved",
   "theorems": [
    "C29_one_per_key",
    "C29_no_two_documents",
    "C29_history",
    "C29_unique_always",
    "C29_violation_fails",
    "C29_errors_are_conflicts"
   ],
   "note": ""
  },
  {
   "property": "C30",
   "status": "proved",
   "theorems": [
    "C30_grouped",
    "C30_reduce",
    "C30_reduce_all"
   ],
   "note": ""
  },
  {
   "property": "C31",
   "status": "proved",
   "theorems": [
    "C31_exact",
    "C31_order",
    "C31_filter",
    "C31_limit_keys",
    "C31_limit_refuted",
    "C31_keys_ignore_limit",
    "C31_denied",
    "C31_with_docs",
    "C31_with_docs_denied"
   ],
   "note": "FINDING: the limit counts keys, not entries, so more entries than the limit are returned (C31_limit_refuted); queries for one key or a set of keys ignore limit and order (C31_keys_ignore_limit)."
  },
  {
   "property": "C32",
   "status": "proved",
   "theorems": [
    "C32_exact",
    "C32_failed",
    "C32_succeeds",
    "C32_two_mappings_refuted"
   ],
   "note": "FINDING: if a document has two mappings in the query the whole deletion fails (C32_two_mappings_refuted)."
  },
  {
   "property": "C33",
   "status": "proved",
   "theorems": [
    "C33_same_version",
    "C33_other_version",
    "C33_rebuilt",
    "C33_crash",
    "C33_concurrent_refuted"
   ],
   "note": "FINDING: a transaction committed between reading the documents and dropping the trees can leave a document unmapped (C33_concurrent_refuted)."
  },
  {
   "property": "C34",
   "status": "proved",
   "theorems": [
    "C34_waits",
    "C34_earlier_transactions",
    "C34_recreated",
    "C34_recreated_refuted"
   ],
   "note": "FINDING: after deleting and recreating a database of the same name the old status answers for the new one (C34_recreated_refuted). It relies on nebari showing the trees of a transaction before its id (C95_trees_before_log, C95_log_first_stale). C34_recreated: the recreated database answers correctly once its transaction ids have passed the old status or one of its own mapper jobs has finished."
  },
  {
   "property": "C35",
   "status": "proved",
   "theorems": [
    "C35_map",
    "C35_fresh",
    "C35_schedule_irrelevant"
   ],
   "note": ""
  },
  {
   "property": "C36",
   "status": "proved",
   "theorems": [
    "C36_set"
   ],
   "note": ""
  },
  {
   "property": "C37",
   "status": "proved",
   "theorems": [
    "C37_arith",
    "C37_signed",
    "C37_unsigned"
   ],
   "note": ""
  },
  {
   "property": "C38",
   "status": "proved",
   "theorems": [
    "C38_expiration",
    "C38_others",
    "C38_kept",
    "C38_not_yet_loaded_refuted"
   ],
   "note": "FINDING: until stored expirations are loaded after opening, keys that expired long ago are still readable (C38_not_yet_loaded_refuted); see C43."
  },
  {
   "property": "C39",
   "status": "proved",
   "theorems": [
    "C39_prefix",
    "C39_committed",
    "C39_reopen"
   ],
   "note": ""
  },
  {
   "property": "C40",
   "status": "proved",
   "theorems": [
    "C40_shutdown",
    "C40_in_flight_refuted",
    "C40_failed_write_refuted"
   ],
   "note": "FINDING: changes are lost if a write is in flight at shutdown, and for ever after one failed write (C40_in_flight_refuted, C40_failed_write_refuted)."
  },
  {
   "property": "C41",
   "status": "proved",
   "theorems": [
    "C41_separate",
    "C41_commute",
    "C41_collision_refuted"
   ],
   "note": "FINDING: namespaces containing NUL, which nested namespaces always do, can collide (C41_collision_refuted)."
  },
  {
   "property": "C42",
   "status": "proved",
   "theorems": [
    "C42_should_commit",
    "C42_delay",
    "C42_order",
    "C42_immediate",
    "C42_operation_commits"
   ],
   "note": ""
  },
  {
   "property": "C43",
   "status": "proved",
   "theorems": [
    "C43_overwritten_refuted",
    "C43_recreated_refuted",
    "C43_loading"
   ],
   "note": "FINDING: a key overwritten without expiration (or deleted and recreated) while expirations are loaded still expires by its old expiration (C43_overwritten_refuted, C43_recreated_refuted)."
  },
  {
   "property": "C44",
   "status": "proved",
   "theorems": [
    "C44_results",
    "C44_exactly_one",
    "C44_one_job",
    "C44_progress",
    "C44_no_lost_result",
    "C44_panic_refuted"
   ],
   "note": "FINDING: after a job panicked, requests for its key are attached to it for ever and never answered (C44_panic_refuted)."
  },
  {
   "property": "C45",
   "status": "proved",
   "theorems": [
    "C45_contents",
    "C45_appends",
    "C45_append_succeeds",
    "C45_last_appended",
    "C45_newest_time"
   ],
   "note": ""
  },
  {
   "property": "C46",
   "status": "proved",
   "theorems": [
    "C46_truncate",
    "C46_truncate_file",
    "C46_concurrent_append_refuted"
   ],
   "note": "FINDING: with a concurrent append truncation can remove bytes below the requested length or from the middle (C46_concurrent_append_refuted)."
  },
  {
   "property": "C47",
   "status": "proved",
   "theorems": [
    "C47_handle",
    "C47_others",
    "C47_seek_end_refuted",
    "C47_seek_after_end_refuted",
    "C47_empty_read_refuted",
    "C47_deleted_refuted"
   ],
   "note": "FINDING: seeking relative to the end or beyond it, reading into an empty buffer, and reading a file deleted meanwhile misbehave (four _refuted theorems)."
  },
  {
   "property": "C48",
   "status": "proved",
   "theorems": [
    "C48_list",
    "C48_recursive_char",
    "C48_recursive",
    "C48_recursive_short",
    "C48_recursive_omits_refuted",
    "C48_recursive_empty_refuted",
    "C48_nul_refuted",
    "C48_stats"
   ],
   "note": "FINDING: the recursive listing omits files whose name sorts below the encoded path length, lists nothing for the empty path; NUL in paths mixes directories (three _refuted theorems). C48_recursive_char states exactly what is returned."
  },
  {
   "property": "C49",
   "status": "proved",
   "theorems": [
    "C49_unique",
    "C49_load",
    "C49_load_sound",
    "C49_create",
    "C49_move",
    "C49_double_slash_refuted",
    "C49_empty_name_refuted",
    "C49_move_answer",
    "C49_rename_answer",
    "C49_stale_handle",
    "C49_create_answer"
   ],
   "note": "FINDING: '/a//b' is created as '/a/b'; renaming to an empty name is accepted and the file cannot be found any more (C49_double_slash_refuted, C49_empty_name_refuted)."
  },
  {
   "property": "C50",
   "status": "proved",
   "theorems": [
    "C50_buffered",
    "C50_progress",
    "C50_large_block_refuted"
   ],
   "note": "FINDING: with blocks above 1 MiB write can accept nothing for ever (C50_large_block_refuted)."
  },
  {
   "property": "C51",
   "status": "proved",
   "theorems": [
    "C51_database",
    "C51_succeeds",
    "C51_storage",
    "C51_folder",
    "C51_no_collections_refuted",
    "C51_dollar_refuted",
    "C51_separator_refuted",
    "C51_empty_refuted",
    "C51_stale_refuted",
    "C51_folder_names_refuted"
   ],
   "note": "FINDING: six ways to lose or mix data otherwise, see the _refuted theorems. Revisions restart."
  },
  {
   "property": "C52",
   "status": "proved",
   "theorems": [
    "C52_transformed",
    "C52_plain",
    "C52_roundtrip",
    "C52_same_settings",
    "C52_encrypted",
    "C52_compression_only",
    "C52_encryption_only",
    "C52_tampered",
    "C52_refused",
    "C52_damaged",
    "C52_trv_refuted",
    "C52_zeros_refuted",
    "C52_disabled_refuted"
   ],
   "note": "Encryption and compression are parameters with the law 'open (seal x) = x'. FINDING: short blocks starting with 'trv' are corrupted, 28 zero bytes panic, disabling both settings returns raw bytes (three _refuted theorems)."
  },
  {
   "property": "C53",
   "status": "proved",
   "theorems": [
    "C53_role",
    "C53_user_actual",
    "C53_user_without_roles",
    "C53_user_lower_bound",
    "C53_role_ignored_refuted",
    "C53_wrong_role_refuted"
   ],
   "note": "FINDING (security): a user's own roles are ignored and roles with the ids of its groups are used instead, so the natural claim (union with the permissions of its roles) is false: C53_role_ignored_refuted, C53_wrong_role_refuted. C53_user_actual states exactly what is computed."
  },
  {
   "property": "C54",
   "status": "proved",
   "theorems": [
    "C54_databases_refine",
    "C54_accepted_names",
    "C54_accepted_names_safe",
    "C54_others_untouched",
    "C54_created_empty",
    "C54_delete",
    "C54_unique_names",
    "C54_empty_name_refuted",
    "C54_delete_escapes_refuted",
    "C54_reserved_refuted",
    "C54_only_if_needed_refuted",
    "C54_admin_deletable_refuted",
    "C54_failed_delete_refuted"
   ],
   "note": "FINDING: '' is accepted and deleting it erases the storage, deletion does not validate names ('../x'), databases may take the names of the vault's files, only_if_needed accepts another schema, '_admin' can be deleted (five _refuted theorems). FINDING: when deleting the database's files fails, the name is no longer listed and cannot be opened, and creating it again is refused as already used until the storage is reopened (C54_failed_delete_refuted)."
  },
  {
   "property": "C55",
   "status": "proved",
   "theorems": [
    "C55_topics_separate",
    "C55_delivery",
    "C55_receive_order"
   ],
   "note": ""
  },
  {
   "property": "C56",
   "status": "proved",
   "theorems": [
    "C56_ids_never_reused",
    "C56_challenge_once",
    "C56_response",
    "C56_begin",
    "C56_token_login",
    "C56_password_login",
    "C56_challenge_has_no_permissions",
    "C56_password",
    "C56_assume_identity",
    "C56_refused_login",
    "C56_subscriber_ids",
    "C56_drop_subscriber",
    "C56_subscribers_stay_refuted",
    "C56_sessions_stay_refuted",
    "C56_user_exists_refuted"
   ],
   "note": "FINDING: ending a session removes neither its subscribers nor, in fact, the session (C56_subscribers_stay_refuted, C56_sessions_stay_refuted)."
  },
  {
   "property": "C57",
   "status": "proved",
   "theorems": [
    "C57_no_orphans",
    "C57_delete",
    "C57_new_file_empty",
    "C57_interleaved_refuted"
   ],
   "note": "FINDING: deleting is two transactions; an append in between leaves blocks behind (C57_interleaved_refuted)."
  },
  {
   "property": "C58",
   "status": "proved",
   "theorems": [
    "C58_add_exact",
    "C58_add_overflow",
    "C58_sum_exact",
    "C58_empty_sum_refuted",
    "C58_sum_overflow",
    "C58_limited_sum",
    "C58_limited_sum_found",
    "C58_limited_days_refuted"
   ],
   "note": "FINDING: the sum of no elements is None instead of zero (C58_empty_sum_refuted)."
  },
  {
   "property": "C59",
   "status": "proved",
   "theorems": [
    "C59_listing",
    "C59_next_page"
   ],
   "note": ""
  },
  {
   "property": "C60",
   "status": "proved",
   "theorems": [
    "C60_load_or_create",
    "C60_double_slash_refuted"
   ],
   "note": "FINDING: with '//' in the path the second call fails (C60_double_slash_refuted)."
  },
  {
   "property": "C61",
   "status": "proved",
   "theorems": [
    "C61_add_group",
    "C61_remove_group",
    "C61_remove_role",
    "C61_add_role_by_id",
    "C61_add_role_by_name_refuted",
    "C61_create_user",
    "C61_delete_user",
    "C61_wellformed"
   ],
   "note": "FINDING: adding a role by its name looks the name up among the permission groups (C61_add_role_by_name_refuted)."
  },
  {
   "property": "C62",
   "status": "proved",
   "theorems": [
    "C62_restrict",
    "C62_assume_session",
    "C62_login_restricted",
    "C62_database_unrestricted_refuted",
    "C62_widen_refuted"
   ],
   "note": "FINDING: the databases and the admin database opened from a restricted handle are not restricted, and a restricted handle without a session can widen itself by resuming (C62_database_unrestricted_refuted, C62_widen_refuted)."
  },
  {
   "property": "C63",
   "status": "proved",
   "theorems": [
    "C63_one_result",
    "C63_results_final",
    "C63_answer_origin",
    "C63_right_answer",
    "C63_response_delivered",
    "C63_disconnect",
    "C63_send_failure",
    "C63_error_replayed_once",
    "C63_early_response_refuted",
    "C63_stale_error_refuted",
    "C63_websocket_close_refuted",
    "C63_id_reuse_refuted"
   ],
   "note": "FINDING: over QUIC a response that is processed between writing the first request of a connection and registering it is dropped and the caller only times out (C63_early_response_refuted); the error of a lost idle connection is given to a later unrelated request (C63_stale_error_refuted); a cleanly closed websocket leaves outstanding requests without a result until another request is written (C63_websocket_close_refuted); ids wrap at 2^32 (C63_id_reuse_refuted)."
  },
  {
   "property": "C64",
   "status": "proved",
   "theorems": [
    "C64_answers",
    "C64_value",
    "C64_limit",
    "C64_no_lost_wakeup",
    "C64_shutdown_began",
    "C64_nothing_lost",
    "C64_all_answered",
    "C64_comes_to_rest",
    "C64_responses_kept",
    "C64_malformed_payloads_refuted",
    "C64_leaked_slots_refuted",
    "C64_graceful_shutdown_refuted"
   ],
   "note": "FINDING: request.value.unwrap() in the worker: a client, authenticated or not, sending one payload whose value is an Err kills a request worker for good; with as many payloads as workers the server never answers anyone again (C64_malformed_payloads_refuted). A panicking handler also leaks its connection's slot (C64_leaked_slots_refuted). A graceful shutdown drops the responses of QUIC connections (C64_graceful_shutdown_refuted)."
  },
  {
   "property": "C65",
   "status": "proved",
   "theorems": [
    "C65_accepted_as",
    "C65_allowed_exactly",
    "C65_from_own_login",
    "C65_recorded",
    "C65_answers",
    "C65_login_fresh",
    "C65_one_connection",
    "C65_logout_ends",
    "C65_disconnect_ends",
    "C65_no_interference",
    "C65_logout_revokes_refuted"
   ],
   "note": "FINDING (C65_logout_revokes_refuted): a request accepted before a log out was answered is still handled with the ended session's permissions."
  },
  {
   "property": "C66",
   "status": "proved",
   "theorems": [
    "C66_fresh",
    "C66_one_owner",
    "C66_needs_session",
    "C66_publish_exact",
    "C66_nothing_else_sent",
    "C66_subscription_effect",
    "C66_unregister_effect",
    "C66_created_exists_refuted"
   ],
   "note": "FINDING (C66_created_exists_refuted): a subscriber created for a session that was logged out between acceptance and handling is dropped at once, although its id is returned (the TODO in register_subscriber)."
  },
  {
   "property": "C67",
   "status": "proved",
   "theorems": [
    "C67_accepted",
    "C67_rejected",
    "C67_answers",
    "C67_views",
    "C67_summary",
    "C67_errors_dropped",
    "C67_shared_type_refuted"
   ],
   "note": "FINDING (C67_shared_type_refuted): views are stored by Rust type, so registering one view type under two names is accepted, the first name then answers with the second view, a unique view may silently become lazy, and the collection lists it twice."
  },
  {
   "property": "C68",
   "status": "proved",
   "theorems": [
    "C68_one_at_a_time",
    "C68_at_most_once",
    "C68_as_issued",
    "C68_nothing_else",
    "C68_returned",
    "C68_real_time",
    "C68_all_answered",
    "C68_failed_but_executed_refuted",
    "C68_pipelined_order_refuted"
   ],
   "note": "Calls of one client object up to 2^32. FINDING: a call that was reported as failed may still be executed afterwards (C68_failed_but_executed_refuted); calls waiting at the same time may be executed in any order (C68_pipelined_order_refuted)."
  },
  {
   "property": "C69",
   "status": "proved",
   "theorems": [
    "C69_exclusive",
    "C69_same_id",
    "C69_configured",
    "C69_never_rewritten",
    "C69_configured_kept",
    "C69_empty_id_refuted",
    "C69_race_refuted"
   ],
   "note": "FINDING: two overlapping first openings: the second truncates the id file of the first and later replaces the id; the vault key is then not found any more (C69_race_refuted). FINDING: a crash between the creation of the id file and its first byte makes every later open panic (C69_empty_id_refuted). With the encryption feature (the vault steps) only."
  },
  {
   "property": "C70",
   "status": "proved",
   "theorems": [
    "C70_same_key",
    "C70_written_once",
    "C70_checked",
    "C70_calm",
    "C70_reopens",
    "C70_torn_refuted",
    "C70_lost_key",
    "C70_newest",
    "C70_key_errors"
   ],
   "note": "HPKE is a parameter with the law that opening undoes sealing. FINDING: a crash or write error while master-keys is written makes the directory unopenable for ever (C70_torn_refuted). A wrong vault key panics (C70_ex_wrong_key). Power failures (nothing is synced) are not modelled."
  },
  {
   "property": "C71",
   "status": "proved",
   "theorems": [
    "C71_load",
    "C71_writes",
    "C71_returned",
    "C71_none",
    "C71_failed",
    "C71_no_second_document",
    "C71_delete_by_name",
    "C71_still_named_refuted",
    "C71_reference_id"
   ],
   "note": "FINDING: the view and the document are read one after the other: the document an entry returns or updates may have lost the name in between, and a retry reloads by id (C71_still_named_refuted). If the name view is not unique, NamedReference::id takes the first mapping of the entry while load takes the lowest id."
  },
  {
   "property": "C72",
   "status": "proved",
   "theorems": [
    "C72_login",
    "C72_right_password",
    "C72_no_user",
    "C72_which_user",
    "C72_set",
    "C72_only_set",
    "C72_own_answer",
    "C72_one_request",
    "C72_served",
    "C72_same_parameters",
    "C72_calibration",
    "C72_parameters_found",
    "C72_accepts_only",
    "C72_calibration_steady",
    "C72_coarse_clock_refuted",
    "C72_failure_kept",
    "C72_not_bound_refuted",
    "C72_default_ram",
    "C72_default_hashers",
    "C72_documented_ram_refuted"
   ],
   "note": "FINDING: the user's id is mixed into the hash but read back from the stored hash and never compared, so a hash copied to another user's document accepts the first user's password (C72_not_bound_refuted). A failed calibration is kept: no password can be set until the storage is opened again (C72_failure_kept); a clock that shows 0 ns for the first attempt makes the calibration divide by zero and ends the hashing thread (C72_coarse_clock_refuted). The documented memory share (1/16 of the system) is not what is computed: at most 128 MiB in total (C72_documented_ram_refuted), and zero detected CPUs divide by zero. Collision freedom of Argon2 is a hypothesis of C72_login only."
  },
  {
   "property": "C73",
   "status": "proved",
   "theorems": [
    "C73_text",
    "C73_text_exists",
    "C73_shortest",
    "C73_roundtrip",
    "C73_roundtrip_any_epoch",
    "C73_injective",
    "C73_to_string",
    "C73_parse",
    "C73_parse_floor",
    "C73_parse_close",
    "C73_parse_total",
    "C73_parse_only",
    "C73_plus_refuted",
    "C73_parse_range",
    "C73_since",
    "C73_between",
    "C73_since_answers",
    "C73_documented_since_refuted",
    "C73_before_1970_refuted",
    "C73_display",
    "C73_display_injective"
   ],
   "note": "FINDING: each part of the text may begin with a plus sign and in the fraction the sign counts as a digit, so 1.+5 is read as 1.05 seconds (C73_plus_refuted). The documentation of duration_since has the None case the wrong way round (C73_documented_since_refuted). A SystemTime before 1970 makes duration_since and duration_between panic (C73_before_1970_refuted). to_string of a time before 1970 cannot be parsed back (C73_to_string gives the exact condition)."
  },
  {
   "property": "C74",
   "status": "proved",
   "theorems": [
    "C74_numbers",
    "C74_nonzero",
    "C74_decoded_in_range",
    "C74_next",
    "C74_next_nonzero",
    "C74_durations",
    "C74_system_time",
    "C74_before_1970_refuted",
    "C74_duration_decoded",
    "C74_duration_bytes_panic_refuted",
    "C74_duration_bytes_differ_refuted",
    "C74_trailing_bytes_refuted",
    "C74_rejected",
    "C74_limited",
    "C74_enum_roundtrip",
    "C74_enum_order",
    "C74_enum_units",
    "C74_enum_decoded"
   ],
   "note": "FINDING: bytes that no encoder wrote can panic the Duration decoder (u64::MAX seconds with 10^9 or more nanoseconds), two different byte strings can be the same duration, bytes after a number are ignored, and a SystemTime before 1970 panics when used as a key (C74_*_refuted). The crate ordered_varint is a parameter with its documented contract (prefix-free, order preserving); a concrete format meets it."
  },
  {
   "property": "C75",
   "status": "proved",
   "theorems": [
    "C75_roundtrip",
    "C75_field",
    "C75_trailing",
    "C75_rejected",
    "C75_order",
    "C75_order_fixed",
    "C75_order_refuted",
    "C75_option",
    "C75_option_order",
    "C75_option_panics",
    "C75_option_empty_refuted",
    "C75_option_in_tuple_refuted",
    "C75_option_next_refuted",
    "C75_option_next",
    "C75_truncated_refuted"
   ],
   "note": "FINDING: as documented, variable-width fields sort by length first (C75_order_refuted). Not documented: an OptionKeyV1 field of a fixed width makes tuples unreadable or ambiguous (C75_option_in_tuple_refuted), truncated keys panic the reader (C75_truncated_refuted), None is its own next value and the first value is not the least (C75_option_next_refuted)."
  },
  {
   "property": "C76",
   "status": "proved",
   "theorems": [
    "C76_async",
    "C76_async_panic",
    "C76_async_storage",
    "C76_async_handles",
    "C76_async_storage_panic",
    "C76_server",
    "C76_server_storage",
    "C76_server_handles",
    "C76_last_id_blocking",
    "C76_last_id_async_refuted",
    "C76_remote",
    "C76_remote_no_database",
    "C76_remote_no_session",
    "C76_remote_no_panic",
    "C76_remote_panic",
    "C76_last_id_remote_refuted",
    "C76_remote_subscriber",
    "C76_remote_storage",
    "C76_bad_name",
    "C76_remote_storage_no_session",
    "C76_remote_authenticate",
    "C76_remote_assume_identity",
    "C76_remote_connection",
    "C76_open_unchecked_refuted",
    "C76_token_refuted",
    "C76_any_local",
    "C76_any_remote",
    "C76_any_storage_local",
    "C76_any_storage_remote",
    "C76_any_handles_local",
    "C76_any_handles_remote",
    "C76_names_distinct",
    "C76_builtin_wins",
    "C76_every_builtin",
    "C76_last_registration_wins",
    "C76_unknown_api",
    "C76_undecodable",
    "C76_custom_api",
    "C76_errors"
   ],
   "note": "FINDING: AsyncDatabase::last_transaction_id skips the GetLastId permission check the blocking Database makes, so async, server and network handles answer it to anyone (C76_last_id_async_refuted, C76_last_id_remote_refuted). A client's database::<DB>(name) checks neither that the database exists nor its schema, and the server's handlers open it without a schema, so a schema mismatch is never reported over the network (C76_open_unchecked_refuted). The Authenticate handler is registered only with the feature password-hashing: a server built with token-authentication alone answers ApiNotFound (C76_token_refuted)."
  },
  {
   "property": "C77",
   "status": "proved",
   "theorems": [
    "C77_set",
    "C77_serialized",
    "C77_bytes",
    "C77_number",
    "C77_take",
    "C77_delete",
    "C77_increment",
    "C77_counter",
    "C77_into_i64",
    "C77_into_i64_refuted",
    "C77_into_i64_saturates_refuted",
    "C77_into_u64",
    "C77_into_u64_refuted",
    "C77_into_f64",
    "C77_lossy",
    "C77_no_panic",
    "C77_expire_at",
    "C77_expire_refuted",
    "C77_builders",
    "C77_builders_ok",
    "C77_typed_reads",
    "C77_previous_as",
    "C77_arith",
    "C77_nested",
    "C77_nested_refuted",
    "C77_wrong_type"
   ],
   "note": "FINDING: strict into_i64 turns infinity and every float of at least 2^63 into i64::MAX instead of failing (C77_into_i64_refuted, C77_into_i64_saturates_refuted); strict into_u64 turns 2^-60 into 0 and 2^70 into u64::MAX (C77_into_u64_refuted) and refuses -0.0; expire_at with a time before 1970 and expire_in with a too long duration panic (C77_expire_refuted); nested namespaces collide when a key contains NUL or a name is empty (C77_nested_refuted)."
  },
  {
   "property": "C78",
   "status": "proved",
   "theorems": [
    "C78_sufficient",
    "C78_necessary",
    "C78_nothing_else",
    "C78_no_view",
    "C78_query_with_docs",
    "C78_delete_docs",
    "C78_delete_docs_refuted",
    "C78_delete_docs_probe_refuted",
    "C78_storage_sufficient",
    "C78_storage_necessary",
    "C78_storage_nothing",
    "C78_challenge_response",
    "C78_user_exists_refuted",
    "C78_resources",
    "C78_databases",
    "C78_names",
    "C78_arguments"
   ],
   "note": "FINDING: delete_docs never looks at the documented DeleteDocs permission on the view, nor at Query (C78_delete_docs_refuted), and even without any permission it tells whether the view has a matching entry (C78_delete_docs_probe_refuted); delete_user, set_user_password and the group and role calls report UserNotFound before checking permission, so anyone can ask whether a user exists (C78_user_exists_refuted). See C62 and C76 for handles that are not restricted."
  },
  {
   "property": "C79",
   "status": "proved",
   "theorems": [
    "C79_no_new_watchers",
    "C79_not_spurious",
    "C79_forced_ends",
    "C79_remaining",
    "C79_graceful_ends",
    "C79_graceful_waits",
    "C79_clean_return",
    "C79_graceful_completes",
    "C79_overtaken_refuted",
    "C79_draining_refuted",
    "C79_websocket_refuted",
    "C79_should_shutdown_refuted",
    "C79_listen",
    "C79_one_interrupt_refuted",
    "C79_stream",
    "C79_outstanding_refuted",
    "C79_queued_refuted"
   ],
   "note": "FINDINGS: a graceful call made after (or racing with) a forced one overwrites its announcement, so websockets go on (C79_overtaken_refuted); a QUIC listener waiting for its connections to go idle is never told of a force (C79_draining_refuted); an open websocket ignores a graceful shutdown, although its request loop has ended, so the call always waits its whole timeout (C79_websocket_refuted); after a clean graceful shutdown, or any shutdown of a server without listeners, should_shutdown() stays false and listen_for_shutdown never returns (C79_should_shutdown_refuted); one SIGINT is taken for two, because the flag is not reset: the graceful shutdown gets 300 ms (C79_one_interrupt_refuted); outstanding and queued requests are dropped in a graceful shutdown (C79_outstanding_refuted, C79_queued_refuted). Not modelled: listen_for_secure_tcp_on does not stop on shutdown, and websockets that arrive later panic at expect(\"watcher shut down\")."
  },
  {
   "property": "C80",
   "status": "proved",
   "theorems": [
    "C80_get",
    "C80_insert",
    "C80_push",
    "C80_overwrite",
    "C80_insert_conflict",
    "C80_insert_refused_only",
    "C80_update",
    "C80_delete",
    "C80_refresh",
    "C80_push_all",
    "C80_configure",
    "C80_list",
    "C80_get_multiple",
    "C80_committed_error_refuted",
    "C80_errors",
    "C80_unreadable_refuted"
   ],
   "note": "Contents of any type, format given by ser/de with de after ser the identity; digests assumed not to collide with the contents being written (no_collision). FINDING: for key types with an Option of a fixed size type among the fields of a composite the document is committed and the call then reports a key error or panics, since the new header's id cannot be decoded (C80_committed_error_refuted). FINDING: one document whose contents cannot be deserialized makes list and get_multiple fail for all documents in the range (C80_unreadable_refuted)."
  },
  {
   "property": "C81",
   "status": "proved",
   "theorems": [
    "C81_mappings",
    "C81_query",
    "C81_limit",
    "C81_configure",
    "C81_range",
    "C81_entries",
    "C81_with_docs",
    "C81_reduce",
    "C81_grouped",
    "C81_delete",
    "C81_stale_panic_refuted",
    "C81_stored_form",
    "C81_bad_key"
   ],
   "note": "The view is taken to be up to date (what the access policy does about that is C32/C33) and its map function to be able to map every stored document. FINDING: if the view is stale (AccessPolicy NoUpdate or UpdateAfter, or a document deleted between the two reads of one call) query_with_docs succeeds, and get or the iterators of the MappedDocuments it returns panic with 'missing mapped document' (C81_stale_panic_refuted)."
  },
  {
   "property": "C82",
   "status": "proved",
   "theorems": [
    "C82_database",
    "C82_collection",
    "C82_completes",
    "C82_deadlock_refuted",
    "C82_panics_refuted"
   ],
   "note": "What nebari's compaction of one tree does is not modelled. FINDING: a compaction of a collection or database occupies a worker while it waits for jobs that need a worker; with as many of them in progress as there are workers (two on a one-core machine) they wait for each other forever, and no view update, integrity scan or compaction of the whole storage ever finishes again (C82_deadlock_refuted). FINDING: a panicking job, such as a panicking map function, ends its worker thread, which is never replaced; after worker_count panics no background job runs any more (C82_panics_refuted)."
  },
  {
   "property": "C83",
   "status": "proved",
   "theorems": [
    "C83_genuine",
    "C83_install",
    "C83_install_succeeds",
    "C83_listen",
    "C83_calm",
    "C83_no_overwrite",
    "C83_race_refuted",
    "C83_overwrite_refuted",
    "C83_failed_install_refuted",
    "C83_pinned_refuted",
    "C83_endpoint_refuted",
    "C83_handshake",
    "C83_protocol",
    "C83_accounts",
    "C83_accounts_refuted"
   ],
   "note": "FINDING: two overlapping installs can both succeed and leave TLS listeners presenting the certificate that is not the stored one (C83_race_refuted); two self-signed installs without overwrite can both succeed, and a failed look-up counts as 'no certificate' (C83_overwrite_refuted); a key that any_ecdsa_type rejects (RSA, Ed25519) is only noticed after the certificate was stored: the call fails, and after the next restart no certificate is presented although listening succeeds (C83_failed_install_refuted); pinned-certificate.der can be stale or empty after a crash or with another server name (C83_pinned_refuted); QUIC endpoints keep the certificate they were started with (C83_endpoint_refuted); contacts with ';' can share an ACME account (C83_accounts_refuted)."
  },
  {
   "property": "C84",
   "status": "proved",
   "theorems": [
    "C84_describes",
    "C84_undescribed",
    "C84_enum",
    "C84_empty_struct",
    "C84_determines",
    "C84_lawful_key_refuted",
    "C84_wrong_refuted",
    "C84_ambiguous_refuted"
   ],
   "note": "FINDING: #[derive(Key)] on an enum reports the number of variants but then visits every field, so that for_key panics for an enum with a variant of two or more fields (or with braces and none), although it is a lawful key: a schema with a collection keyed by it cannot be opened, and one with a view keyed by it cannot be listed (C84_lawful_key_refuted, C84_enum); so does a struct with braces and no fields (C84_empty_struct). Nested, such types can also yield a wrong description (C84_wrong_refuted). Arrays and null handling are not part of descriptions (C84_ambiguous_refuted). Also: limited-resolution times are described with their integer type, whose documented encoding is big-endian, but are encoded as varints. Vec::with_capacity is taken to give exactly the capacity asked for."
  },
  {
   "property": "C85",
   "status": "proved",
   "theorems": [
    "C85_once",
    "C85_connected_first",
    "C85_caused",
    "C85_denied",
    "C85_connected_clients",
    "C85_broadcast",
    "C85_each_ends",
    "C85_disconnected_last",
    "C85_quiet",
    "C85_logout_after_login",
    "C85_late_login_not_ended",
    "C85_rejected",
    "C85_every_login_ends_refuted",
    "C85_ended_once_refuted",
    "C85_ended_after_authenticated_refuted",
    "C85_broadcast_accepted_refuted"
   ],
   "note": "FINDING: a login handled while its client is leaving calls client_authenticated after client_disconnected and its session is never reported ended (C85_every_login_ends_refuted, C85_late_login_not_ended); a log-out handled then reports the session's end twice (C85_ended_once_refuted); a session may be reported ended before it is reported authenticated (C85_ended_after_authenticated_refuted); a connection the Backend rejects still gets client_session_ended and client_disconnected (C85_rejected), and receives broadcasts before client_connected has answered (C85_broadcast_accepted_refuted)."
  },
  {
   "property": "C86",
   "status": "proved",
   "theorems": [
    "C86_upgrade_exact",
    "C86_upgrade_panics",
    "C86_upgrade_bad_id",
    "C86_same_as_new",
    "C86_roundtrip",
    "C86_reads_old",
    "C86_reads_old_keys",
    "C86_newer_refused",
    "C86_list",
    "C86_list_stored",
    "C86_loops_agree",
    "C86_get",
    "C86_bad_entry_skipped_refuted",
    "C86_old_log_readable_refuted",
    "C86_fused",
    "C86_into_fused_refuted"
   ],
   "note": "FINDING: one entry that cannot be decoded makes list_executed_transactions fail as a whole (C86_bad_entry_skipped_refuted); a legacy entry with more than 65536 collections panics instead of failing (C86_old_log_readable_refuted).  pot, bincode and transmog_versions are not in /repo and are parameters with the laws stated in lawful_codec."
  },
  {
   "property": "C87",
   "status": "proved",
   "theorems": [
    "C87_pieces",
    "C87_stream",
    "C87_flush",
    "C87_pending",
    "C87_error_discards",
    "C87_no_panic",
    "C87_quick_answer",
    "C87_quick_write",
    "C87_progress",
    "C87_default_size",
    "C87_drop",
    "C87_retry_refuted",
    "C87_drop_pending_refuted",
    "C87_order_refuted"
   ],
   "note": "FINDING: (1) a flush whose transaction is answered within the poll that submits it leaves a finished future in flush_future: the next poll panics, and after such a flush inside poll_write dropping the appender panics on its assert (C87_quick_answer, C87_quick_write); (2) a failed asynchronous flush discards the buffered bytes, while the synchronous appender keeps them for the next try (C87_error_discards, C87_retry_refuted); (3) dropping the appender while a flush is pending can lose accepted bytes with no error anywhere, although with bytes buffered it would assert (C87_drop_pending_refuted); (4) the flush spawned by Drop is unordered with the next appender (C87_order_refuted)."
  },
  {
   "property": "C88",
   "status": "proved",
   "theorems": [
    "C88_result",
    "C88_saved_in_order",
    "C88_ends",
    "C88_no_hang",
    "C88_success",
    "C88_no_panic",
    "C88_map_error_hangs",
    "C88_save_error_hangs",
    "C88_view",
    "C88_always_returns_refuted",
    "C88_map_error_panic_refuted",
    "C88_io_error_panic_refuted",
    "C88_zero_workers_refuted"
   ],
   "note": "C88_result/C88_saved_in_order/C88_view: an Ok answer is the in-order save of every batch, each with a permutation of its documents' mappings. C88_ends/C88_no_hang/C88_success/C88_no_panic: every run is finite; without failures a run that cannot go on has answered Ok. FINDINGS: C88_map_error_hangs and C88_save_error_hangs: a failure with two more batches behind it is never answered (the receivers are borrowed by the frame of map and stay alive, so the bounded sends of the other stages block), while the transaction's locks are held; C88_map_error_panic_refuted, C88_io_error_panic_refuted, C88_zero_workers_refuted: errors that surface as panics."
  },
  {
   "property": "C89",
   "status": "proved",
   "theorems": [
    "C89_no_panic",
    "C89_in_time",
    "C89_expired_gone",
    "C89_written",
    "C89_sleeps",
    "C89_same_store",
    "C89_known",
    "C89_within_a_day",
    "C89_clock_jump_refuted"
   ],
   "note": "C89_in_time, C89_expired_gone, C89_written: one turn of the worker at any time does all that is due, in terms of the map of C35. C89_sleeps: two turns bring it to rest. C89_same_store: the store under the worker is a history of Kv.v, so C35-C43 apply. C89_known: the hypothesis synced holds in a database opened empty. FINDING: C89_clock_jump_refuted: the sleep is measured with the monotonic clock, so after the system clock is set forward (or a suspend) an expired key stays until the sleep ends, at most a day (C89_within_a_day). Assumed of the watchable crate: a watcher that has read version v returns from watch once the version differs."
  },
  {
   "property": "C90",
   "status": "proved",
   "theorems": [
    "C90_handle",
    "C90_poll_returns",
    "C90_to_vec",
    "C90_remaining_refuted",
    "C90_failure_refuted",
    "C90_failure_reported",
    "C90_read_refuted",
    "C90_seek_refuted"
   ],
   "note": "C90_handle is the full claim for any schedule (with the lost bytes of read() explicit in the specification, and no promise for a seek while blocks are under way); C90_poll_returns, C90_to_vec. Four counter-theorems: C90_read_refuted, C90_remaining_refuted (for every file), C90_seek_refuted, C90_failure_refuted (for every history). Findings: poll_read returns Pending after having filled part of the caller's ReadBuf (tokio's read drops it); to_vec/into_vec use read_exact(len()); fetch_blocks numbers the received blocks from the current position at receipt; `requested` stays true after an error."
  },
  {
   "property": "C91",
   "status": "proved",
   "theorems": [
    "C91_order",
    "C91_call",
    "C91_linearizable",
    "C91_trimming",
    "C91_reader",
    "C91_two_sides_refuted",
    "C91_reader_other_file_refuted",
    "C91_reader_twice_refuted"
   ],
   "note": "FINDINGS: concurrent truncations at both ends remove more than either asked for (C91_two_sides_refuted); block ids of removed blocks are used again, so an open reader of one file can return bytes of another file (C91_reader_other_file_refuted); blocks are numbered by their position in the answer, so a reader whose first unread block was removed returns a later block twice (C91_reader_twice_refuted)."
  },
  {
   "property": "C92",
   "status": "proved",
   "theorems": [
    "C92_trees",
    "C92_unknown",
    "C92_disjoint",
    "C92_readers",
    "C92_sealed",
    "C92_compact_content",
    "C92_same_type_refuted",
    "C92_compact_plain_refuted",
    "C92_compact_raw_refuted",
    "C92_log_refuted"
   ],
   "note": "nebari is not in /repo: that compaction reads and writes each chunk through the settings the tree was opened with, and that log entries are stored through the Roots' settings, is assumed. FINDING: compact_tree opens the tree without the collection's key, so compacting a collection with its own key stores it unencrypted when the storage has compression but no default key (C92_compact_plain_refuted), and without either it takes the ciphertext for the tree's data (C92_compact_raw_refuted). FINDING: log entries, with the ids of the changed documents, are encrypted only with a default key (C92_log_refuted). FINDING: one view type registered under two names, once eager and once lazy, makes every write to the collection panic (C92_same_type_refuted)."
  },
  {
   "property": "C93",
   "status": "proved",
   "theorems": [
    "C93_compiles",
    "C93_collection",
    "C93_view",
    "C93_schema_name",
    "C93_schema",
    "C93_answers",
    "C93_ranked",
    "C93_cycle",
    "C93_twice",
    "C93_file_config",
    "C93_file_registered",
    "C93_api",
    "C93_builds",
    "C93_full_build",
    "C93_optional",
    "C93_required",
    "C93_endless_refuted",
    "C93_listed_elsewhere_refuted",
    "C93_enum_natural_refuted",
    "C93_private_refuted",
    "C93_plain_build_refuted"
   ],
   "note": "Findings: C93_plain_build_refuted (with neither the encryption nor the compression feature the checks are compiled out and an encryption_required collection is stored as plain bytes), C93_endless_refuted (two collection-less schemas including each other recurse for ever), C93_listed_elsewhere_refuted (a view is registered for the collection it names, not the one listing it), C93_enum_natural_refuted (#[natural_id] inside an enum is ignored), C93_private_refuted (no authority and authority \"private\" clash)."
  },
  {
   "property": "C94",
   "status": "proved",
   "theorems": [
    "C94_accepts",
    "C94_client",
    "C94_upgrade",
    "C94_messages",
    "C94_hyper_unversioned_refuted",
    "C94_second_line_refuted"
   ],
   "note": "Findings: C94_hyper_unversioned_refuted (upgrade_websocket, the hyper entry point, never compares versions), C94_second_line_refuted (only the first header line is read). tungstenite's own header checks, TLS/ALPN in fabruic, SHA-1, base64 and bincode are parameters or assumed."
  },
  {
   "property": "C95",
   "status": "proved",
   "theorems": [
    "C95_serializable",
    "C95_failed_leaves_nothing",
    "C95_at_rest",
    "C95_never_stuck",
    "C95_trees_before_log",
    "C95_two_reads_refuted",
    "C95_log_first_stale"
   ],
   "note": "Overlapping transactions taken apart into steps (begin with the lock of exactly the trees open_trees_for_document_change and map_view name, each operation, invalidation, publication of each tree, log entry, end). Proved for all interleavings: serializability with real-time order, equality of results, log and final trees, single-tree reads explained, failed transactions removable, no waiting once the locks are held, at rest the state is one of those C19-C34 speak of. Assumed of nebari: atomic acquisition of the locks, private copies, locks held to the end; failing writes are not modelled. Found: two reads are not atomic (C95_two_reads_refuted), and C34 needs nebari to show a transaction's trees before its id: with the opposite order a view is marked current without the last documents (C95_log_first_stale); with the right order every visible log entry's changes are visible (C95_trees_before_log)."
  },
  {
   "property": "C96",
   "status": "proved",
   "theorems": [
    "C96_accounted",
    "C96_one_result",
    "C96_answer_origin",
    "C96_one_actor",
    "C96_sent_once",
    "C96_stuck_in_connecting",
    "C96_always_answered_refuted",
    "C96_rest",
    "C96_collected",
    "C96_stale_error",
    "C96_recovers",
    "C96_explained",
    "C96_stale_origin",
    "C96_never_displaced"
   ],
   "note": "C96_always_answered_refuted: a request handed to a connection that never opens (it times out or is refused) is kept in the closure of on_open and never answered; C96_stuck_in_connecting says so for every such history. C96_stale_error: when an idle connection closes, the next request is not sent but fails with the old connection's error (as in the native websocket worker). Dropping the client is not modelled, nor the payloads of custom APIs."
  },
  {
   "property": "C97",
   "status": "proved",
   "theorems": [
    "C97_server_state",
    "C97_returned",
    "C97_read_written",
    "C97_query_written",
    "C97_query_exact",
    "C97_delete_exact",
    "C97_get_exact",
    "C97_list_exact",
    "C97_log_exact",
    "C97_no_lost_update",
    "C97_malformed",
    "C97_apply_exact",
    "C97_refused_changes_nothing"
   ],
   "note": "Composition of C68 (every schedule of clients and server is one order of executions) with the document and view model of C19-C34. A handler is one atomic action (C95 and C34 are about the overlaps inside the local database), the mapper job of a query runs inside the query (access policy UpdateBefore), integrity checks are done, one database, the sessions' permissions are fixed. 'Exactly those contents' is up to a collision of the revision hash, as in C21: an update whose hash equals the stored one keeps the stored contents."
  },
  {
   "property": "C98",
   "status": "proved",
   "theorems": [
    "C98_store",
    "C98_returned",
    "C98_increment",
    "C98_unique_numbers",
    "C98_no_lost_increment",
    "C98_lock_exclusive",
    "C98_lock_visible",
    "C98_taken_once",
    "C98_read_written",
    "C98_no_panic"
   ],
   "note": "Composition of C68 (one order) with C35-C38 (the store is a map). The store's lock makes the operation one atomic action in the code, too. The expiration loader has finished (C43, C89); the sessions' permissions are fixed; one database. A failed (disconnected) call may still be executed (C68), so an increment whose call failed may count."
  },
  {
   "property": "C99",
   "status": "proved",
   "theorems": [
    "C99_documents",
    "C99_collection_document",
    "C99_transactions",
    "C99_names",
    "C99_key_values",
    "C99_same_form",
    "C99_collection_document_map",
    "C99_collection_document_seq",
    "C99_header_map",
    "C99_array",
    "C99_wellformed",
    "C99_header_seq",
    "C99_optional_field",
    "C99_option",
    "C99_json_refuted",
    "C99_long_id",
    "C99_stored_names"
   ],
   "note": "Findings: a document's JSON form can be written but never read (C99_json_refuted); an id longer than the limit is accepted when received (C99_long_id). Formats are described by four choices, their texts are not modelled; whether the external type arc_bytes::Bytes reads lists of numbers is a parameter."
  },
  {
   "property": "C100",
   "status": "proved",
   "theorems": [
    "C100_old_user",
    "C100_old_entry",
    "C100_old_entry_refuted",
    "C100_entries",
    "C100_documents",
    "C100_view_version"
   ],
   "note": "Finding: #[serde(default)] on Entry::last_updated has no effect in bincode (C100_old_entry_refuted): an entry written before the field existed reads as absent and makes a backup fail. The byte level of pot and bincode is a parameter."
  },
  {
   "property": "C101",
   "status": "proved",
   "theorems": [
    "C101_delivery",
    "C101_complete",
    "C101_prefix",
    "C101_arrives",
    "C101_only_subscribed",
    "C101_unsubscribed",
    "C101_waits",
    "C101_receive_ends",
    "C101_independent",
    "C101_after_unsubscribe_refuted",
    "C101_receive_ends_quic_refuted",
    "C101_late_register_refuted",
    "C101_stale_drop_refuted"
   ],
   "note": "Assumption: circulate's relay counts subscriber ids from the start in a new process (used only by C101_stale_drop_refuted). Which requests a session may make is C66, the server's relay C55. Findings: the QUIC worker clears the subscriber map only once; create_subscriber's registration races with the reconnect's clear; ids are reused after a server restart."
  },
  {
   "property": "C102",
   "status": "proved",
   "theorems": [
    "C102_same",
    "C102_once",
    "C102_lazy",
    "C102_dropped",
    "C102_completes",
    "C102_no_reuse",
    "C102_set",
    "C102_get",
    "C102_increment",
    "C102_list",
    "C102_entry",
    "C102_entry_result",
    "C102_entry_options"
   ],
   "note": "The results of the blocking builders are C80 (lists), C77 (key-value) and C71 (entries). expire_in counts from the call of expire_in, not from the await."
  },
  {
   "property": "C103",
   "status": "proved",
   "theorems": [
    "C103_objects",
    "C103_name",
    "C103_region",
    "C103_builders",
    "C103_read_back",
    "C103_no_key",
    "C103_put_failed",
    "C103_same_key",
    "C103_opens",
    "C103_retry",
    "C103_noticed",
    "C103_missing",
    "C103_own_only",
    "C103_quiet",
    "C103_late_put_refuted"
   ],
   "note": "FINDINGS: (1) C103_late_put_refuted: a put that was reported as failed and is carried out later replaces the key of a later, successful initialisation; the next opening panics (unwrap of the HPKE opening) and the data are lost. (2) C103_region: without an endpoint the configured region is ignored. Assumes that the service stores objects as a whole and returns the last one put. LocalVaultKeyStorage is in C70."
  },
  {
   "property": "C104",
   "status": "proved",
   "theorems": [
    "C104_only_when_due",
    "C104_failure_refuted",
    "C104_failed_order",
    "C104_served",
    "C104_stale_refuted",
    "C104_short_refuted",
    "C104_in_time",
    "C104_kept",
    "C104_at_once",
    "C104_challenge",
    "C104_two_refuted"
   ],
   "note": "Findings (C104_failure_refuted, C104_stale_refuted, C104_two_refuted, C104_short_refuted): acme.rs:99 clones the key outside the waiting loop; the ? of acme.rs:127 ends the task for good, which is only logged; one task per listener; no back-off."
  },
  {
   "property": "C105",
   "status": "proved",
   "theorems": [
    "C105_typed",
    "C105_backspace",
    "C105_backspace_empty",
    "C105_clear",
    "C105_ignored",
    "C105_cancel",
    "C105_confirmed",
    "C105_not_ascii_refuted",
    "C105_crlf_refuted",
    "C105_create",
    "C105_set_password",
    "C105_one_call",
    "C105_create_refuted",
    "C105_items",
    "C105_listed",
    "C105_listed_refuted",
    "C105_plan",
    "C105_runs",
    "C105_builtin_refuted"
   ],
   "note": "Findings: C105_not_ascii_refuted (cli.rs:204 pushes `other as char`), C105_crlf_refuted, C105_create_refuted, C105_listed_refuted (Display lists the unescaped name, FromStr parses the escaped one), C105_builtin_refuted. Terminal errors and printing are not modelled."
  },
  {
   "property": "C106",
   "status": "proved",
   "theorems": [
    "C106_conflicting_document",
    "C106_current",
    "C106_retry",
    "C106_own_header",
    "C106_own_header_refuted",
    "C106_uncommitted_refuted",
    "C106_unique",
    "C106_is_unique_key_error",
    "C106_same_name",
    "C106_unique_any"
   ],
   "note": "Refuted: after a delete conflict conflicting_document gives back the caller's own stale header (database.rs:652-655), and after a failed check likewise (743-746), so its documentation 'the header of the conflicting document' holds only for inserts and updates; within one transaction the header may be of a revision that was rolled back. That the error names the very view is stated for transactions of one operation, under the hypotheses of C29. C106_unique_any: the same for a violation anywhere in a transaction, at the state the operations before the failing one make."
  },
  {
   "property": "C107",
   "status": "proved",
   "theorems": [
    "C107_equal",
    "C107_equivalence",
    "C107_hash",
    "C107_renamed",
    "C107_other",
    "C107_permissions_refuted"
   ],
   "note": "Refuted: equal sessions being interchangeable. Two sessions of one user with different permissions and ids are equal and hash alike, so a map keyed by Session mixes them up."
  },
  {
   "property": "C108",
   "status": "proved",
   "theorems": [
    "C108_at_most_once",
    "C108_not_in_use",
    "C108_only_drops",
    "C108_drop",
    "C108_race_refuted",
    "C108_reported",
    "C108_gone_after_reconnect",
    "C108_stale_refuted",
    "C108_lost_refuted"
   ],
   "note": "Refuted: (1) two handles dropped at the same time can each read a strong count of 2, so the session is never logged out (C108_race_refuted); (2) the connection counter is read after the answer arrived, so if the connection was replaced in between, a session the new connection does not know is reported as current (C108_stale_refuted); (3) after the connection is lost the session is still reported until the next request connects again (C108_lost_refuted). Requests carry the id of an outdated session all the same (client.rs:497)."
  },
  {
   "property": "C109",
   "status": "proved",
   "theorems": [
    "C109_worker",
    "C109_settings",
    "C109_apis",
    "C109_callback",
    "C109_answer",
    "C109_certificate_refuted",
    "C109_callback_lost_refuted",
    "C109_error_refuted",
    "C109_survives"
   ],
   "note": "C109_certificate_refuted, C109_callback_lost_refuted and C109_error_refuted are the three findings, stated as theorems about the code as it is."
  },
  {
   "property": "C110",
   "status": "proved",
   "theorems": [
    "C110_storage",
    "C110_refused",
    "C110_server",
    "C110_server_refused",
    "C110_workers",
    "C110_opened",
    "C110_open_server",
    "C110_files",
    "C110_memory_refuted",
    "C110_schema_replaced_refuted",
    "C110_serve",
    "C110_localhost_refuted",
    "C110_serve_refuted"
   ],
   "note": "C110_memory_refuted, C110_schema_replaced_refuted, C110_localhost_refuted and C110_serve_refuted are the four findings, stated about the code as it is."
  }
 ]
}