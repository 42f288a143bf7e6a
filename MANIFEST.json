{
 "claims": [
  {
   "property": "C01",
   "status": "proved",
   "theorems": [
    "C01_varint_size_is_exact"
   ],
   "note": "All uint64 values. The encoder is the byte loop of encoding/binary; SizeVarint is the closed formula of the code."
  },
  {
   "property": "C02",
   "status": "proved",
   "theorems": [
    "C02_varint_round_trip",
    "C02_varint_self_delimiting"
   ],
   "note": "All uint64 values followed by any bytes; also stated against an independent base-128 specification (leb) and as unique decodability."
  },
  {
   "property": "C03",
   "status": "proved",
   "theorems": [
    "C03_file_meta_round_trip",
    "C03_short_buffers_are_rejected",
    "C03_unknown_formats_are_rejected",
    "C03_total"
   ],
   "note": "All versions/formats/offsets/counts the struct can hold; short buffers and unknown formats give errors; decoding is total."
  },
  {
   "property": "C04",
   "status": "partial",
   "theorems": [
    "C04_index_meta_round_trip_partial",
    "C04_refuted_long_names",
    "C04_short_buffer_panics"
   ],
   "note": "Proved for names up to 65529 bytes; longer names wrap the uint16 bound and make UnmarshalBinary panic (C04_refuted_long_names, proved for every such name)."
  },
  {
   "property": "C05",
   "status": "partial",
   "theorems": [
    "C05_client_varints_partial",
    "C05_client_varint_count",
    "C05_refuted_from_2_31"
   ],
   "note": "Holds below 2^31; false for every value from 2^31 on (32-bit shifts). The byte count is right for all values."
  },
  {
   "property": "C06",
   "status": "partial",
   "theorems": [
    "C06_client_file_meta_partial",
    "C06_client_index_meta_partial",
    "C06_refuted_large_counts"
   ],
   "note": "Holds while entry count / total length are below 2^31; a larger count is misread."
  },
  {
   "property": "C07",
   "status": "proved",
   "theorems": [
    "C07_comparison_is_lexicographic",
    "C07_total_order",
    "C07_client_orders_identically"
   ],
   "note": "For all byte strings and pointers; the TypeScript comparison is modelled separately and proved equal."
  },
  {
   "property": "C08",
   "status": "proved",
   "theorems": [
    "C08_binary_search",
    "C08_client_search_agrees"
   ],
   "note": "slices.BinarySearchFunc and the TypeScript loop, every sorted list; lower bound stated by counting."
  },
  {
   "property": "C09",
   "status": "partial",
   "theorems": [
    "C09_keys_sort_like_numbers_partial",
    "C09_refuted_negative_numbers"
   ],
   "note": "Proved for non-negative numbers; for negatives the order is reversed (and all negatives sort above all non-negatives): proved for all pairs."
  },
  {
   "property": "C10",
   "status": "proved",
   "theorems": [
    "C10_node_round_trip",
    "C10_encoding_injective"
   ],
   "note": "Every node satisfying the size bounds of the format, any bytes after it, both key modes (stored keys / keys re-read from the data file)."
  },
  {
   "property": "C11",
   "status": "proved",
   "theorems": [
    "C11_write_effect",
    "C11_read_after_write",
    "C11_storages_agree"
   ],
   "note": "Both storages (memory map and SeekableBuffer), every offset within the file, every buffer."
  },
  {
   "property": "C12",
   "status": "partial",
   "theorems": [
    "C12_write_count_partial",
    "C12_refuted_growing_write",
    "C12_refuted_hole"
   ],
   "note": "Holds for SeekableBuffer, first writes and in-place writes; false for every growing write to a non-empty memory map (shadowed n): wrong count and a hole before the next write."
  },
  {
   "property": "C13",
   "status": "proved",
   "theorems": [
    "C13_new_page",
    "C13_oversized_buffer_refused",
    "C13_pages_keep_their_content"
   ],
   "note": "For every history of NewPage/FreePage (reach), including reopening."
  },
  {
   "property": "C14",
   "status": "proved",
   "theorems": [
    "C14_live_pages_are_not_handed_out",
    "C14_reuse_only_after_free"
   ],
   "note": "For every history; also as a statement on the trace of events."
  },
  {
   "property": "C15",
   "status": "proved",
   "theorems": [
    "C15_free_list_is_fifo",
    "C15_free_list_survives_reopening"
   ],
   "note": "Ring buffer refines a FIFO queue; reopening reproduces the same queue."
  },
  {
   "property": "C16",
   "status": "partial",
   "theorems": [
    "C16_no_panic_partial",
    "C16_refused_free_changes_nothing",
    "C16_free_page_panics_refuted",
    "C16_never_panics_refuted"
   ],
   "note": "NewPage never panics; FreePage succeeds while the ring has not reached its end (ring_use < 512); at the end of the ring it panics on a live page: constructed history with 511 pages in the free list."
  },
  {
   "property": "C17",
   "status": "partial",
   "theorems": [
    "C17_page_count_partial",
    "C17_page_count_refuted"
   ],
   "note": "Holds for page file histories; a fresh index file (linked meta page written past the page file) has 2 pages and PageCount 1."
  },
  {
   "property": "C18",
   "status": "partial",
   "theorems": [
    "C18_metadata_round_trip_partial",
    "C18_too_long_refused",
    "C18_metadata_round_trip_refuted"
   ],
   "note": "Up to 254 bytes; exactly 255 bytes are accepted and then panic on reading (all histories); longer ones are refused."
  },
  {
   "property": "C19",
   "status": "partial",
   "theorems": [
    "C19_slots_hold_partial",
    "C19_isolation_refuted"
   ],
   "note": "All histories whose metadata stay within 252 bytes; at 253 bytes the last byte overwrites the low byte of the next slot's root (for every history and byte)."
  },
  {
   "property": "C20",
   "status": "proved",
   "theorems": [
    "C20_collect",
    "C20_add_at_tail",
    "C20_add_elsewhere",
    "C20_histories_exist"
   ],
   "note": "For every history of AddNext/SetRoot/SetMetadata."
  },
  {
   "property": "C21",
   "status": "partial",
   "theorems": [
    "C21_same_slots_and_roots",
    "C21_same_metadata",
    "C21_same_metadata_any",
    "C21_metadata_255_refuted"
   ],
   "note": "TypeScript walk, roots and metadata on the same bytes; only the 255 byte metadata differ (Go panics, TypeScript reads)."
  },
  {
   "property": "C22",
   "status": "proved",
   "theorems": [
    "C22_create",
    "C22_reopen",
    "C22_foreign_refused",
    "C22_metadata",
    "C22_set_metadata"
   ],
   "note": "ifile: any file produced by a history of the index file operations (inductive definition with C13-C20's invariants)."
  },
  {
   "property": "C23",
   "status": "partial",
   "theorems": [
    "C23_existing_is_found",
    "C23_new_is_created_partial",
    "C23_found_exists",
    "C23_unique",
    "C23_longest_name_refuted"
   ],
   "note": "Names up to 245 bytes. Refuted for every index file for names of 248 bytes: created, and then FindOrCreateIndex panics for it and for every new name. For 246 and 247 bytes see C40 (PNames.v); from 249 bytes C24."
  },
  {
   "property": "C24",
   "status": "partial",
   "theorems": [
    "C24_bad_name_bricks_the_file_refuted",
    "C24_existing_indexes_still_found_partial"
   ],
   "note": "False for every file and every name above 248 bytes: all later creations fail. Existing indexes are still found."
  },
  {
   "property": "C25",
   "status": "partial",
   "theorems": [
    "C25_is_empty_refuted"
   ],
   "note": "False: proved that IsEmpty is true exactly when there IS an index, for every file."
  },
  {
   "property": "C26",
   "status": "proved",
   "theorems": [
    "C26_field_names",
    "C26_first_appearances_spec"
   ],
   "note": "Every file history."
  },
  {
   "property": "C27",
   "status": "proved",
   "theorems": [
    "C27_inserted_keys_are_found",
    "C27_find_after_insert"
   ],
   "note": "Every history of inserts into any tree satisfying the invariant, keys up to 2016 bytes, files below 2^60 bytes."
  },
  {
   "property": "C28",
   "status": "proved",
   "theorems": [
    "C28_tree_is_a_sorted_map"
   ],
   "note": "History of inserts refines a map (map_run); the walk lists it in ascending order."
  },
  {
   "property": "C29",
   "status": "proved",
   "theorems": [
    "C29_backward_iteration_is_exact"
   ],
   "note": "Every tree and key."
  },
  {
   "property": "C30",
   "status": "partial",
   "theorems": [
    "C30_forward_iteration_partial",
    "C30_forward_iteration_any_key_partial",
    "C30_refuted"
   ],
   "note": "Exact when the key is present or not above all keys; for other keys the first Next may report the end, and only the second call starts the walk (both cases characterised); C30_refuted is a run of the program."
  },
  {
   "property": "C31",
   "status": "partial",
   "theorems": [
    "C31_contains_partial",
    "C31_refuted_empty",
    "C31_refuted_fall_off"
   ],
   "note": "What Contains answers for any key; false on the empty tree and for a value whose first key is in the next leaf."
  },
  {
   "property": "C32",
   "status": "proved",
   "theorems": [
    "C32_duplicates_are_refused"
   ],
   "note": "Every tree; the whole state is unchanged."
  },
  {
   "property": "C33",
   "status": "partial",
   "theorems": [
    "C33_insert_into_an_index_of_a_file",
    "C33_insert_never_fails_partial",
    "C33_refuted_wide_keys"
   ],
   "note": "Keys with an encoded size up to 2016 bytes (all key types but long inline keys); C33_refuted_wide_keys: 3 inserts of keys near the page size panic."
  },
  {
   "property": "C34",
   "status": "partial",
   "theorems": [
    "C34_wrong_width_refused_partial",
    "C34_refuted"
   ],
   "note": "All keys shorter than 65536 bytes; a key of length width-1+65536 passes the uint16 check and panics."
  },
  {
   "property": "C35",
   "status": "proved",
   "theorems": [
    "C35_indexes_read_as_their_history",
    "C35_insert_touches_one_index",
    "C35_every_index_is_a_tree"
   ],
   "note": "Every file with any number of indexes."
  },
  {
   "property": "C36",
   "status": "partial",
   "theorems": [
    "C36_crash_leaves_an_index_partial",
    "C36_nothing_lost_without_a_split_partial",
    "C36_a_split_can_lose_keys_refuted",
    "C36_other_indexes_keep_everything_partial",
    "C36_refuted"
   ],
   "note": "Crash after any number of physical writes. The index stays readable and loses at most one contiguous run of keys, and nothing without a split; with a split there is always a crash point that loses a committed key (proved for every splitting insert). Other indexes lose nothing."
  },
  {
   "property": "C37",
   "status": "proved",
   "theorems": [
    "C37_consumes_complete_lines",
    "C37_read_offset_and_entries",
    "C37_example"
   ],
   "note": "Every data file; jparse/unquote/number parsing are parameters of the model."
  },
  {
   "property": "C38",
   "status": "proved",
   "theorems": [
    "C38_no_new_line",
    "C38_synchronize_again"
   ],
   "note": "Every file; identical bytes afterwards."
  },
  {
   "property": "C39",
   "status": "proved",
   "theorems": [
    "C39_incremental_equals_batch",
    "C39_example"
   ],
   "note": "Every way of cutting the file into synchronizations."
  },
  {
   "property": "C40",
   "status": "partial",
   "theorems": [
    "C40_every_field_and_nothing_else_partial",
    "C40_parse_gives_the_key",
    "C40_long_name_loses_a_line_refuted",
    "C40_long_name_panics_refuted"
   ],
   "note": "Every sequence of legal lines within the limits of fits: names of at most 236 bytes, no white space between the key of a string and its colon, searched fields are strings whose n-grams lie within the range of the value (C81_limits_partial says when). Ordinary and n-gram indexes alike. Refuted beyond: a name of 247 bytes loses a line silently, one of 246 (or 245 with a total from 128) makes Synchronize panic on the second line (concrete, PNames.v)."
  },
  {
   "property": "C41",
   "status": "partial",
   "theorems": [
    "C41_failure_keeps_metadata_partial",
    "C41_retry_partial",
    "C41_retry_refuted"
   ],
   "note": "A bad first new line can be retried; after good lines preceding a bad one, the retry fails with 'key already exists' (run of the program). Metadata are kept."
  },
  {
   "property": "C42",
   "status": "partial",
   "theorems": [
    "C42_string_keys_reparse_partial",
    "C42_space_before_colon_refuted",
    "C42_refuted"
   ],
   "note": "Holds when no white space stands between a name and its colon; otherwise the stored range starts at the colon and parses to the empty value (for every such text)."
  },
  {
   "property": "C43",
   "status": "partial",
   "theorems": [
    "C43_rows_under_header_names_partial",
    "C43_every_cell_is_listed",
    "C43_example",
    "C43_example_two_steps",
    "C43_header_alone_refuted",
    "C43_same_names_refuted",
    "C43_short_first_row_refuted"
   ],
   "note": "Files whose first synchronization contains the header and at least one full row, distinct names; the three exceptions are refuted by runs."
  },
  {
   "property": "C44",
   "status": "partial",
   "theorems": [
    "C44_ranges_hold_the_text_partial",
    "C44_quoted_refuted"
   ],
   "note": "Rows without quotes; a quoted cell gets the range of another part."
  },
  {
   "property": "C45",
   "status": "proved",
   "theorems": [
    "C45_tokens_are_ngrams",
    "C45_words",
    "C45_offsets",
    "C45_tokens_have_the_index_width"
   ],
   "note": "Every normalised text (norm.NFKD's result is a parameter)."
  },
  {
   "property": "C46",
   "status": "partial",
   "theorems": [
    "C46_same_tokens_partial",
    "C46_same_tokens_refuted",
    "C46_accents_refuted"
   ],
   "note": "ASCII texts; refuted for accented letters and for surrogate pairs."
  },
  {
   "property": "C47",
   "status": "proved",
   "theorems": [
    "C47_shuffle_permutes"
   ],
   "note": "Every sequence of random choices."
  },
  {
   "property": "C48",
   "status": "partial",
   "theorems": [
    "C48_descending_lt_le_partial",
    "C48_ascending_lt_le_partial",
    "C48_ascending_gt_ge_eq_partial",
    "C48_one_page_gt_ge_eq_partial",
    "C48_eq_direction",
    "C48_descending_gt_ge_refuted",
    "C48_eq_ge_refuted",
    "C48_hypotheses_met",
    "C48_one_page_lt_le_refuted"
   ],
   "note": "Characterisation of what each operator returns in each direction; correct: descending < and <=, ascending </<= on multi-page trees, >,>=,== under the stated conditions; refuted otherwise (one page ascending < raises an error, a key at the start of a leaf is missed by == and >=, descending >/>=)."
  },
  {
   "property": "C49",
   "status": "partial",
   "theorems": [
    "C49_limit_refuted"
   ],
   "note": "False: the limit is never applied (for every query with <= descending)."
  },
  {
   "property": "C50",
   "status": "proved",
   "theorems": [
    "C50_where_adds_a_clause",
    "C50_order_adds_a_clause",
    "C50_select_sets_the_fields",
    "C50_limit_sets_the_limit",
    "C50_new_builder_is_empty"
   ],
   "note": "Builders live in a heap of arrays; aliasing is modelled."
  },
  {
   "property": "C51",
   "status": "partial",
   "theorems": [
    "C51_validation_partial",
    "C51_validation_refuted"
   ],
   "note": "All numbers but NaN; NaN passes."
  },
  {
   "property": "C52",
   "status": "partial",
   "theorems": [
    "C52_cache_behaviour",
    "C52_cache_partial",
    "C52_cache_refuted"
   ],
   "note": "Behaviour of the cache fully characterised; a repeated range comes back one byte short (every file and range)."
  },
  {
   "property": "C53",
   "status": "partial",
   "theorems": [
    "C53_chunking_does_not_matter",
    "C53_sent_parts_come_back_partial",
    "C53_parts_come_back_partial",
    "C53_truncated_body_never_ends",
    "C53_the_fuel_suffices",
    "C53_proto_header_refuted",
    "C53_header_values_are_cut_refuted",
    "C53_lower_case_names_refuted",
    "C53_quoted_boundary_refuted",
    "C53_boundary_with_equals_refuted",
    "C53_leading_line_end_refuted",
    "C53_padding_refuted"
   ],
   "note": "Every chunking gives the same result (any bytes at all); well-formed bodies with token boundaries and simple headers come back exactly, a repeated header with its last value where it first came; seven refutations for legal bodies the parser rejects or cuts."
  },
  {
   "property": "C54",
   "status": "partial",
   "theorems": [
    "C54_typescript_type_refuted"
   ],
   "note": "False for every field type: the names are those of another enumeration."
  },
  {
   "property": "C55",
   "status": "proved",
   "theorems": [
    "C55_keys_fit_the_index_width",
    "C55_index_has_the_declared_width"
   ],
   "note": "JSONL handler, every value."
  },
  {
   "property": "C56",
   "status": "proved",
   "theorems": [
    "C56_pop_min",
    "C56_pop_max",
    "C56_drain"
   ],
   "note": "Every history of inserts of new ids and pops of either end."
  },
  {
   "property": "C57",
   "status": "partial",
   "theorems": [
    "C57_reinsert_contents_partial",
    "C57_reinsert_refuted"
   ],
   "note": "Contents are right; the heap order is not restored (run)."
  },
  {
   "property": "C58",
   "status": "partial",
   "theorems": [
    "C58_vectors_read_back_partial",
    "C58_refuted"
   ],
   "note": "Find returns the vector with every coordinate converted k>=1 times by float32(uint32(bits)); it is the inserted vector exactly if all coordinates have bits 0 or 1318926965. Dimensions 1..501."
  },
  {
   "property": "C59",
   "status": "partial",
   "theorems": [
    "C59_vector_inserts_partial",
    "C59_refuted",
    "C59_wrong_dimension_panics"
   ],
   "note": "Dimensions 1..501: every Insert answers as specified, never panics. With dimension 600 the third insert panics; a vector of another length panics. Dimensions 502..1017 in general are not characterised."
  },
  {
   "property": "C60",
   "status": "partial",
   "theorems": [
    "C60_friends_within_M_partial",
    "C60_friends_within_M_refuted"
   ],
   "note": "Holds when every point is drawn at level 0; refuted for M=2 with points on levels 0 and 1, which are drawn (C93_levels_of_C60_C64)."
  },
  {
   "property": "C61",
   "status": "proved",
   "theorems": [
    "C61_knn_search",
    "C61_insert_vector",
    "C61_friends_are_points"
   ],
   "note": "Every graph built by InsertVector, every level sequence, any totally ordered exact distance type (integers)."
  },
  {
   "property": "C62",
   "status": "partial",
   "theorems": [
    "C62_text_indexes_have_the_declared_width_partial",
    "C62_declared_width_refuted"
   ],
   "note": "Text indexes; number indexes are written with width 0 while their metadata say 9."
  },
  {
   "property": "C63",
   "status": "partial",
   "theorems": [
    "C63_client_reads_nodes_partial",
    "C63_refuted_large_offsets"
   ],
   "note": "Offsets and lengths below 2^31 (C05)."
  },
  {
   "property": "C64",
   "status": "partial",
   "theorems": [
    "C64_no_self_friend_partial",
    "C64_no_self_friend_refuted"
   ],
   "note": "Level 0 only; refuted otherwise, for M=2 and drawn levels."
  },
  {
   "property": "C65",
   "status": "partial",
   "theorems": [
    "C65_flush_partial",
    "C65_level_refuted",
    "C65_padding_refuted"
   ],
   "note": "Flush never fails in any graph; length, ids, order and padding are proved for every graph and n. The recorded level is one of the point's levels but need not be the highest (C65_level_refuted: InsertFriendsAtLevel on a lower level overwrites it), and the zero padding equals a record of point 0 on level 0 (C65_padding_refuted)."
  },
  {
   "property": "C66",
   "status": "partial",
   "theorems": [
    "C66_entries_stay_zero",
    "C66_entries_refuted"
   ],
   "note": "False: entries stay 0 for every CSV file."
  },
  {
   "property": "C67",
   "status": "partial",
   "theorems": [
    "C67_nonnegative_partial",
    "C67_negative_refuted",
    "C67_zeros_refuted",
    "C67_query_partial",
    "C67_query_refuted"
   ],
   "note": "Non-negative numbers; negatives and -0 refuted."
  },
  {
   "property": "C68",
   "status": "partial",
   "theorems": [
    "C68_two_fields_refused",
    "C68_clauses_on_one_field_refuted"
   ],
   "note": "Clauses on two fields are refused; on one field the result is the concatenation of the answers, not the conjunction."
  },
  {
   "property": "C69",
   "status": "proved",
   "theorems": [
    "C69_unknown_field",
    "C69_unindexed_type"
   ],
   "note": "Every file and query."
  },
  {
   "property": "C70",
   "status": "partial",
   "theorems": [
    "C70_lines_below_partial",
    "C70_lines_above_partial",
    "C70_one_page_partial",
    "C70_ascending_below_partial",
    "C70_descending_above_refuted",
    "C70_many_lines_example",
    "C70_one_page_example",
    "C70_example"
   ],
   "note": "End to end: JSONL text -> Synchronize -> browser query, for descending < and <=, for ascending < and <= on any index, for all four on an index of one page; descending > and >= on an index of several pages is refuted in general and on 4097..5000 concrete lines."
  },
  {
   "property": "C71",
   "status": "proved",
   "theorems": [
    "C71_every_page_has_a_use",
    "C71_space_bound"
   ],
   "note": "Every file history."
  },
  {
   "property": "C72",
   "status": "partial",
   "theorems": [
    "C72_first_last_partial",
    "C72_example",
    "C72_one_page_refuted"
   ],
   "note": "Trees of more than one page (decided by the stored size); on a one-page tree first() and last() panic."
  },
  {
   "property": "C73",
   "status": "partial",
   "theorems": [
    "C73_results_contain_an_ngram_partial",
    "C73_one_page_partial",
    "C73_all_or_none_partial",
    "C73_misses_refuted",
    "C73_hypotheses_met",
    "C73_each_record_once_refuted",
    "C73_empty_index_refuted",
    "C73_misses_hypotheses_met"
   ],
   "note": "Results are sound; complete on one-page indexes; refuted otherwise (misses, duplicates, empty index raises)."
  },
  {
   "property": "C74",
   "status": "partial",
   "theorems": [
    "C74_frequency_refuted",
    "C74_what_is_computed_partial"
   ],
   "note": "The frequency computed is characterised; it is not the number of occurrences."
  },
  {
   "property": "C75",
   "status": "partial",
   "theorems": [
    "C75_requested_bytes_partial",
    "C75_total_length_partial",
    "C75_total_length_refuted",
    "C75_integrity_check_refuted",
    "C75_one_byte_range_refuted",
    "C75_error_page_refuted",
    "C75_data_file_get",
    "C75_witness",
    "C75_server_without_multipart",
    "C75_server_without_multipart_witness",
    "C75_server_without_ranges"
   ],
   "note": "Against any server that satisfies the specification of range requests; totals are 0 in multipart mode and the integrity check is skipped there. Servers that refuse multipart but serve single ranges, and servers without ranges, have theorems of their own."
  },
  {
   "property": "C76",
   "status": "partial",
   "theorems": [
    "C76_fields_partial",
    "C76_no_fields_refuted"
   ],
   "note": "Every index file with at least one index; without one, fields() throws (failed to fetch meta pages)."
  },
  {
   "property": "C77",
   "status": "partial",
   "theorems": [
    "C77_accepted_iff",
    "C77_accepted_finds_index_partial",
    "C77_accepted_two_fields_refuted"
   ],
   "note": "The acceptance condition is characterised exactly, with an independent specification of the accepted spellings; each clause of an accepted query finds its header and index; an accepted two-field where is refused by query()."
  },
  {
   "property": "C78",
   "status": "partial",
   "theorems": [
    "C78_no_select",
    "C78_select_partial",
    "C78_nested_refuted",
    "C78_inherited_refuted",
    "C78_query_select_partial"
   ],
   "note": "JSON.parse and handleSelect over all JSON documents; names inside nested objects select nothing, names of Object.prototype select inherited values; end to end for descending < and <= (C70)."
  },
  {
   "property": "C79",
   "status": "partial",
   "theorems": [
    "C79_row_refuted",
    "C79_csv_query_refuted"
   ],
   "note": "Refuted: each row goes through JSON.parse, so every query that finds a row of at least two cells (the first without quotes or brackets) throws SyntaxError."
  },
  {
   "property": "C80",
   "status": "partial",
   "theorems": [
    "C80_add_node_partial",
    "C80_histories_partial",
    "C80_same_neighbours_refuted",
    "C80_entry_point_refuted"
   ],
   "note": "For every history: graph and vector tree always get the point, the list tree holds exactly the lists, and the answer is an error exactly if the list was stored before (C80_add_node_partial, C80_histories_partial). The full claim is false: a second point with the same neighbour list is refused after graph and vector tree were changed (C80_same_neighbours_refuted), and the entry point is never stored (C80_entry_point_refuted, all histories). Vectors come back changed as in C58. The two trees are in separate page files."
  },
  {
   "property": "C81",
   "status": "partial",
   "theorems": [
    "C81_one_page_partial",
    "C81_all_or_none_partial",
    "C81_results_share_an_ngram_partial",
    "C81_limits_partial",
    "C81_example"
   ],
   "note": "Data file to search result, for ASCII search texts: every result is a line whose field shares an n-gram with the text; with one-page indexes exactly these lines, once per n-gram and place; otherwise per n-gram all of them or none (C73_misses_refuted: none does happen). Missing: non-ASCII search texts (C46 refuted), each line once (C73_each_record_once_refuted)."
  },
  {
   "property": "C82",
   "status": "partial",
   "theorems": [
    "C82_ordinary_indexes_partial",
    "C82_null_refuted",
    "C82_collision_refuted"
   ],
   "note": "Within the limits the ordinary indexes and the metadata are the same with and without search headers. The full claim is false: a null in a searched field makes Synchronize fail (C82_null_refuted), and so do two texts of one length when NFKD lengthens the first (C82_collision_refuted)."
  },
  {
   "property": "C83",
   "status": "partial",
   "theorems": [
    "C83_crash_keeps_the_position_partial",
    "C83_crash_adds_nothing_wrong_partial",
    "C83_a_crash_can_block_indexing_refuted",
    "C83_crash_without_a_new_line_partial",
    "C83_crash_while_creating_an_index_refuted",
    "C83_example",
    "C83_witness",
    "C83_create_example",
    "C83_position_example",
    "C83_entries_example",
    "C83_entries_witness"
   ],
   "note": "Without a new complete line any crash leaves the index file byte for byte (C83_crash_without_a_new_line_partial). The full claim is false for every history with a new scalar field: C83_a_crash_can_block_indexing_refuted gives a death after which every Synchronize, whatever is appended or reopened, fails with key already exists and the recorded position never moves; C83_crash_while_creating_an_index_refuted gives a death after which no further index can be created at all. Proved for every death at every write: the file left can be opened and records the position of before (C83_crash_keeps_the_position_partial), and every index found in it lists in order only entries the lines give it (C83_crash_adds_nothing_wrong_partial; entries of before may be missing: C36)."
  },
  {
   "property": "C84",
   "status": "partial",
   "theorems": [
    "C84_write_at",
    "C84_read_at",
    "C84_storages_are_files_partial",
    "C84_short_read_at_refuted",
    "C84_write_at_beyond_the_end_refuted",
    "C84_read_at_beyond_the_end_refuted",
    "C84_seek_beyond_the_end_refuted",
    "C84_seek",
    "C84_truncate",
    "C84_write_after_truncate_refuted"
   ],
   "note": "Proved for all histories of positioned reads and writes within the file (Seek from the start before each Read and Write, as every caller in the repository does), with Bytes() and, for the buffer, Truncate among them. The full claim is false: the buffer's ReadAt is short without an error, WriteAt, ReadAt and Seek beyond the end differ between the storages (one refuses, the other extends or panics), and Truncate leaves a position from which Write panics. The counts reported by growing writes are C12."
  },
  {
   "property": "C85",
   "status": "proved",
   "theorems": [
    "C85_index_file_size",
    "C85_every_history_is_a_life",
    "C85_contents",
    "C85_example"
   ],
   "note": "End to end from text to file size: no hypothesis on the index file, only on the data file (below 2^44 bytes, inside the limits of C37)."
  },
  {
   "property": "C86",
   "status": "proved",
   "theorems": [
    "C86_index_file_size",
    "C86_every_history_is_a_life",
    "C86_contents",
    "C86_example"
   ],
   "note": "End to end from CSV text to file size, no hypothesis on the index file; histories that synchronize with the header as the only complete line are excluded (that case is the bug C43_header_alone_refuted). Contents: as C43 and C66."
  },
  {
   "property": "C87",
   "status": "partial",
   "theorems": [
    "C87_rows_below_partial",
    "C87_rows_above_partial",
    "C87_one_page_partial",
    "C87_ascending_below_partial",
    "C87_descending_above_refuted",
    "C87_query_raises_refuted",
    "C87_example",
    "C87_number_column_refuted"
   ],
   "note": "End to end for CSV with the two different key conversions: descending < and <= on any index; ascending > >= and == on an index of one page, and on larger ones exactly or nothing; ascending < and <= on more than one page. Refuted: descending > and >= on more than one page, handing rows of two cells to the caller (JSON.parse), number columns (concrete)."
  },
  {
   "property": "C88",
   "status": "partial",
   "theorems": [
    "C88_every_run_succeeds",
    "C88_contents",
    "C88_nothing_new",
    "C88_wrong_handler",
    "C88_later_headers_refuted"
   ],
   "note": "All parts proved for all histories of runs (limits of C40 for the new lines of each run, index file below 2^60). Refuted: naming a field in -s later makes earlier lines searchable; for every history, there is no n-gram index of a field no earlier run named unless a new line has it."
  },
  {
   "property": "C89",
   "status": "partial",
   "theorems": [
    "C89_root_in_place_partial",
    "C89_session_sees_a_run_partial",
    "C89_new_field_refuted",
    "C89_records_vanish_refuted",
    "C89_hypotheses_met",
    "C89_session_refuted"
   ],
   "note": "Positive parts proved for every later history. Refuted: C89_session_refuted (the full statement), C89_records_vanish_refuted (every insert that moves the root of one of the first 14 indexes hides at least one old record from the open session), C89_new_field_refuted (a new field is reported as missing, whatever the file has become). Not modelled: the resolver cache and the browser's HTTP cache, which only make it worse."
  },
  {
   "property": "C90",
   "status": "partial",
   "theorems": [
    "C90_answers_are_right_partial",
    "C90_descending_gt_partial",
    "C90_blind_instant_refuted",
    "C90_example"
   ],
   "note": "Positive parts: C90_answers_are_right_partial (every comparison but descending >) and C90_descending_gt_partial (descending > returns what >= does). Missing: the full statement, refuted by C90_blind_instant_refuted (a line found before and after is not found in between, and every query fails). A write of the indexer is taken to be atomic and one query to see one instant: a query whose requests fall on both sides of a write is not covered. The data file is the one being indexed."
  },
  {
   "property": "C91",
   "status": "partial",
   "theorems": [
    "C91_crash_keeps_the_position_partial",
    "C91_crash_adds_nothing_wrong_partial",
    "C91_position_example",
    "C91_entries_example",
    "C91_header_becomes_a_record_refuted",
    "C91_header_is_cut_short_refuted"
   ],
   "note": "Positive parts: C91_crash_keeps_the_position_partial and C91_crash_adds_nothing_wrong_partial (the trees are walked with width 0, as the handler writes them). Missing: the recovery, refuted by C91_header_becomes_a_record_refuted (one column: the next Synchronize succeeds and has the header among the records) and C91_header_is_cut_short_refuted (two columns: every later Synchronize fails). Limits: cfits (no quoting, rows not longer than the header, the first as long) and that no earlier Synchronize saw the header alone."
  },
  {
   "property": "C92",
   "status": "partial",
   "theorems": [
    "C92_strings_mean_the_same",
    "C92_keys_agree",
    "C92_cells_unchanged",
    "C92_lines_below",
    "C92_lines_above_partial",
    "C92_one_page",
    "C92_example",
    "C92_query_example",
    "C92_ill_formed_strings_refuted",
    "C92_ill_formed_query_refuted"
   ],
   "note": "C92_strings_mean_the_same, C92_keys_agree and C92_cells_unchanged are complete for UTF-8 text; C92_lines_below, C92_lines_above_partial and C92_one_page repeat C70 with the browser's own parseValue in place of the indexer's Parse. Refuted for text that is not UTF-8: C92_ill_formed_strings_refuted, C92_ill_formed_query_refuted. The libraries (unquoteBytes of encoding/json, TextDecoder, JSON.parse, TextEncoder) are models of their documented behaviour; ParseFloat and JSON.parse are assumed to give the same float64 (same_float)."
  },
  {
   "property": "C93",
   "status": "partial",
   "theorems": [
    "C93_levels_partial",
    "C93_levels_below_54_partial",
    "C93_geometric_partial",
    "C93_insert_panics_refuted",
    "C93_M_0_refuted",
    "C93_insert_partial"
   ],
   "note": "Proved for M of at least 2 and every draw but 0, with the logarithms, quotient and product of real numbers instead of floats (a draw at the very edge of a level may be rounded to the next one). False in full: the draw 0 (one in 2^53), and with M=1 every draw, makes the level infinite and InsertVector panics; with M=0 all points stay on level 0. Uses the axioms of the standard library's real numbers."
  },
  {
   "property": "C94",
   "status": "partial",
   "theorems": [
    "C94_every_run_indexes_the_rows_partial",
    "C94_nothing_new_partial",
    "C94_wrong_handler_partial",
    "C94_search_headers_are_ignored_refuted",
    "C94_header_alone_refuted"
   ],
   "note": "Proved for all histories of growth and runs within the limits of cfits (no quoting, different names of at most 245 bytes, rows not longer than the header and the first one as long, index file below 2^60), if no run saw the header without a row. False in full: such a run makes the next one take the first row for the header (C94_header_alone_refuted); -s is ignored with -csv: for every history no column gets an index of n-grams."
  },
  {
   "property": "C95",
   "status": "proved",
   "theorems": [
    "C95_only_json_scalars_have_a_value",
    "C95_every_json_scalar_has_its_value",
    "C95_rows_are_read_as_written"
   ],
   "note": "Proved for every text of bytes and every line. The decoders of encoding/json and encoding/csv are models of the libraries (they are not in /repo); the conversions of strings and numbers are parameters. Parse gives nil, which is also the value of null and of the empty string, for a text that it refuses: the theorem is about the values that are not nil. What the JSONL handler makes of malformed lines is C41."
  },
  {
   "property": "C96",
   "status": "partial",
   "theorems": [
    "C96_any_text_may_follow",
    "C96_damaged_line_refuted"
   ],
   "note": "Proved within the limits of C40 (which, like C37 to C42 and all that rests on them, now allow any text without a line break after the object of a line); the conversions of strings and numbers and the n-grams are parameters. Refuted on {\"a\":1}x and {\"a\":1}{\"a\":2}: Synchronize reports nothing and counts one entry for the line, the second object is in no index, and JSON.parse of the client refuses the line when a query yields it. C78_query_select_partial therefore asks that the lines are JSON texts as a whole."
  }
 ]
}