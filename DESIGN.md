# Formal model of kevmo314/appendable

## Approach

The Go indexer (storage, page file, linked meta pages, B+ tree, index file, JSONL
and CSV handlers, tokenizer, distance heap, vector tree, HNSW) and the TypeScript
reader (varints, metadata, slots, tree nodes, iteration, queries, search, cache,
range requests, multipart parsing) are modelled as executable Gallina functions in
`rocq/theories`, function by function, with the file and lines in a comment.

* Bytes, offsets and machine integers are `Z`; wrap-around is written `mod 2^n`
  (`s32`, `s64` for signed ones) where the code can reach it.
* Effects are a state monad `st -> res A * st` with
  `res = Ok | Err | Panic | Crash | Hang`. The state keeps the file even when a call
  fails, so "without effect" can be stated. `Hang` is what a loop returns when its
  fuel runs out; the theorems say `Ok`, so they include termination.
* A crash is a write budget in the state (`budget`): when it is used up the next
  physical write does not happen and the run stops with `Crash`.
* Histories are inductive relations (`reach`, `slots`, `ifile`, `history`, `life`,
  `clife`, `graph`, `heap_hist`, `vhistory`): every theorem about "any history"
  quantifies over them, and each has a theorem or example that shows inhabitants.

Where the code violates a property the model shows it: a theorem named `..._refuted`
(many are general: they hold for *every* state of the stated kind, others exhibit a
run of the program that is checked by computation), and what is true is
`..._partial`. A property with both is listed as `partial`.

## Layout of rocq/theories

| Files | Content |
|---|---|
| Base, Varint | result monad, little/big endian, slices; varints |
| Store, PageFile, PageHist | memory map / SeekableBuffer; page file with its free list ring |
| RefValue, Node, LinkedPage | keys and their order, tree nodes, linked meta pages |
| BPTree | model of pkg/bptree (Go) |
| BPRepr, BPIter, BPInsert, BPLoop, BPTop | representation invariant, traversal, iteration, split and insert proofs |
| Meta, TsCodec | file and index metadata; the TypeScript decoders |
| Slots, SlotAdd, Cells, IndexFile, IFileInv | slot histories, several indexes in one file, pkg/appendable |
| Json, Jsonl, JsonDoc, JsonlDoc, JsonlSpec, JsonlRun, JsonlHist, Grows | encoding/json decoder and the JSONL handler |
| Csv, CsvSpec, CsvRun | encoding/csv reader and the CSV handler |
| Heap, Hnsw, HnswInv | pkg/hnsw |
| VTree, VFloat, VTreeInv | pkg/btree |
| Query, QTree, TsFile, Search | TypeScript iterators, index file reader, query and search |
| Crash, SyncCrash | inserts and Synchronize with a write budget |
| Cmd | a run of cmd/main.go |
| Multipart, RangeReq | TypeScript range requests |
| P*.v | specifications and property theorems; P*Ex.v their concrete cases and counterexamples |

## Trusted base

* The kernel of Coq 8.16.1, including its `vm_compute` machine, used for concrete
  witnesses and boolean side conditions. `coqchk` re-checks every module.
* No axioms: `Print Assumptions` says "Closed under the global context" for every
  theorem of MANIFEST.json but those of C93 (`PLevels.v`), which use the standard
  library's real numbers and list its `ClassicalDedekindReals.sig_not_dec`,
  `ClassicalDedekindReals.sig_forall_dec`, `FunctionalExtensionality.functional_extensionality_dep`
  and `Classical_Prop.classic` (C93_M_0_refuted and C93_insert_panics_refuted through the
  definition of `spawn_level`). In `coqchk`'s list the sealed operations of
  `Coq.Reals.Rdefinitions` appear too. Modules loaded through mathcomp's ssreflect
  list its 7 `Under_rel` parameters of the standard library `ssrunder` in `coqchk`;
  no theorem depends on them. No `Admitted`, no `Axiom`, no section-less `Variable`.
* The definitions were written by hand from the source and not extracted or run
  against it (the sandbox has no Go or node and none of the dependencies).
* Parameters of the model, i.e. things the theorems are quantified over:
  `jsonparser.ParseString/strconv.Unquote` (`unquote`), `strconv.ParseFloat`
  (`to_float`, only assumed to give 8 bytes), `norm.NFKD` (the normalised runes),
  `toLowerCase` (`tl`), `TextEncoder` (`encode`), the random choices of `shuffle`,
  the random levels of HNSW, floating point scores of search (`plus`, `score`),
  JavaScript's `sort` (any permutation), the HTTP server (`serves`).
* Contracts taken from documentation: Go's `encoding/binary`, `bytes`, `slices`,
  `encoding/json` tokens, `encoding/csv`, mmap/ftruncate and the OS file (a byte
  sequence; writes are atomic, crashes happen between writes), JavaScript numbers,
  bit operators, `DataView`, `ArrayBuffer`.

### What is modelled

pkg/encoding (varints), pkg/pointer, pkg/mmap and pkg/buftest (SeekableBuffer),
pkg/pagefile, pkg/linkedpage, pkg/metapage as used by linkedpage, pkg/bptree (all of
node, tree, iterator, first/last), pkg/appendable (index file, metadata, data
handlers' interface), pkg/handlers (jsonl, csv), pkg/ngram, pkg/hnsw (heap, friends,
insert and search), pkg/btree, pkg/vectorpage (in PVector.v and PManager.v), a run of
cmd/main.go; src/util/uvarint, src/bptree, src/file, src/db,
src/ngram, src/resolver.

### What is not modelled

* Of cmd/main.go: flag parsing, logging, timings, profiling, the benchmark file (a run
  is modelled in Cmd.v). Debug printing, `String()` methods.
* Concurrency: the Go code is single threaded per file; asynchronous TypeScript code
  is modelled as sequential (`await` in order), so interleavings of two queries are
  not covered.
* int64/uint64 field types' keys in the handlers (JSONL never produces them).
* Floating point distances in HNSW: exact integers instead; float32 rounding of
  distances is not covered. `float32(uint32)` in pkg/btree is modelled exactly.
* Files of 2^60 bytes and more, memory exhaustion, goroutine and I/O errors other
  than crashes.


## Property by property

For each: what is modelled and how the proof goes, then the result (the note of MANIFEST.json) and the theorems.

### C01 Varint size is exact (proved)

PutUvarint is the byte loop on Z, SizeVarint the formula (9*bitlen+64)/64. Case split on the number of 7 bit groups.

*Result.* All uint64 values. The encoder is the byte loop of encoding/binary; SizeVarint is the closed formula of the code.

*Theorems.* `PCodec.v`: C01_varint_size_is_exact

### C02 Varint round trip and self-delimitation (proved)

Uvarint with its overflow rules; induction on the encoder. Specification `leb`: sum of 7 bit digits.

*Result.* All uint64 values followed by any bytes; also stated against an independent base-128 specification (leb) and as unique decodability.

*Theorems.* `PCodec.v`: C02_varint_round_trip, C02_varint_self_delimiting

### C03 FileMeta round trip (proved)

Byte exact marshal and unmarshal; round trip from the little endian lemmas.

*Result.* All versions/formats/offsets/counts the struct can hold; short buffers and unknown formats give errors; decoding is total.

*Theorems.* `PCodec.v`: C03_file_meta_round_trip, C03_short_buffers_are_rejected, C03_unknown_formats_are_rejected, C03_total

### C04 IndexMeta round trip (partial)

Byte exact, with the uint16 arithmetic of the slice bounds.

*Result.* Proved for names up to 65529 bytes; longer names wrap the uint16 bound and make UnmarshalBinary panic (C04_refuted_long_names, proved for every such name).

*Theorems.* `PCodec.v`: C04_index_meta_round_trip_partial, C04_refuted_long_names, C04_short_buffer_panics

### C05 The browser client decodes varints the indexer wrote (partial)

JavaScript's 32 bit shift and or on the doubles; compared with the Go encoder.

*Result.* Holds below 2^31; false for every value from 2^31 on (32-bit shifts). The byte count is right for all values.

*Theorems.* `PCodec.v`: C05_client_varints_partial, C05_client_varint_count, C05_refuted_from_2_31

### C06 The browser client decodes file and index metadata the indexer wrote (partial)

readFileMeta/readIndexMeta on the bytes of the Go marshaller.

*Result.* Holds while entry count / total length are below 2^31; a larger count is misread.

*Theorems.* `PCodec.v`: C06_client_file_meta_partial, C06_client_index_meta_partial, C06_refuted_large_counts

### C07 Key comparison is a total order (proved)

Comparison on (bytes, offset, length); order laws by induction on the byte strings.

*Result.* For all byte strings and pointers; the TypeScript comparison is modelled separately and proved equal.

*Theorems.* `PCodec.v`: C07_comparison_is_lexicographic, C07_total_order, C07_client_orders_identically

### C08 Binary search returns the lower bound (proved)

Loop invariant of the binary search.

*Result.* slices.BinarySearchFunc and the TypeScript loop, every sorted list; lower bound stated by counting.

*Theorems.* `PCodec.v`: C08_binary_search, C08_client_search_agrees

### C09 Numeric index keys sort like the numbers (partial)

IEEE-754 decoding to an integer scaled by 2^1074; big endian bytes compare like the bit patterns.

*Result.* Proved for non-negative numbers; for negatives the order is reversed (and all negatives sort above all non-negatives): proved for all pairs.

*Theorems.* `PCodec.v`: C09_keys_sort_like_numbers_partial, C09_refuted_negative_numbers

### C10 B+ tree node round trip inside a page (proved)

Sizes and decoding loops by induction over the keys.

*Result.* Every node satisfying the size bounds of the format, any bytes after it, both key modes (stored keys / keys re-read from the data file).

*Theorems.* `PCodec.v`: C10_node_round_trip, C10_encoding_injective

### C11 Storage read-after-write and framing (proved)

(bytes, position) machines for both storages; `overwritten` is the byte wise specification.

*Result.* Both storages (memory map and SeekableBuffer), every offset within the file, every buffer.

*Theorems.* `PStore.v`: C11_write_effect, C11_read_after_write, C11_storages_agree

### C12 Memory mapped Write reports the bytes written (partial)

The code's shadowed variable is in the model of Write.

*Result.* Holds for SeekableBuffer, first writes and in-place writes; false for every growing write to a non-empty memory map (shadowed n): wrong count and a hole before the next write.

*Theorems.* `PStore.v`: C12_write_count_partial, C12_refuted_growing_write, C12_refuted_hole

### C13 NewPage hands out a fresh aligned page and touches nothing else (proved)

Byte file with the ring of 512 offsets in page 0; invariant pf_inv relates it to a queue.

*Result.* For every history of NewPage/FreePage (reach), including reopening.

*Theorems.* `PPage.v`: C13_new_page, C13_oversized_buffer_refused, C13_pages_keep_their_content

### C14 Live pages are never handed out twice (proved)

Induction over histories of events.

*Result.* For every history; also as a statement on the trace of events.

*Theorems.* `PPage.v`: C14_live_pages_are_not_handed_out, C14_reuse_only_after_free

### C15 The free list is FIFO and survives reopening (proved)

Queue refinement; reopening re-reads the ring.

*Result.* Ring buffer refines a FIFO queue; reopening reproduces the same queue.

*Theorems.* `PPage.v`: C15_free_list_is_fifo, C15_free_list_survives_reopening

### C16 Freeing and allocating pages never panics (partial)

As C14; the refutation builds the history that reaches the end of the ring.

*Result.* NewPage never panics; FreePage succeeds while the ring has not reached its end (ring_use < 512); at the end of the ring it panics on a live page: constructed history with 511 pages in the free list.

*Theorems.* `PPage.v`: C16_no_panic_partial, C16_refused_free_changes_nothing, C16_free_page_panics_refuted, C16_never_panics_refuted

### C17 PageCount tells the number of pages in the file (partial)

Counting new pages; the slot page is written behind the page file's back.

*Result.* Holds for page file histories; a fresh index file (linked meta page written past the page file) has 2 pages and PageCount 1.

*Theorems.* `PPage.v`: C17_page_count_partial, C17_page_count_refuted

### C18 Index slot metadata round trip (partial)

Slots as bytes of a page; slice lemmas.

*Result.* Up to 254 bytes; exactly 255 bytes are accepted and then panic on reading (all histories); longer ones are refused.

*Theorems.* `PSlots.v`: C18_metadata_round_trip_partial, C18_too_long_refused, C18_metadata_round_trip_refuted

### C19 Index slots are isolated from each other (partial)

Frame lemmas on slices of the slot page.

*Result.* All histories whose metadata stay within 252 bytes; at 253 bytes the last byte overwrites the low byte of the next slot's root (for every history and byte).

*Theorems.* `PSlots.v`: C19_slots_hold_partial, C19_isolation_refuted

### C20 The slot list behaves like an append-only list (proved)

Chain of meta pages as an invariant, AddNext appends to the abstract list.

*Result.* For every history of AddNext/SetRoot/SetMetadata.

*Theorems.* `PSlots.v`: C20_collect, C20_add_at_tail, C20_add_elsewhere, C20_histories_exist

### C21 The browser client sees the same slots (partial)

TypeScript reader on the same bytes.

*Result.* TypeScript walk, roots and metadata on the same bytes; only the 255 byte metadata differ (Go panics, TypeScript reads).

*Theorems.* `PSlots.v`: C21_same_slots_and_roots, C21_same_metadata, C21_same_metadata_any, C21_metadata_255_refuted

### C22 Opening is idempotent and refuses foreign files (proved)

Invariant `cells`: page file + slots + one tree per slot, all disjoint.

*Result.* ifile: any file produced by a history of the index file operations (inductive definition with C13-C20's invariants).

*Theorems.* `PIndex.v`: C22_create, C22_reopen, C22_foreign_refused, C22_metadata, C22_set_metadata

### C23 FindOrCreateIndex finds what it created (partial)

Scan of the slot list.

*Result.* Names up to 245 bytes. Refuted for every index file for names of 248 bytes: created, and then FindOrCreateIndex panics for it and for every new name. For 246 and 247 bytes see C40 (PNames.v); from 249 bytes C24.

*Theorems.* `PIndex.v`: C23_existing_is_found, C23_new_is_created_partial, C23_found_exists, C23_unique; `PNames.v`: C23_longest_name_refuted

### C24 A rejected index name leaves the index file usable (partial)

The slot is added before the metadata are refused.

*Result.* False for every file and every name above 248 bytes: all later creations fail. Existing indexes are still found.

*Theorems.* `PIndex.v`: C24_bad_name_bricks_the_file_refuted, C24_existing_indexes_still_found_partial

### C25 IsEmpty tells whether there are no indexes (partial)

IsEmpty reads the slot list.

*Result.* False: proved that IsEmpty is true exactly when there IS an index, for every file.

*Theorems.* `PIndex.v`: C25_is_empty_refuted

### C26 IndexFieldNames lists each field once, in order of first appearance (proved)

Scan; specification `first_appearances`.

*Result.* Every file history.

*Theorems.* `PIndex.v`: C26_field_names, C26_first_appearances_spec

### C27 An inserted key can be found (proved)

Insert refines insertion into a sorted list; Find is the first Next.

*Result.* Every history of inserts into any tree satisfying the invariant, keys up to 2016 bytes, files below 2^60 bytes.

*Theorems.* `PTree.v`: C27_inserted_keys_are_found, C27_find_after_insert

### C28 The tree is a sorted map (proved)

Representation predicate repr/ctx (zipper), split lemmas with byte sizes, induction over the path and over histories.

*Result.* History of inserts refines a map (map_run); the walk lists it in ascending order.

*Theorems.* `PTree.v`: C28_tree_is_a_sorted_map

### C29 Backward iteration is exact (proved)

Zipper walk to the left.

*Result.* Every tree and key.

*Theorems.* `PTree.v`: C29_backward_iteration_is_exact

### C30 Forward iteration and Find start at the first key not below the target (partial)

Zipper walk to the right.

*Result.* Exact when the key is present or not above all keys; for other keys the first Next may report the end, and only the second call starts the walk (both cases characterised); C30_refuted is a run of the program.

*Theorems.* `PTree.v`: C30_forward_iteration_partial, C30_forward_iteration_any_key_partial; `PTreeEx.v`: C30_refuted

### C31 Contains answers membership of a value (partial)

From C30 and the comparison of Contains.

*Result.* What Contains answers for any key; false on the empty tree and for a value whose first key is in the next leaf.

*Theorems.* `PTree.v`: C31_contains_partial; `PTreeEx.v`: C31_refuted_empty, C31_refuted_fall_off

### C32 Duplicate keys are refused without effect (proved)

Descent reaches the leaf of the key.

*Result.* Every tree; the whole state is unchanged.

*Theorems.* `PTree.v`: C32_duplicates_are_refused

### C33 Insert never overflows a page, panics or fails on a key of the index's width (partial)

Size bounds of both halves of a split, for leaves and inner nodes.

*Result.* Keys with an encoded size up to 2016 bytes (all key types but long inline keys); C33_refuted_wide_keys: 3 inserts of keys near the page size panic.

*Theorems.* `PIndex.v`: C33_insert_into_an_index_of_a_file; `PTree.v`: C33_insert_never_fails_partial; `PTreeEx.v`: C33_refuted_wide_keys

### C34 Keys of the wrong width are refused without effect (partial)

The uint16 width check.

*Result.* All keys shorter than 65536 bytes; a key of length width-1+65536 passes the uint16 check and panics.

*Theorems.* `PTree.v`: C34_wrong_width_refused_partial; `PTreeEx.v`: C34_refuted

### C35 Indexes in one file are independent (proved)

Frame: Insert writes only to pages of its tree, free pages and its slot.

*Result.* Every file with any number of indexes.

*Theorems.* `PIndex.v`: C35_indexes_read_as_their_history, C35_insert_touches_one_index, C35_every_index_is_a_tree

### C36 An interrupted Insert loses no committed key (partial)

Insert under a write budget; every prefix of its writes; reopening. The new page of a split is unreachable until the parent is written, the left half already cut.

*Result.* Crash after any number of physical writes. The index stays readable and loses at most one contiguous run of keys, and nothing without a split; with a split there is always a crash point that loses a committed key (proved for every splitting insert). Other indexes lose nothing.

*Theorems.* `PCrash.v`: C36_crash_leaves_an_index_partial, C36_nothing_lost_without_a_split_partial, C36_a_split_can_lose_keys_refuted, C36_other_indexes_keep_everything_partial, C36_refuted

### C37 Synchronize consumes exactly the complete lines (proved)

Loop of Synchronize over lines, on arbitrary bytes.

*Result.* Every data file; jparse/unquote/number parsing are parameters of the model.

*Theorems.* `PJsonl.v`: C37_consumes_complete_lines, C37_read_offset_and_entries; `PJsonlEx.v`: C37_example

### C38 Re-synchronizing without new lines changes nothing (proved)

As C37.

*Result.* Every file; identical bytes afterwards.

*Theorems.* `PJsonl.v`: C38_no_new_line, C38_synchronize_again

### C39 Incremental indexing equals batch indexing (proved)

Synchronize as a fold over lines; invariant of a life: index file = fold of all lines so far.

*Result.* Every way of cutting the file into synchronizations.

*Theorems.* `PJsonl.v`: C39_incremental_equals_batch; `PJsonlEx.v`: C39_example

### C40 Every field of every record is indexed, and nothing else (partial)

encoding/json's tokenizer on well formed documents yields the field occurrences (specification `occs`).

*Result.* Every sequence of legal lines within the limits of fits: names of at most 236 bytes, no white space between the key of a string and its colon, searched fields are strings whose n-grams lie within the range of the value (C81_limits_partial says when). Ordinary and n-gram indexes alike. Refuted beyond: a name of 247 bytes loses a line silently, one of 246 (or 245 with a total from 128) makes Synchronize panic on the second line (concrete, PNames.v).

*Theorems.* `PJsonl.v`: C40_every_field_and_nothing_else_partial, C40_parse_gives_the_key; `PNames.v`: C40_long_name_loses_a_line_refuted, C40_long_name_panics_refuted

### C41 Synchronize can be retried after an error (partial)

Runs and the general shape of a failing Synchronize.

*Result.* A bad first new line can be retried; after good lines preceding a bad one, the retry fails with 'key already exists' (run of the program). Metadata are kept.

*Theorems.* `PJsonl.v`: C41_failure_keeps_metadata_partial, C41_retry_partial; `PJsonlEx.v`: C41_retry_refuted

### C42 String keys can be re-read from the data file (partial)

Where the value's text starts according to the handler, versus the text.

*Result.* Holds when no white space stands between a name and its colon; otherwise the stored range starts at the colon and parses to the empty value (for every such text).

*Theorems.* `PJsonl.v`: C42_string_keys_reparse_partial, C42_space_before_colon_refuted; `PJsonlEx.v`: C42_refuted

### C43 CSV rows are aligned with their header across synchronizations (partial)

encoding/csv on rows; specification csv_occs by columns.

*Result.* Files whose first synchronization contains the header and at least one full row, distinct names; the three exceptions are refuted by runs.

*Theorems.* `PCsv.v`: C43_rows_under_header_names_partial, C43_every_cell_is_listed; `PCsvEx.v`: C43_example, C43_example_two_steps, C43_header_alone_refuted, C43_same_names_refuted, C43_short_first_row_refuted

### C44 CSV field ranges point at the field (partial)

As C43.

*Result.* Rows without quotes; a quoted cell gets the range of another part.

*Theorems.* `PCsv.v`: C44_ranges_hold_the_text_partial; `PCsvEx.v`: C44_quoted_refuted

### C45 N-gram tokens have the index width (proved)

Tokenizer on a list of (rune, width); specification: all windows of the ASCII words.

*Result.* Every normalised text (norm.NFKD's result is a parameter).

*Theorems.* `PNgram.v`: C45_tokens_are_ngrams, C45_words, C45_offsets, C45_tokens_have_the_index_width

### C46 The search client tokenizes as the indexer does (partial)

TypeScript tokenizer on UTF-16/code points; compared on ASCII.

*Result.* ASCII texts; refuted for accented letters and for surrogate pairs.

*Theorems.* `PNgram.v`: C46_same_tokens_partial, C46_same_tokens_refuted, C46_accents_refuted

### C47 Shuffling keeps the tokens (proved)

Swaps are permutations.

*Result.* Every sequence of random choices.

*Theorems.* `PNgram.v`: C47_shuffle_permutes

### C48 Range queries return exactly the matching records (partial)

TypeScript iteration on the same tree representation; query as consumer of n results.

*Result.* Characterisation of what each operator returns in each direction; correct: descending < and <=, ascending </<= on multi-page trees, >,>=,== under the stated conditions; refuted otherwise (one page ascending < raises an error, a key at the start of a leaf is missed by == and >=, descending >/>=).

*Theorems.* `PQuery.v`: C48_descending_lt_le_partial, C48_ascending_lt_le_partial, C48_ascending_gt_ge_eq_partial, C48_one_page_gt_ge_eq_partial, C48_eq_direction, C48_descending_gt_ge_refuted, C48_eq_ge_refuted; `PQueryEx.v`: C48_hypotheses_met, C48_one_page_lt_le_refuted

### C49 limit bounds the number of results (partial)

From C48.

*Result.* False: the limit is never applied (for every query with <= descending).

*Theorems.* `PQuery.v`: C49_limit_refuted

### C50 Query building does not mutate (proved)

Heap of arrays with explicit aliasing.

*Result.* Builders live in a heap of arrays; aliasing is modelled.

*Theorems.* `PClient.v`: C50_where_adds_a_clause, C50_order_adds_a_clause, C50_select_sets_the_fields, C50_limit_sets_the_limit, C50_new_builder_is_empty

### C51 Search validation accepts exactly the usable configurations (partial)

JavaScript comparisons with NaN.

*Result.* All numbers but NaN; NaN passes.

*Theorems.* `PClient.v`: C51_validation_partial, C51_validation_refuted

### C52 The range cache returns the requested bytes (partial)

Cache as a list of (range, bytes); simulation by induction over requests.

*Result.* Behaviour of the cache fully characterised; a repeated range comes back one byte short (every file and range).

*Theorems.* `PClient.v`: C52_cache_behaviour, C52_cache_partial, C52_cache_refuted

### C53 Multipart parsing is independent of chunking (partial)

Parser over a ring of chunks; simulation with the parser over the concatenation.

*Result.* Every chunking gives the same result (any bytes at all); well-formed bodies with token boundaries and simple headers come back exactly, a repeated header with its last value where it first came; seven refutations for legal bodies the parser rejects or cuts.

*Theorems.* `PMultipart.v`: C53_chunking_does_not_matter, C53_sent_parts_come_back_partial, C53_parts_come_back_partial, C53_truncated_body_never_ends, C53_the_fuel_suffices, C53_proto_header_refuted, C53_header_values_are_cut_refuted, C53_lower_case_names_refuted, C53_quoted_boundary_refuted, C53_boundary_with_equals_refuted, C53_leading_line_end_refuted, C53_padding_refuted

### C54 TypescriptType names the field type (partial)

Enumeration.

*Result.* False for every field type: the names are those of another enumeration.

*Theorems.* `PClient.v`: C54_typescript_type_refuted

### C55 Index widths match the keys the handlers insert (proved)

Case analysis of handleValue's model against determine_type.

*Result.* JSONL handler, every value.

*Theorems.* `PWidth.v`: C55_keys_fit_the_index_width, C55_index_has_the_declared_width

### C56 The distance heap pops extremes (proved)

Min-max heap invariant by levels; sift up and down.

*Result.* Every history of inserts of new ids and pops of either end.

*Theorems.* `PHeap.v`: C56_pop_min, C56_pop_max, C56_drain

### C57 Re-inserting an id updates its distance (partial)

Run.

*Result.* Contents are right; the heap order is not restored (run).

*Theorems.* `PHeap.v`: C57_reinsert_contents_partial, C57_reinsert_refuted

### C58 Stored vectors read back unchanged (partial)

pkg/btree byte exact; the tree is related to a B+ tree with the same ids, so the structural lemmas are reused; each stored vector is an iterate of the conversion applied to the inserted one. The conversion is monotone, hence has only fixed points as cycles.

*Result.* Find returns the vector with every coordinate converted k>=1 times by float32(uint32(bits)); it is the inserted vector exactly if all coordinates have bits 0 or 1318926965. Dimensions 1..501.

*Theorems.* `PVTree.v`: C58_vectors_read_back_partial; `PVTreeEx.v`: C58_refuted

### C59 The vector tree accepts every vector that fits a page (partial)

As C58, with the sizes of halves of vector nodes.

*Result.* Dimensions 1..501: every Insert answers as specified, never panics. With dimension 600 the third insert panics; a vector of another length panics. Dimensions 502..1017 in general are not characterised.

*Theorems.* `PVTree.v`: C59_vector_inserts_partial; `PVTreeEx.v`: C59_refuted, C59_wrong_dimension_panics

### C60 Friend lists stay within M (partial)

Graph invariant over insertions at level 0.

*Result.* Holds when every point is drawn at level 0; refuted for M=2 with points on levels 0 and 1, which are drawn (C93_levels_of_C60_C64).

*Theorems.* `PHnsw.v`: C60_friends_within_M_partial, C60_friends_within_M_refuted

### C61 KnnSearch returns at most k distinct known points (proved)

Search loop with visited set; termination by the number of unvisited points.

*Result.* Every graph built by InsertVector, every level sequence, any totally ordered exact distance type (integers).

*Theorems.* `PHnsw.v`: C61_knn_search, C61_insert_vector, C61_friends_are_points

### C62 CSV index pages match their declared width (partial)

The CSV handler's tree width against the metadata.

*Result.* Text indexes; number indexes are written with width 0 while their metadata say 9.

*Theorems.* `PCsv.v`: C62_text_indexes_have_the_declared_width_partial; `PCsvEx.v`: C62_declared_width_refuted

### C63 The browser client decodes tree nodes the indexer wrote (partial)

TypeScript unmarshalBinary on the Go encoder's bytes.

*Result.* Offsets and lengths below 2^31 (C05).

*Theorems.* `PCodec.v`: C63_client_reads_nodes_partial, C63_refuted_large_offsets

### C64 A point is never its own friend (partial)

As C60.

*Result.* Level 0 only; refuted otherwise, for M=2 and drawn levels.

*Theorems.* `PHnsw.v`: C64_no_self_friend_partial, C64_no_self_friend_refuted

### C65 Flush writes the closest friends, their levels and their number (partial)

Invariant over graph histories: every friend has a recorded level; Flush as repeated extract-min.

*Result.* Flush never fails in any graph; length, ids, order and padding are proved for every graph and n. The recorded level is one of the point's levels but need not be the highest (C65_level_refuted: InsertFriendsAtLevel on a lower level overwrites it), and the zero padding equals a record of point 0 on level 0 (C65_padding_refuted).

*Theorems.* `PVector.v`: C65_flush_partial, C65_level_refuted, C65_padding_refuted

### C66 CSV synchronization counts its rows (partial)

CSV life invariant.

*Result.* False: entries stay 0 for every CSV file.

*Theorems.* `PCsv.v`: C66_entries_stay_zero; `PCsvEx.v`: C66_entries_refuted

### C67 Numbers in queries are compared as numbers (partial)

Number of a bit pattern as in C09; comparison by `satisfies`.

*Result.* Non-negative numbers; negatives and -0 refuted.

*Theorems.* `PFloat.v`: C67_nonnegative_partial, C67_negative_refuted, C67_zeros_refuted, C67_query_partial, C67_query_refuted

### C68 Several where clauses are a conjunction (partial)

From C48.

*Result.* Clauses on two fields are refused; on one field the result is the concatenation of the answers, not the conjunction.

*Theorems.* `PQuery.v`: C68_two_fields_refused, C68_clauses_on_one_field_refuted

### C69 Queries on fields or types that are not indexed are refused (proved)

Header scan of the TypeScript reader.

*Result.* Every file and query.

*Theorems.* `PQuery.v`: C69_unknown_field, C69_unindexed_type

### C70 A query on a synchronized JSONL file returns exactly the matching lines (partial)

C40 composed with C48 and the data file reader.

*Result.* End to end: JSONL text -> Synchronize -> browser query, for descending < and <=, for ascending < and <= on any index, for all four on an index of one page; descending > and >= on an index of several pages is refuted in general and on 4097..5000 concrete lines.

*Theorems.* `PJsonlQuery.v`: C70_lines_below_partial, C70_lines_above_partial, C70_one_page_partial, C70_ascending_below_partial, C70_descending_above_refuted; `PJsonlSizeEx.v`: C70_many_lines_example, C70_one_page_example; `PQueryEx.v`: C70_example

### C71 No page of an index file is lost (proved)

Count of pages in the invariant of C22/C35.

*Result.* Every file history.

*Theorems.* `PSpace.v`: C71_every_page_has_a_use, C71_space_bound

### C72 First and Last are the ends of the index (partial)

Edge walk of the tree; height from the stored size.

*Result.* Trees of more than one page (decided by the stored size); on a one-page tree first() and last() panic.

*Theorems.* `PEdge.v`: C72_first_last_partial, C72_example, C72_one_page_refuted

### C73 A search returns exactly the records containing an n-gram of the text, each once (partial)

Search = iteration over all tokens; from QTree's walk lemmas.

*Result.* Results are sound; complete on one-page indexes; refuted otherwise (misses, duplicates, empty index raises).

*Theorems.* `PSearch.v`: C73_results_contain_an_ngram_partial, C73_one_page_partial, C73_all_or_none_partial, C73_misses_refuted, C73_hypotheses_met, C73_each_record_once_refuted, C73_empty_index_refuted; `PSearchEx.v`: C73_misses_hypotheses_met

### C74 The score counts how often each n-gram occurs in a record (partial)

Table model of priority table.

*Result.* The frequency computed is characterised; it is not the number of occurrences.

*Theorems.* `PSearch.v`: C74_frequency_refuted, C74_what_is_computed_partial

### C75 A range request returns the requested bytes and the length of the file (partial)

requestRanges over an abstract server.

*Result.* Against any server that satisfies the specification of range requests; totals are 0 in multipart mode and the integrity check is skipped there. Servers that refuse multipart but serve single ranges, and servers without ranges, have theorems of their own.

*Theorems.* `PRange.v`: C75_requested_bytes_partial, C75_total_length_partial, C75_total_length_refuted, C75_integrity_check_refuted, C75_one_byte_range_refuted, C75_error_page_refuted, C75_data_file_get, C75_witness, C75_server_without_multipart, C75_server_without_multipart_witness, C75_server_without_ranges

### C76 fields() lists the indexed fields (partial)

collectIndexMetas as a fold over the metas read through TsFile's index invariant; induction over the list of indexes.

*Result.* Every index file with at least one index; without one, fields() throws (failed to fetch meta pages).

*Theorems.* `PValidate.v`: C76_fields_partial, C76_no_fields_refuted

### C77 Query validation accepts exactly the usable queries (partial)

Functional model of the validators over query objects with absent, non-array and array properties; equivalence with an independent predicate.

*Result.* The acceptance condition is characterised exactly, with an independent specification of the accepted spellings; each clause of an accepted query finds its header and index; an accepted two-field where is refused by query().

*Theorems.* `PValidate.v`: C77_accepted_iff, C77_accepted_finds_index_partial, C77_accepted_two_fields_refuted

### C78 select yields exactly the selected fields (partial)

Recursive-descent JSON.parse on all documents of JsonDoc's grammar, objects as property lists; composed with C70.

*Result.* JSON.parse and handleSelect over all JSON documents; names inside nested objects select nothing, names of Object.prototype select inherited values; end to end for descending < and <= (C70).

*Theorems.* `PSelect.v`: C78_no_select, C78_select_partial, C78_nested_refuted, C78_inherited_refuted, C78_query_select_partial

### C79 Queries over CSV data yield rows (partial)

JSON.parse stops at the comma after the first cell; composed with C48.

*Result.* Refuted: each row goes through JSON.parse, so every query that finds a row of at least two cells (the first without quotes or brackets) throws SyntaxError.

*Theorems.* `PSelect.v`: C79_row_refuted, C79_csv_query_refuted

### C80 AddNode stores every point in graph, vector tree and neighbour tree (partial)

Product of the graph, vector tree and b+ tree invariants over AddNode histories; witnesses by computation.

*Result.* For every history: graph and vector tree always get the point, the list tree holds exactly the lists, and the answer is an error exactly if the list was stored before (C80_add_node_partial, C80_histories_partial). The full claim is false: a second point with the same neighbour list is refused after graph and vector tree were changed (C80_same_neighbours_refuted), and the entry point is never stored (C80_entry_point_refuted, all histories). Vectors come back changed as in C58. The two trees are in separate page files.

*Theorems.* `PManager.v`: C80_add_node_partial, C80_histories_partial, C80_same_neighbours_refuted, C80_entry_point_refuted

### C81 Searching a synchronized file finds the lines that share n-grams with the text (partial)

C40 with the n-gram postings, C45 (offsets distinct and within the normalised text), C46 (tokens of the client) and C73 composed; n-grams of a field counted as in the specification gram_words.

*Result.* Data file to search result, for ASCII search texts: every result is a line whose field shares an n-gram with the text; with one-page indexes exactly these lines, once per n-gram and place; otherwise per n-gram all of them or none (C73_misses_refuted: none does happen). Missing: non-ASCII search texts (C46 refuted), each line once (C73_each_record_once_refuted).

*Theorems.* `PJsonlSearch.v`: C81_one_page_partial, C81_all_or_none_partial, C81_results_share_an_ngram_partial, C81_limits_partial; `PJsonlSearchEx.v`: C81_example

### C82 Search headers do not disturb indexing (partial)

C40 for the two header lists; postings to ordinary indexes do not depend on the headers. Counterexamples by running the model.

*Result.* Within the limits the ordinary indexes and the metadata are the same with and without search headers. The full claim is false: a null in a searched field makes Synchronize fail (C82_null_refuted), and so do two texts of one length when NFKD lengthens the first (C82_collision_refuted).

*Theorems.* `PJsonlSearch.v`: C82_ordinary_indexes_partial; `PJsonlSearchEx.v`: C82_null_refuted, C82_collision_refuted

### C83 A crash during Synchronize can be repaired by the next one (partial)

every program of the handler writes a fixed sequence of files when it is not interrupted, and dies with the last one written when it is (SyncCrash.v); the crash just before the final metadata write leaves all entries of the new lines in the trees, and every later Synchronize starts at the old offset, meets the first of them and stops (JsonlBlock.v, sync_stops; an invariant of all continuations). For FindOrCreateIndex: the crash between adding the slot and writing its metadata leaves a slot no unmarshalling accepts. What holds: an invariant of the file left at every write of the handler (Death.v, JsonlDeath.v: the slots can be walked, each has no metadata or those of an index, and its B+ tree holds a subset of what the finished run would put there), by induction over the programs of the handler.

*Result.* Without a new complete line any crash leaves the index file byte for byte (C83_crash_without_a_new_line_partial). The full claim is false for every history with a new scalar field: C83_a_crash_can_block_indexing_refuted gives a death after which every Synchronize, whatever is appended or reopened, fails with key already exists and the recorded position never moves; C83_crash_while_creating_an_index_refuted gives a death after which no further index can be created at all. Proved for every death at every write: the file left can be opened and records the position of before (C83_crash_keeps_the_position_partial), and every index found in it lists in order only entries the lines give it (C83_crash_adds_nothing_wrong_partial; entries of before may be missing: C36).

*Theorems.* `PDeath.v`: C83_crash_keeps_the_position_partial, C83_crash_adds_nothing_wrong_partial; `PSyncCrash.v`: C83_a_crash_can_block_indexing_refuted, C83_crash_without_a_new_line_partial, C83_crash_while_creating_an_index_refuted; `PSyncCrashEx.v`: C83_example, C83_witness, C83_create_example, C83_position_example, C83_entries_example, C83_entries_witness

### C84 Both storages behave like a file (partial)

a relational specification of a file (posix: content and overwritten, byte by byte) and induction over the operation sequence for both storages; the differences beyond the end, after Truncate and for short ReadAt are proved for all contents.

*Result.* Proved for all histories of positioned reads and writes within the file (Seek from the start before each Read and Write, as every caller in the repository does), with Bytes() and, for the buffer, Truncate among them. The full claim is false: the buffer's ReadAt is short without an error, WriteAt, ReadAt and Seek beyond the end differ between the storages (one refuses, the other extends or panics), and Truncate leaves a position from which Write panics. The counts reported by growing writes are C12.

*Theorems.* `PStorage.v`: C84_write_at, C84_read_at, C84_storages_are_files_partial, C84_short_read_at_refuted, C84_write_at_beyond_the_end_refuted, C84_read_at_beyond_the_end_refuted, C84_seek_beyond_the_end_refuted, C84_seek, C84_truncate, C84_write_after_truncate_refuted

### C85 The index file stays within a fixed factor of the data file, so no size limit on the index file has to be assumed (proved)

a potential: each index and each entry costs at most a fixed number of pages (new pages are only taken by splits, PSpace.v), each entry consumes bytes of its line, so the pages number at most 3+6n (PJsonlSize.v). The runs of JsonlRun.v carry the potential instead of the file size.

*Result.* End to end from text to file size: no hypothesis on the index file, only on the data file (below 2^44 bytes, inside the limits of C37).

*Theorems.* `PJsonlSize.v`: C85_index_file_size, C85_every_history_is_a_life, C85_contents; `PJsonlSizeEx.v`: C85_example

### C86 The index file of a CSV file stays within a fixed factor of the data file (proved)

as C85 with the CSV runs: each cell adds at most one index and one entry, each cell takes at least one byte with its separator (PCsvSize.v).

*Result.* End to end from CSV text to file size, no hypothesis on the index file; histories that synchronize with the header as the only complete line are excluded (that case is the bug C43_header_alone_refuted). Contents: as C43 and C66.

*Theorems.* `PCsvSize.v`: C86_index_file_size, C86_every_history_is_a_life, C86_contents, C86_example

### C87 Browser queries on a text column of a CSV file find exactly the matching rows (partial)

a tree written with one conversion of key texts is also a tree for another conversion that gives the same keys for its entries, since separators are keys of entries (QTree.v, repr_recode); so the lemmas of C48 hold for a browser with a conversion of its own (PQuery.v, section Any); cells and entries are related one by one (PCsvQuery.v, stands).

*Result.* End to end for CSV with the two different key conversions: descending < and <= on any index; ascending > >= and == on an index of one page, and on larger ones exactly or nothing; ascending < and <= on more than one page. Refuted: descending > and >= on more than one page, handing rows of two cells to the caller (JSON.parse), number columns (concrete).

*Theorems.* `PCsvQuery.v`: C87_rows_below_partial, C87_rows_above_partial, C87_one_page_partial, C87_ascending_below_partial, C87_descending_above_refuted, C87_query_raises_refuted, C87_example, C87_number_column_refuted

### C88 Runs of the command with different search headers (partial)

the command is modelled in Cmd.v; runs carry, instead of the lines, the list of postings with the headers of each run; the invariant of PJsonl.v is restated over postings (PRuns.v), and postings to ordinary indexes are shown not to depend on the headers.

*Result.* All parts proved for all histories of runs (limits of C40 for the new lines of each run, index file below 2^60). Refuted: naming a field in -s later makes earlier lines searchable; for every history, there is no n-gram index of a field no earlier run named unless a new line has it.

*Theorems.* `PRuns.v`: C88_every_run_succeeds, C88_contents, C88_nothing_new, C88_wrong_handler, C88_later_headers_refuted

### C89 A browser session that stays open while the file grows (partial)

the session keeps the page at 4096 as it was (Session.v: file f0 for slots of that page, file f for everything else); page sets of indexes only grow (Cells.v, grown), and every page of a B+ tree is the root of a run of its entries (repr_sub); insert_root follows the loop of Insert to see when the root moves and what the old root page then holds; a chain of inserts in which the root moves exists, since 4097 entries do not fit in one page (PSession.v).

*Result.* Positive parts proved for every later history. Refuted: C89_session_refuted (the full statement), C89_records_vanish_refuted (every insert that moves the root of one of the first 14 indexes hides at least one old record from the open session), C89_new_field_refuted (a new field is reported as missing, whatever the file has become). Not modelled: the resolver cache and the browser's HTTP cache, which only make it worse.

*Theorems.* `PSession.v`: C89_root_in_place_partial, C89_session_sees_a_run_partial, C89_new_field_refuted, C89_records_vanish_refuted, C89_hypotheses_met, C89_session_refuted

### C90 Queries while the indexer is at work (partial)

what is in the file at an instant of Synchronize is what a Synchronize killed there leaves (SyncCrash.v), so Death.v describes it: a chain of slots, each one nameless and empty or naming an index whose tree holds only entries the lines give; the readers of TsFile.v are run on that, and the loops of the query (Query.v, QTree.v) from whatever key first()/last() gives: the records are some of the entries, all satisfying the comparison, in order

*Result.* Positive parts: C90_answers_are_right_partial (every comparison but descending >) and C90_descending_gt_partial (descending > returns what >= does). Missing: the full statement, refuted by C90_blind_instant_refuted (a line found before and after is not found in between, and every query fails). A write of the indexer is taken to be atomic and one query to see one instant: a query whose requests fall on both sides of a write is not covered. The data file is the one being indexed.

*Theorems.* `PSnapshot.v`: C90_answers_are_right_partial, C90_descending_gt_partial; `PSnapshotEx.v`: C90_blind_instant_refuted, C90_example

### C91 Death of the process while a CSV file is synchronized (partial)

the writes of csv.go are followed with the lemmas of Death.v, which hold for any widths and parser (CsvDeath.v: one cell, one row, all rows, the metadata); what is left is described as for C83; the two refutations run the model on files of one and two columns

*Result.* Positive parts: C91_crash_keeps_the_position_partial and C91_crash_adds_nothing_wrong_partial (the trees are walked with width 0, as the handler writes them). Missing: the recovery, refuted by C91_header_becomes_a_record_refuted (one column: the next Synchronize succeeds and has the header among the records) and C91_header_is_cut_short_refuted (two columns: every later Synchronize fails). Limits: cfits (no quoting, rows not longer than the header, the first as long) and that no earlier Synchronize saw the header alone.

*Theorems.* `PCsvDeath.v`: C91_crash_keeps_the_position_partial, C91_crash_adds_nothing_wrong_partial, C91_position_example, C91_entries_example, C91_header_becomes_a_record_refuted, C91_header_is_cut_short_refuted

### C92 Strings mean the same to the indexer and to the browser (partial)

JsString.v: unquoteBytes, the UTF-8 decoders, JSON.parse's string reader and TextEncoder as functions; a string is a list of characters (itself, an escape, \\u), and both sides are shown to give its code points by induction over that list; decoding the whole text and then cutting it is cutting and then decoding (js_decode_cut); a UTF-8 file cut at ASCII characters is UTF-8; then the generalised query theorems of PQuery.v (section Any), whose condition on the keys is discharged by C92_keys_agree (PParse.v).

*Result.* C92_strings_mean_the_same, C92_keys_agree and C92_cells_unchanged are complete for UTF-8 text; C92_lines_below, C92_lines_above_partial and C92_one_page repeat C70 with the browser's own parseValue in place of the indexer's Parse. Refuted for text that is not UTF-8: C92_ill_formed_strings_refuted, C92_ill_formed_query_refuted. The libraries (unquoteBytes of encoding/json, TextDecoder, JSON.parse, TextEncoder) are models of their documented behaviour; ParseFloat and JSON.parse are assumed to give the same float64 (same_float).

*Theorems.* `PParse.v`: C92_strings_mean_the_same, C92_keys_agree, C92_cells_unchanged, C92_lines_below, C92_lines_above_partial, C92_one_page; `PParseEx.v`: C92_example, C92_query_example, C92_ill_formed_strings_refuted, C92_ill_formed_query_refuted

### C93 Levels are drawn geometrically (partial)

-ln(u)/ln(M) over the standard library's real numbers; its integer part is characterised by powers of M, the draws are counted by induction, and insertions with drawn levels join the histories of C61.

*Result.* Proved for M of at least 2 and every draw but 0, with the logarithms, quotient and product of real numbers instead of floats (a draw at the very edge of a level may be rounded to the next one). False in full: the draw 0 (one in 2^53), and with M=1 every draw, makes the level infinite and InsertVector panics; with M=0 all points stay on level 0. Uses the axioms of the standard library's real numbers.

*Theorems.* `PLevels.v`: C93_levels_partial, C93_levels_below_54_partial, C93_geometric_partial, C93_insert_panics_refuted, C93_M_0_refuted, C93_insert_partial

### C94 Runs of the command on a CSV data file (partial)

each run is shown to be a reopening and a Synchronize of the lives of C43, by the invariant of those lives; storing the metadata again is shown to write the bytes that are there.

*Result.* Proved for all histories of growth and runs within the limits of cfits (no quoting, different names of at most 245 bytes, rows not longer than the header and the first one as long, index file below 2^60), if no run saw the header without a row. False in full: such a run makes the next one take the first row for the header (C94_header_alone_refuted); -s is ignored with -csv: for every history no column gets an index of n-grams.

*Theorems.* `PCsvRuns.v`: C94_every_run_indexes_the_rows_partial, C94_nothing_new_partial, C94_wrong_handler_partial, C94_search_headers_are_ignored_refuted; `PCsvRunsEx.v`: C94_header_alone_refuted

### C95 What is taken for a value and for a row (proved)

for each state of the scanners it is said which texts may follow, and this is shown by induction on the text; the converse by induction on the texts of the grammar.

*Result.* Proved for every text of bytes and every line. The decoders of encoding/json and encoding/csv are models of the libraries (they are not in /repo); the conversions of strings and numbers are parameters. Parse gives nil, which is also the value of null and of the empty string, for a text that it refuses: the theorem is about the values that are not nil. What the JSONL handler makes of malformed lines is C41.

*Theorems.* `PGrammar.v`: C95_only_json_scalars_have_a_value, C95_every_json_scalar_has_its_value, C95_rows_are_read_as_written

### C96 What follows the object on a line (partial)

the simulation of the handler by its actions (C40) is shown with an arbitrary text behind the closing brace; the fields of a line are shown to be those of its members, wherever they stand, by mutual induction.

*Result.* Proved within the limits of C40 (which, like C37 to C42 and all that rests on them, now allow any text without a line break after the object of a line); the conversions of strings and numbers and the n-grams are parameters. Refuted on {"a":1}x and {"a":1}{"a":2}: Synchronize reports nothing and counts one entry for the line, the second object is in no index, and JSON.parse of the client refuses the line when a query yields it. C78_query_select_partial therefore asks that the lines are JSON texts as a whole.

*Theorems.* `PAfter.v`: C96_any_text_may_follow, C96_damaged_line_refuted

## Testing the theorems against wrong programs

`seeded/LOG.jsonl` lists the mutations: each edits one definition of the model in a
scratch copy the way a bug would, rebuilds what depends on it and records which
theorems failed, and what was tightened where none did.
