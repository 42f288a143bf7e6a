{"id": "C01", "title": "Varint size is exact", "statement": "SizeVarint(v) equals the number of bytes binary.PutUvarint writes for v, so buffers sized with it never overflow and never have slack.", "quantifier": "every uint64 v", "why_tests_cant": "2^64 inputs; tests only sample a few powers of two", "anchors": ["pkg/encoding/sizeVarint.go:SizeVarint", "pkg/bptree/node.go:Size", "pkg/appendable/appendable.go:MarshalBinary"]}
{"id": "C02", "title": "Varint round trip and self-delimitation", "statement": "Decoding the bytes written for v, followed by any other bytes, returns v and exactly the number of bytes written; no encoding of a value is longer than 10 bytes.", "quantifier": "every uint64 v and every trailing byte string", "why_tests_cant": "unbounded trailing data and 2^64 values", "anchors": ["pkg/bptree/node.go:UnmarshalBinary", "encoding/binary Uvarint/PutUvarint (dependency contract)"]}
{"id": "C03", "title": "FileMeta round trip", "statement": "Unmarshalling what FileMeta.MarshalBinary produced gives back the same version, format, read offset and entry count; buffers shorter than 10 bytes or with an unknown format byte are rejected with an error, never accepted.", "quantifier": "every version byte, format, 64-bit read offset and 64-bit entry count, and every malformed buffer", "why_tests_cant": "product of 64-bit domains", "anchors": ["pkg/appendable/appendable.go:FileMeta.MarshalBinary", "pkg/appendable/appendable.go:FileMeta.UnmarshalBinary"]}
{"id": "C04", "title": "IndexMeta round trip", "statement": "Unmarshalling what IndexMeta.MarshalBinary produced gives back the same field name, field type, width and total length.", "quantifier": "every field name up to the longest one SetMetadata can store, every field type, width and total", "why_tests_cant": "unbounded set of names and 64-bit totals", "anchors": ["pkg/appendable/appendable.go:IndexMeta.MarshalBinary", "pkg/appendable/appendable.go:IndexMeta.UnmarshalBinary"]}
{"id": "C05", "title": "The browser client decodes varints the indexer wrote", "statement": "decodeUvarint in the TypeScript client returns the value the Go indexer encoded and the same byte count.", "quantifier": "every uint64 value the indexer may write", "why_tests_cant": "JavaScript bit operators are 32 bit; only values around the boundary show it", "anchors": ["src/util/uvarint.ts:decodeUvarint", "pkg/bptree/node.go:MarshalBinary"]}
{"id": "C06", "title": "The browser client decodes file and index metadata the indexer wrote", "statement": "readFileMeta and readIndexMeta return exactly the fields the indexer stored.", "quantifier": "every metadata value the indexer can store", "why_tests_cant": "two languages, unbounded values", "anchors": ["src/file/meta.ts:readFileMeta", "src/file/meta.ts:readIndexMeta", "pkg/appendable/appendable.go"]}
{"id": "C07", "title": "Key comparison is a total order", "statement": "CompareReferencedValues is a strict total order: value bytes first, then data offset, then data length; it is 0 only for identical keys, antisymmetric and transitive; the TypeScript comparison orders keys identically.", "quantifier": "every triple of keys", "why_tests_cant": "all triples of unbounded byte strings", "anchors": ["pkg/pointer/referenced_value.go:CompareReferencedValues", "src/bptree/bptree.ts:compareReferencedValues"]}
{"id": "C08", "title": "Binary search returns the lower bound", "statement": "Searching a sorted key list returns the number of keys smaller than the target, and found exactly when the target is present; the Go and TypeScript searches agree.", "quantifier": "every sorted list of keys and every target", "why_tests_cant": "unbounded lists", "anchors": ["pkg/bptree/bptree.go:traverse (slices.BinarySearchFunc)", "src/bptree/bptree.ts:binarySearchReferencedValues"]}
{"id": "C09", "title": "Numeric index keys sort like the numbers", "statement": "Number index keys (big-endian IEEE-754 bits) compare byte-wise exactly as the numbers they encode, so numeric range queries and orderings follow numeric order.", "quantifier": "every pair of finite float64 values", "why_tests_cant": "2^128 pairs", "anchors": ["pkg/handlers/jsonl.go:handleJSONLObject (FieldTypeFloat64)", "src/db/query-lang.ts:processWhere"]}
{"id": "C10", "title": "B+ tree node round trip inside a page", "statement": "Unmarshalling a page whose prefix is MarshalBinary of a node returns the same keys, leaf pointers and child offsets, whatever follows in the page; Size() is exactly the marshalled length.", "quantifier": "every leaf and internal node with in-range offsets, inline keys of the declared width or data-file keys, and every page tail", "why_tests_cant": "unbounded nodes; stale page tails", "anchors": ["pkg/bptree/node.go:MarshalBinary", "pkg/bptree/node.go:UnmarshalBinary", "pkg/bptree/node.go:Size"]}
{"id": "C11", "title": "Storage read-after-write and framing", "statement": "After Seek(o) and Write(b) on the index storage, reading any range returns b where it overlaps and the old bytes elsewhere; the memory mapped file and the in-memory buffer store the same bytes.", "quantifier": "every file, offset within it and buffer", "why_tests_cant": "unbounded files and positions", "anchors": ["pkg/mmap/mmap.go:Write", "pkg/mmap/mmap.go:WriteAt", "pkg/buftest/buffer.go"]}
{"id": "C12", "title": "Memory mapped Write reports the bytes written", "statement": "MemoryMappedFile.Write returns len(b) and advances the position by len(b), so consecutive writes are contiguous.", "quantifier": "every file and every buffer, including writes that grow the file", "why_tests_cant": "the fault only shows on the second of two growing writes", "anchors": ["pkg/mmap/mmap.go:Write", "pkg/mmap/mmap.go:WriteAt"]}
{"id": "C13", "title": "NewPage hands out a fresh aligned page and touches nothing else", "statement": "NewPage(buf) returns a page-aligned offset that is either a freed page or past the old end of file; the page then holds buf followed by zeros; every other page except the free list page is unchanged; a buffer larger than a page is refused without any change.", "quantifier": "every page file state and buffer", "why_tests_cant": "every reachable free list and file", "anchors": ["pkg/pagefile/pagefile.go:NewPage", "pkg/pagefile/pagefile.go:FreePageIndex"]}
{"id": "C14", "title": "Live pages are never handed out twice", "statement": "Over any history of NewPage and FreePage calls, NewPage never returns the offset of a page that was handed out and not freed since.", "quantifier": "every finite history of page allocations and frees", "why_tests_cant": "unbounded histories", "anchors": ["pkg/pagefile/pagefile.go:NewPage", "pkg/pagefile/pagefile.go:FreePage"]}
{"id": "C15", "title": "The free list is FIFO and survives reopening", "statement": "Pages are reused in the order they were freed, and closing and reopening the file yields the same free list.", "quantifier": "every history of allocations and frees, and every point at which the file is reopened", "why_tests_cant": "unbounded histories", "anchors": ["pkg/pagefile/pagefile.go:writeFreePageIndices", "pkg/pagefile/pagefile.go:NewPageFile"]}
{"id": "C16", "title": "Freeing and allocating pages never panics", "statement": "No sequence of FreePage/NewPage calls on page-aligned offsets panics; errors are returned as errors.", "quantifier": "every history of page allocations and frees", "why_tests_cant": "needs more than 512 operations in one session in the right pattern", "anchors": ["pkg/pagefile/pagefile.go:writeFreePageIndices"]}
{"id": "C17", "title": "PageCount tells the number of pages in the file", "statement": "PageCount() equals file size divided by the page size at all times.", "quantifier": "every history of page file operations, including creation of a new index", "why_tests_cant": "depends on history", "anchors": ["pkg/pagefile/pagefile.go:PageCount", "pkg/linkedpage/linkedpage.go:NewMultiBPTree"]}
{"id": "C18", "title": "Index slot metadata round trip", "statement": "Whatever SetMetadata accepted, Metadata returns, until it is set again.", "quantifier": "every metadata byte string SetMetadata accepts and every slot", "why_tests_cant": "all lengths, including the largest accepted", "anchors": ["pkg/linkedpage/linkedpage.go:SetMetadata", "pkg/linkedpage/linkedpage.go:Metadata"]}
{"id": "C19", "title": "Index slots are isolated from each other", "statement": "Setting the root or the metadata of one slot never changes the root or metadata of another slot.", "quantifier": "every pair of slots and every accepted root and metadata", "why_tests_cant": "slot stride arithmetic, all lengths", "anchors": ["pkg/linkedpage/linkedpage.go:SetMetadata", "pkg/linkedpage/linkedpage.go:SetRoot", "pkg/linkedpage/linkedpage.go:rootMemoryPointerPageOffset"]}
{"id": "C20", "title": "The slot list behaves like an append-only list", "statement": "After n successful AddNext calls at the tail, Collect returns exactly those n slots in creation order, all different; AddNext anywhere but at the tail is an error and changes nothing; existing slots keep their roots and metadata.", "quantifier": "every n, across any number of chained meta pages", "why_tests_cant": "unbounded n, page chaining at multiples of 15", "anchors": ["pkg/linkedpage/linkedpage.go:AddNext", "pkg/linkedpage/linkedpage.go:Next", "pkg/linkedpage/linkedpage.go:Collect"]}
{"id": "C21", "title": "The browser client sees the same slots", "statement": "Walking the slots with the TypeScript reader gives the same roots and metadata as the Go reader.", "quantifier": "every index file", "why_tests_cant": "two languages, unbounded files", "anchors": ["src/file/multi.ts:LinkedMetaPage", "pkg/linkedpage/linkedpage.go"]}
{"id": "C22", "title": "Opening is idempotent and refuses foreign files", "statement": "Opening an index file that was created by the same handler succeeds, changes no byte and reports the same metadata; opening with another format or version is refused.", "quantifier": "every index file reachable through the API", "why_tests_cant": "every history of prior operations", "anchors": ["pkg/appendable/index_file.go:NewIndexFile"]}
{"id": "C23", "title": "FindOrCreateIndex finds what it created", "statement": "FindOrCreateIndex(name,type) returns the existing index for that name and type if there is one and changes nothing, else appends exactly one new, empty index with that name, type and width; there is never more than one index per (name,type).", "quantifier": "every sequence of FindOrCreateIndex calls", "why_tests_cant": "unbounded sequences and names", "anchors": ["pkg/appendable/index_file.go:FindOrCreateIndex"]}
{"id": "C24", "title": "A rejected index name leaves the index file usable", "statement": "If FindOrCreateIndex fails for some name, later calls for other names still work.", "quantifier": "every field name, including those too long to store", "why_tests_cant": "needs the right length and a follow-up call", "anchors": ["pkg/appendable/index_file.go:FindOrCreateIndex", "pkg/linkedpage/linkedpage.go:SetMetadata"]}
{"id": "C25", "title": "IsEmpty tells whether there are no indexes", "statement": "IsEmpty() is true exactly when the file has no index.", "quantifier": "every index file", "why_tests_cant": "a statement about all files", "anchors": ["pkg/appendable/index_file.go:IsEmpty"]}
{"id": "C26", "title": "IndexFieldNames lists each field once, in order of first appearance", "statement": "IndexFieldNames returns the distinct field names in creation order.", "quantifier": "every index file", "why_tests_cant": "unbounded lists", "anchors": ["pkg/appendable/index_file.go:IndexFieldNames"]}
{"id": "C27", "title": "An inserted key can be found", "statement": "After any sequence of inserts, looking up an inserted key returns that key and the pointer it was inserted with.", "quantifier": "every sequence of inserts of distinct keys into an index, every depth and split history", "why_tests_cant": "unbounded insert histories and split points", "anchors": ["pkg/bptree/bptree.go:Insert", "pkg/bptree/bptree.go:Find", "pkg/bptree/bptree.go:traverse"]}
{"id": "C28", "title": "The tree is a sorted map", "statement": "After any sequence of inserts the tree contains exactly the accepted keys with their pointers: a walk from the smallest key yields all of them once in ascending order.", "quantifier": "every insert history", "why_tests_cant": "unbounded", "anchors": ["pkg/bptree/bptree.go:Insert", "pkg/bptree/bptree.go:TraversalIterator.Next"]}
{"id": "C29", "title": "Backward iteration is exact", "statement": "Calling Prev repeatedly on an iterator for key k yields exactly the keys smaller than k, in descending order, then false.", "quantifier": "every tree and every k, present or not", "why_tests_cant": "unbounded", "anchors": ["pkg/bptree/bptree.go:TraversalIterator.Prev", "pkg/bptree/bptree.go:incr"]}
{"id": "C30", "title": "Forward iteration and Find start at the first key not below the target", "statement": "Calling Next repeatedly on an iterator for key k yields exactly the keys >= k in ascending order; Find(k) returns the first of them.", "quantifier": "every tree and every k, present or not", "why_tests_cant": "depends on where leaf boundaries fall", "anchors": ["pkg/bptree/bptree.go:TraversalIterator.Next", "pkg/bptree/bptree.go:Find"]}
{"id": "C31", "title": "Contains answers membership of a value", "statement": "Contains(k) is true exactly when the tree holds a key with the value bytes of k.", "quantifier": "every tree and every k", "why_tests_cant": "leaf boundaries, empty trees, empty values", "anchors": ["pkg/bptree/bptree.go:Contains"]}
{"id": "C32", "title": "Duplicate keys are refused without effect", "statement": "Inserting a key that is already present returns an error and leaves every byte of the file as it was.", "quantifier": "every tree and every present key", "why_tests_cant": "unbounded", "anchors": ["pkg/bptree/bptree.go:Insert"]}
{"id": "C33", "title": "Insert never overflows a page, panics or fails on a key of the index's width", "statement": "Inserting a new key of the right width into an index always succeeds, however full its nodes are: splits always produce nodes that fit a page.", "quantifier": "every reachable tree and key, for every width an index can have", "why_tests_cant": "worst cases need adversarial varint sizes", "anchors": ["pkg/bptree/bptree.go:Insert", "pkg/bptree/node.go:Size"]}
{"id": "C34", "title": "Keys of the wrong width are refused without effect", "statement": "Insert of a key whose length differs from the index width returns an error and changes nothing.", "quantifier": "every tree, width and key", "why_tests_cant": "all lengths, including multiples of 65536", "anchors": ["pkg/bptree/bptree.go:Insert"]}
{"id": "C35", "title": "Indexes in one file are independent", "statement": "Inserting into one index never changes the contents, metadata or root of any other index in the file.", "quantifier": "every index file and every insert", "why_tests_cant": "unbounded layouts of interleaved pages", "anchors": ["pkg/bptree/bptree.go:Insert", "pkg/pagefile/pagefile.go:NewPage"]}
{"id": "C36", "title": "An interrupted Insert loses no committed key", "statement": "If the process dies between two storage writes of an Insert, reopening the file still finds every key inserted before.", "quantifier": "every tree, key and crash point", "why_tests_cant": "every crash point of every insert", "anchors": ["pkg/bptree/bptree.go:Insert"]}
{"id": "C37", "title": "Synchronize consumes exactly the complete lines", "statement": "After a successful JSONL Synchronize the read offset is just past the last newline of the data and the entry count grew by the number of lines consumed; a partial last line is left for later.", "quantifier": "every data file", "why_tests_cant": "unbounded inputs", "anchors": ["pkg/handlers/jsonl.go:Synchronize"]}
{"id": "C38", "title": "Re-synchronizing without new lines changes nothing", "statement": "A Synchronize with no new complete line leaves all indexes and metadata as they were.", "quantifier": "every index file and data file", "why_tests_cant": "unbounded", "anchors": ["pkg/handlers/jsonl.go:Synchronize", "pkg/handlers/csv.go:Synchronize"]}
{"id": "C39", "title": "Incremental indexing equals batch indexing", "statement": "Synchronizing a data file in several steps as it grows gives the same indexes with the same contents as synchronizing the final file once.", "quantifier": "every data file and every way of cutting it into appends", "why_tests_cant": "all split points", "anchors": ["pkg/handlers/jsonl.go:Synchronize", "pkg/handlers/csv.go:Synchronize"]}
{"id": "C40", "title": "Every field of every record is indexed, and nothing else", "statement": "After a successful JSONL Synchronize each index (name,type) holds exactly one entry per occurrence of that field with that type, with the field's value as key and the record's byte range as pointer.", "quantifier": "every data file", "why_tests_cant": "unbounded inputs", "anchors": ["pkg/handlers/jsonl.go:handleJSONLObject"]}
{"id": "C41", "title": "Synchronize can be retried after an error", "statement": "If Synchronize fails on a bad line, then after the data file is corrected from that line on, Synchronize succeeds and indexes everything once.", "quantifier": "every data file with a bad line", "why_tests_cant": "needs a failure in the middle followed by a retry", "anchors": ["pkg/handlers/jsonl.go:Synchronize"]}
{"id": "C42", "title": "String keys can be re-read from the data file", "statement": "For every indexed string value, parsing the stored data-file range gives back the value that was inserted.", "quantifier": "every legal JSON line, in any whitespace layout", "why_tests_cant": "all whitespace placements", "anchors": ["pkg/handlers/jsonl.go:handleJSONLObject", "pkg/handlers/jsonl.go:Parse"]}
{"id": "C43", "title": "CSV rows are aligned with their header across synchronizations", "statement": "Every data row is indexed under the header names of the file's first line, however the file is cut into appends.", "quantifier": "every CSV file and every way of cutting it into appends", "why_tests_cant": "all split points", "anchors": ["pkg/handlers/csv.go:Synchronize"]}
{"id": "C44", "title": "CSV field ranges point at the field", "statement": "For every field of a CSV row the stored data-file range holds that field's text.", "quantifier": "every CSV row, including quoted fields", "why_tests_cant": "all quotings", "anchors": ["pkg/handlers/csv.go:handleCSVLine"]}
{"id": "C45", "title": "N-gram tokens have the index width", "statement": "BuildNgram(phrase,n) yields only tokens of exactly n lower-case ASCII letters or digits, one per window of each word, so inserting them never fails the width check.", "quantifier": "every phrase and n in 1..3", "why_tests_cant": "unbounded phrases", "anchors": ["pkg/ngram/tokenizer.go:BuildNgram"]}
{"id": "C46", "title": "The search client tokenizes as the indexer does", "statement": "The TypeScript tokenizer yields the same n-gram words for a phrase as the Go tokenizer.", "quantifier": "every phrase and n in 1..3", "why_tests_cant": "two languages, unbounded phrases, Unicode", "anchors": ["src/ngram/tokenizer.ts:tokens", "pkg/ngram/tokenizer.go:BuildNgram"]}
{"id": "C47", "title": "Shuffling keeps the tokens", "statement": "Shuffle returns a permutation of its input.", "quantifier": "every token list and every random sequence", "why_tests_cant": "all random sequences", "anchors": ["pkg/ngram/tokenizer.go:Shuffle", "src/ngram/tokenizer.ts:shuffle"]}
{"id": "C48", "title": "Range queries return exactly the matching records", "statement": "A where query with <, <=, ==, >= or > returns exactly the records whose field value satisfies the comparison, in ascending order, or descending order when asked.", "quantifier": "every index, operator, direction and bound", "why_tests_cant": "leaf boundaries, ends of the index, single-leaf indexes", "anchors": ["src/db/database.ts:query", "src/bptree/traversal.ts", "src/bptree/bptree.ts:first", "src/bptree/bptree.ts:last"]}
{"id": "C49", "title": "limit bounds the number of results", "statement": "A query with limit n yields at most n records.", "quantifier": "every query", "why_tests_cant": "a statement about all queries", "anchors": ["src/db/database.ts:query", "src/db/query-builder.ts:limit"]}
{"id": "C50", "title": "Query building does not mutate", "statement": "where/orderBy/select/limit return a new builder holding the old clauses plus the new one, and never change the builder they are called on.", "quantifier": "every chain of builder calls", "why_tests_cant": "unbounded chains", "anchors": ["src/db/query-builder.ts"]}
{"id": "C51", "title": "Search validation accepts exactly the usable configurations", "statement": "validateSearch accepts a query exactly when the field has all three n-gram indexes and 1 <= minGram <= maxGram <= 3.", "quantifier": "every header list and configuration", "why_tests_cant": "unbounded", "anchors": ["src/db/query-validation.ts:validateSearch"]}
{"id": "C52", "title": "The range cache returns the requested bytes", "statement": "A resolver wrapped by cache() returns the same bytes for a range as the resolver itself.", "quantifier": "every request history and range", "why_tests_cant": "depends on earlier requests", "anchors": ["src/resolver/cache.ts:cache"]}
{"id": "C53", "title": "Multipart parsing is independent of chunking", "statement": "parseMultipartBody yields the parts of a well-formed body, in order and with their exact bytes, however the body is cut into network chunks.", "quantifier": "every well-formed body and every chunking", "why_tests_cant": "all chunkings", "anchors": ["src/resolver/multipart.ts:parseMultipartBody"]}
{"id": "C54", "title": "TypescriptType names the field type", "statement": "FieldType.TypescriptType() returns the TypeScript type of that field type: string, number, boolean, null, any[] or Record.", "quantifier": "every field type", "why_tests_cant": "finite, but no test covers it", "anchors": ["pkg/appendable/appendable.go:TypescriptType"]}
{"id": "C55", "title": "Index widths match the keys the handlers insert", "statement": "For every field type the fixed width declared by DetermineType equals the length of the keys the JSONL handler inserts for that type plus one (0 meaning variable).", "quantifier": "every field type and value", "why_tests_cant": "all values", "anchors": ["pkg/appendable/appendable.go:DetermineType", "pkg/handlers/jsonl.go"]}
{"id": "C56", "title": "The distance heap pops extremes", "statement": "After any sequence of inserts of new ids and pops, PopMinItem (PopMaxItem) removes and returns an item of smallest (largest) distance among those present, and the other items stay.", "quantifier": "every history of heap operations", "why_tests_cant": "unbounded histories", "anchors": ["pkg/hnsw/heap.go"]}
{"id": "C57", "title": "Re-inserting an id updates its distance", "statement": "Insert of an id already in the heap changes its distance and keeps the heap correct.", "quantifier": "every history of heap operations", "why_tests_cant": "needs particular shapes", "anchors": ["pkg/hnsw/heap.go:Insert", "pkg/hnsw/heap.go:Fix"]}
{"id": "C58", "title": "Stored vectors read back unchanged", "statement": "BTree.Find(id) returns the vector that was inserted for id.", "quantifier": "every vector and every insert history", "why_tests_cant": "2^32 floats per coordinate", "anchors": ["pkg/btree/node.go:UnmarshalBinary", "pkg/btree/btree.go:Find"]}
{"id": "C59", "title": "The vector tree accepts every vector that fits a page", "statement": "Inserting vectors into a BTree never panics as long as each vector fits in a page.", "quantifier": "every dimension and insert history", "why_tests_cant": "needs big vectors and several inserts", "anchors": ["pkg/btree/btree.go:Insert"]}
{"id": "C60", "title": "Friend lists stay within M", "statement": "After every InsertVector each node has at most M friends on every level it was linked on.", "quantifier": "every insert history and level assignment", "why_tests_cant": "random levels", "anchors": ["pkg/hnsw/hnsw.go:InsertVector", "pkg/hnsw/friends.go"]}
{"id": "C61", "title": "KnnSearch returns at most k distinct known points", "statement": "KnnSearch(q,k) returns at most k items, with distinct ids of inserted points and the true distances to q.", "quantifier": "every graph and query", "why_tests_cant": "unbounded graphs", "anchors": ["pkg/hnsw/hnsw.go:KnnSearch", "pkg/hnsw/hnsw.go:searchLevel"]}
{"id": "C62", "title": "CSV index pages match their declared width", "statement": "Every index page the CSV handler writes is encoded with the width stored in that index's metadata, so that a reader which takes the width from the metadata (as the browser client does) decodes the keys that were inserted.", "quantifier": "all CSV files and all field types", "why_tests_cant": "the Go tests open the tree with the width they wrote with, and the client tests never read a CSV numeric index; the claim ranges over all rows and types", "anchors": ["pkg/handlers/csv.go: Synchronize", "pkg/appendable/appendable.go: DetermineType", "src/file/meta.ts: readIndexMeta", "src/bptree/node.ts: unmarshalBinary"]}
{"id": "C63", "title": "The browser client decodes tree nodes the indexer wrote", "statement": "Decoding a page with the TypeScript BPTreeNode.unmarshalBinary gives the same keys, leaf pointers and child offsets as the Go indexer stored, whatever follows in the page.", "quantifier": "all nodes of all widths, all page tails", "why_tests_cant": "offsets range over 64 bits and nodes over all key counts and widths; tests use small files", "anchors": ["src/bptree/node.ts: unmarshalBinary", "src/util/uvarint.ts: decodeUvarint", "pkg/bptree/node.go: MarshalBinary"]}
{"id": "C64", "title": "A point is never its own friend", "statement": "After any history of InsertVector calls, at whatever levels were drawn, no point appears in its own friend list on any level, so a search step from a point always offers other points.", "quantifier": "all dimensions, all vectors, all sequences of insertions, all drawn levels, all values of M and efConstruction", "why_tests_cant": "Whether a point links to itself depends on the drawn levels and on which neighbours are nearest at every level; the levels are random.", "anchors": ["pkg/hnsw/hnsw.go InsertVector", "pkg/hnsw/hnsw.go searchLevel", "pkg/hnsw/friends.go InsertFriend"]}
{"id": "C65", "title": "Flush writes the closest friends, their levels and their number", "statement": "Flush(n) of a point's friends writes 5n bytes: records of the n closest friends on level 0 in ascending order of distance, each with its id and the highest level on which it is a friend, and a reader of the bytes can tell how many friends there are.", "quantifier": "all graphs built by any insertions at any levels, all points, all n", "why_tests_cant": "The friend heaps and recorded levels depend on the whole insertion history and the random levels.", "anchors": ["pkg/hnsw/friends.go Flush", "pkg/hnsw/friends.go InsertFriendsAtLevel", "pkg/hnsw/hnsw.go InsertVector"]}
{"id": "C66", "title": "CSV synchronization counts its rows", "statement": "After Synchronize of a CSV file the index file's metadata report the number of data rows consumed as Entries, as they do for JSONL files.", "quantifier": "every CSV file and every history of synchronizations", "why_tests_cant": "a statement about all histories", "anchors": ["pkg/handlers/csv.go:Synchronize", "pkg/appendable/appendable.go:FileMeta"]}
{"id": "C67", "title": "Numbers in queries are compared as numbers", "statement": "A where clause with a numeric value selects the records whose field, as a number, satisfies the comparison: the byte order in which the index keeps numbers is their numeric order.", "quantifier": "all pairs of IEEE 754 binary64 values, all operators, all indexes of numbers", "why_tests_cant": "2^128 pairs of floats; the tests use a handful of positive ones", "anchors": ["pkg/handlers/jsonl.go: BigEndian.PutUint64(Float64bits)", "src/db/query-lang.ts: processWhere", "src/bptree/bptree.ts: compareReferencedValues", "pkg/pointer/referenced_value.go: CompareReferencedValues"]}
{"id": "C68", "title": "Several where clauses are a conjunction", "statement": "A query with several where clauses returns the records that satisfy all of them, each once.", "quantifier": "all index files, all lists of clauses on one or more fields, all values", "why_tests_cant": "a statement about all combinations of clauses and all indexes", "anchors": ["src/db/database.ts: query", "src/db/query-validation.ts"]}
{"id": "C69", "title": "Queries on fields or types that are not indexed are refused", "statement": "A where clause on a field that no record has, or with a value of a type for which the field has no index, makes the query fail with an error instead of returning no records.", "quantifier": "all index files, all field names, values, operators, directions", "why_tests_cant": "a statement about all index files and names", "anchors": ["src/db/database.ts: query", "src/db/query-validation.ts", "src/file/meta.ts"]}
{"id": "C70", "title": "A query on a synchronized JSONL file returns exactly the matching lines", "statement": "After Synchronize of a JSONL data file, a browser query with one where clause on a field returns the text of exactly the complete lines that have this field with a value of the type of the clause's value that satisfies the comparison, in the requested order.", "quantifier": "all JSONL data files (any nesting, spacing, number of lines), all histories of appends and synchronizations, all fields, values, operators, numbers of records asked for", "why_tests_cant": "an end-to-end statement over all data files and all clauses", "anchors": ["pkg/handlers/jsonl.go: Synchronize", "pkg/bptree/bptree.go: Insert", "src/db/database.ts: query", "src/bptree/traversal.ts"]}
{"id": "C71", "title": "No page of an index file is lost", "statement": "After any history of operations on an index file, every page of the file but the first belongs to the chain of metadata slots or to the tree of exactly one index, and the size of the file is at most 4096 bytes times (2 + one per fifteen indexes + 2 per entry).", "quantifier": "all histories of creating indexes, inserting entries, updating metadata and reopening", "why_tests_cant": "a statement about all histories; a leaked page shows only as slow growth", "anchors": ["pkg/pagefile/pagefile.go: NewPage", "pkg/bptree/bptree.go: Insert", "pkg/linkedpage/linkedpage.go: AddNext"]}
{"id": "C72", "title": "First and Last are the ends of the index", "statement": "On a non-empty index, the edge functions of a B+ tree: first() returns the smallest key of the index and last() the largest, without changing anything.", "quantifier": "all histories of insertions, all key sizes, all depths of the tree", "why_tests_cant": "the path to the edge depends on the depth and shape of the tree, which depends on the whole history", "anchors": ["pkg/bptree/bptree.go: first, last"]}
{"id": "C73", "title": "A search returns exactly the records containing an n-gram of the text, each once", "statement": "A full-text search on a field yields exactly the records of the data file whose value for that field contains at least one of the n-grams of the search text, each record once, and never raises an error on an index file the synchronizer produced.", "quantifier": "all index files, all data files, all search texts, all n-gram sizes, all numbers of entries of the n-gram indexes", "why_tests_cant": "which entries the scan of an n-gram visits depends on the shape of the tree, hence on the whole history of insertions", "anchors": ["src/db/database.ts: query", "src/bptree/bptree.ts: termFrequency", "src/ngram/table.ts", "src/ngram/tokenizer.ts"]}
{"id": "C74", "title": "The score counts how often each n-gram occurs in a record", "statement": "The term frequency a search attributes to a record for an n-gram is the number of occurrences of this n-gram in the record's field, independently of the other n-grams of the search.", "quantifier": "all index files, all records, all search texts", "why_tests_cant": "a statement about all records and all combinations of n-grams", "anchors": ["src/db/database.ts: query", "src/bptree/bptree.ts: termFrequency", "src/ngram/table.ts", "src/ngram/tokenizer.ts"]}
{"id": "C75", "title": "A range request returns the requested bytes and the length of the file", "statement": "requestRanges returns, for each requested range and in the order of the request, the bytes of that range and the total length of the resource, whether or not multipart requests are used, and it throws LengthIntegrityError when the total length is not the expected one.", "quantifier": "every resource, list of ranges, expected length and server that serves the resource", "why_tests_cant": "all lists of ranges, all chunkings and spellings of the response", "anchors": ["src/resolver/range-request.ts:requestRanges", "src/resolver/range-request.ts:resolveIndividualPromises", "src/file/data-file.ts:DataFile.get"]}
{"id": "C76", "title": "fields() lists the indexed fields", "statement": "Database.fields() returns every indexed field name exactly once, in the order of first appearance, with the types of all its indexes in the order of creation; on a database without an index it returns the empty list.", "quantifier": "every index file reachable by opening, indexing and inserting", "why_tests_cant": "ranges over all index lists and histories", "anchors": ["src/db/database.ts:fields", "src/file/index-file.ts:indexHeaders", "src/file/meta.ts:collectIndexMetas"]}
{"id": "C77", "title": "Query validation accepts exactly the usable queries", "statement": "validateQuery accepts a query exactly if every where clause has a known operation, an indexed key and a value of one of the key's types, orderBy names the key of the first clause and a direction, and select names indexed fields; for an accepted query, query() finds the index of every clause.", "quantifier": "every query object, every index file", "why_tests_cant": "ranges over all query objects and all lists of indexes", "anchors": ["src/db/query-validation.ts:validateQuery", "src/db/query-validation.ts:validateWhere", "src/db/query-validation.ts:validateOrderBy", "src/db/query-validation.ts:validateSelect", "src/db/database.ts:query"]}
{"id": "C78", "title": "select yields exactly the selected fields", "statement": "A query with a selection yields, for each matching record, an object with exactly those selected fields the record has, with their values; without a selection it yields the record.", "quantifier": "every JSON record, every list of field names, every synchronized JSONL file", "why_tests_cant": "ranges over all JSON documents and field lists", "anchors": ["src/db/query-lang.ts:handleSelect", "src/db/database.ts:query"]}
{"id": "C79", "title": "Queries over CSV data yield rows", "statement": "A query over the index of a CSV file yields the matching rows.", "quantifier": "every CSV file, index file and query", "why_tests_cant": "ranges over all CSV rows and queries", "anchors": ["src/db/query-lang.ts:handleSelect", "src/db/database.ts:query", "pkg/handlers/csv.go:handleCSVLine"]}
{"id": "C80", "title": "AddNode stores every point in graph, vector tree and neighbour tree", "statement": "Each AddNode call of a vector of the right dimension succeeds and leaves the point in the graph, its vector findable under its id in the vector tree, and its neighbour list findable in the b+ tree; a call that reports an error leaves everything as it was; every point of the graph is in the trees.", "quantifier": "all graphs, all sequences of AddNode calls, all drawn levels, all dimensions up to 501", "why_tests_cant": "Whether a call fails depends on all neighbour lists stored before; three structures must agree after every history.", "anchors": ["pkg/vectorpage/manager.go AddNode", "pkg/hnsw/friends.go Flush", "pkg/btree/btree.go Insert", "pkg/bptree/bptree.go Insert"]}
{"id": "C81", "title": "Searching a synchronized file finds the lines that share n-grams with the text", "statement": "After Synchronize of a JSONL file with a search header for a field, a browser search of that field for a text returns exactly the lines whose field shares an n-gram (of the lengths configured) with the text, and reports nothing else.", "quantifier": "every data file within the limits, every way of synchronizing it, every search text and pair of gram lengths", "why_tests_cant": "composes tokenizer, handler, tree, index file and browser client over all texts and histories", "anchors": ["pkg/handlers/jsonl.go:handleJSONLObject", "pkg/ngram/tokenizer.go:BuildNgram", "src/db/database.ts:query", "src/ngram/tokenizer.ts:tokens"]}
{"id": "C82", "title": "Search headers do not disturb indexing", "statement": "Synchronize with search headers accepts every data file that it accepts without them, and leaves the same metadata and the same ordinary (not n-gram) indexes.", "quantifier": "every data file, every list of search headers, every way of synchronizing", "why_tests_cant": "relates two runs over all data files and histories", "anchors": ["pkg/handlers/jsonl.go:handleJSONLObject", "pkg/appendable/index_file.go:IsSearch"]}
{"id": "C83", "title": "A crash during Synchronize can be repaired by the next one", "statement": "If the process dies at any write while Synchronize indexes a data file, the index file it leaves can be opened again, and a later Synchronize indexes the lines that were not yet recorded.", "quantifier": "every history of a JSONL data file and its index file, every point of death, every continuation (more data, more Synchronize calls, reopening)", "why_tests_cant": "quantifies over crash points and over everything that may happen afterwards", "anchors": ["pkg/handlers/jsonl.go:Synchronize", "pkg/appendable/index_file.go:FindOrCreateIndex", "pkg/bptree/bptree.go:Insert"]}
{"id": "C84", "title": "Both storages behave like a file", "statement": "The in-memory buffer and the memory mapped file answer every sequence of Seek, Read, Write, ReadAt, WriteAt and Truncate as a file does: each read returns the bytes last written at that place, a write changes exactly its range, and the two storages are interchangeable.", "quantifier": "every content and every sequence of operations", "why_tests_cant": "ranges over all operation sequences, offsets and contents, including beyond the end", "anchors": ["pkg/buftest/buffer.go:SeekableBuffer", "pkg/mmap/mmap.go:MemoryMappedFile"]}
{"id": "C85", "title": "The index file stays within a fixed factor of the data file, so no size limit on the index file has to be assumed", "statement": "For every JSON Lines data file of less than 2^44 bytes that is within the documented limits, every Synchronize of every history (synchronizing, growing data, reopening) succeeds and leaves an index file of at most 4096*(3+6n) bytes for n bytes of data; the guarantees on read offset, entries and indexes hold with no assumption on the index file.", "quantifier": "every data file below 2^44 bytes within the limits, every history of growth, Synchronize and reopening", "why_tests_cant": "a bound on the file size over all inputs and all histories; no test reaches the sizes at which 64-bit offsets or fuel could run out", "anchors": ["pkg/handlers/jsonl.go:Synchronize", "pkg/appendable/index_file.go:FindOrCreateIndex", "pkg/bptree/bptree.go:Insert", "pkg/pagefile/pagefile.go:NewPage"]}
{"id": "C86", "title": "The index file of a CSV file stays within a fixed factor of the data file", "statement": "For every CSV data file of less than 2^44 bytes within the documented limits, every Synchronize of every history (synchronizing, growing data, reopening, never synchronizing with the header as the only complete line) succeeds and leaves an index file of at most 4096*(3+3n) bytes for n bytes of data; the guarantees on read offset, header names, entries and indexes hold with no assumption on the index file.", "quantifier": "every CSV data file below 2^44 bytes within the limits, every history of growth, Synchronize and reopening", "why_tests_cant": "a bound on the file size over all inputs and all histories; no test reaches the sizes at which 64-bit offsets could overflow", "anchors": ["pkg/handlers/csv.go:Synchronize", "pkg/appendable/index_file.go:FindOrCreateIndex", "pkg/bptree/bptree.go:Insert", "pkg/pagefile/pagefile.go:NewPage"]}
{"id": "C87", "title": "Browser queries on a text column of a CSV file find exactly the matching rows", "statement": "After a CSV file within the limits has been synchronized, a browser query that compares a column with a string finds exactly the rows whose cell in that column is a text satisfying the comparison, each once, in the order of the cells and in the order asked for, and hands them to the caller; queries on columns of numbers find their rows.", "quantifier": "every CSV file within the limits, every life of its index file, every column with a text, every string, comparison, direction and number of records read", "why_tests_cant": "the writer and the browser read the keys of the tree with different conversions (Parse, and the text itself); that they agree has to hold for every tree that any sequence of Synchronize runs can build", "anchors": ["src/db/database.ts:query", "src/bptree/node.ts:parseValue", "pkg/handlers/csv.go:Synchronize", "src/db/query-lang.ts:handleSelect"]}
{"id": "C88", "title": "Runs of the command with different search headers", "statement": "However a JSONL data file grows between runs of the command, and whatever list of search headers each run is given, every run succeeds and the metadata and the ordinary indexes are those of all lines, independent of the headers; an index of n-grams holds exactly the n-grams of the strings of the lines that were new to a run whose headers named the field; a run without a new line changes no byte; a run with -csv is refused and changes no byte; naming a field later makes its earlier strings searchable.", "quantifier": "every growth of a data file within the limits, every number of runs, every header list of each run", "why_tests_cant": "the claim is about all histories of runs with all choices of headers; tests use one run with one list", "anchors": ["cmd/main.go:main", "pkg/appendable/index_file.go:NewIndexFile", "pkg/appendable/index_file.go:IsSearch", "pkg/appendable/index_file.go:Synchronize", "pkg/handlers/jsonl.go:Synchronize"]}
{"id": "C89", "title": "A browser session that stays open while the file grows", "statement": "A session that has made a query keeps answering correctly after the indexer has added records: a query of the open session gives what a session opened now would give. It holds while the root of the field's index has not moved, and for the indexes that are not on the first page of slots; in every case the session answers from one unbroken run of the present entries of the index (all of them, or not all if the root has moved). It fails when the root of an index moves, which makes records vanish that the session had seen, and a field that was first indexed later is not found.", "quantifier": "every state of an index file in which a session is opened, every later history of calls, every query of one clause", "why_tests_cant": "the outcome depends on which pages the indexer has rewritten between two queries; tests open a file, query it and stop", "anchors": ["src/file/multi.ts:LinkedMetaPage.getMetaPage", "src/file/multi.ts:LinkedMetaPage.next", "src/file/index-file.ts:IndexFileV1.tree", "src/file/index-file.ts:seek", "src/db/database.ts:query"]}
{"id": "C90", "title": "Queries while the indexer is at work", "statement": "While Synchronize runs on a JSONL data file a browser may query the index file at any instant. Whatever the instant, a query with one comparison that returns records returns only lines of the data file with a matching field, each once per matching field, in the order asked for; lines may be missing. It should also keep finding the lines that were indexed before; that fails: at the instants at which a new index has been added but not named, every query fails.", "quantifier": "every life of an index file, every data file within the limits, every instant between two writes of a Synchronize (including before the first and after the last), every comparison, direction and value", "why_tests_cant": "the interleaving of the indexer's writes with the reader's requests is not under the control of a test, and the number of instants grows with the data", "anchors": ["pkg/handlers/jsonl.go:Synchronize", "pkg/appendable/index_file.go:FindOrCreateIndex", "pkg/bptree/bptree.go:Insert", "src/db/database.ts:query", "src/file/index-file.ts:seek", "src/bptree/bptree.ts:BPTree"]}
{"id": "C91", "title": "Death of the process while a CSV file is synchronized", "statement": "If the process dies at any write of a Synchronize of a CSV data file, the index file that is left can be opened again, says about its position in the data file what it said before, and lists under every name and type only cells that the rows of the data file have there. The next Synchronize should then go on as if nothing had happened; that fails: the header is recovered from the names of the indexes, so a death in the first row makes the next Synchronize index the header line as a record, or reject it.", "quantifier": "every life of an index file, every CSV data file within the limits, every write of a Synchronize at which the process may die, every index", "why_tests_cant": "the number of crash points grows with the data, and each has its own file behind it", "anchors": ["pkg/handlers/csv.go:Synchronize", "pkg/handlers/csv.go:handleCSVLine", "pkg/appendable/index_file.go:FindOrCreateIndex", "pkg/appendable/index_file.go:IndexFieldNames", "pkg/bptree/bptree.go:Insert"]}
{"id": "C92", "title": "Strings mean the same to the indexer and to the browser", "statement": "Keys of a string index are not stored: both the indexer and the browser read them again from the text in the data file, each with its own JSON library. For every text of a string that is in UTF-8 (with any escapes, paired or lone surrogates among them) both get the same bytes, and for every number, string, boolean and null Parse and parseValue give the same key; cells of CSV files are taken as they are. So for a data file in UTF-8 the answers of a query do not depend on which of the two reads the keys. It should hold for any data file; for text that is not UTF-8 it fails, and a query then misses lines whose value both read alike.", "quantifier": "every text of a JSON value; every life of an index file, every UTF-8 data file within the limits, every comparison, value, direction and number of records", "why_tests_cant": "two libraries in two languages must agree on every string, and the order of the index written with one must be the order seen through the other", "anchors": ["pkg/handlers/jsonl.go:Parse", "src/bptree/node.ts:parseValue", "src/bptree/bptree.ts:BPTree", "pkg/bptree/node.go:UnmarshalBinary"]}
{"id": "C93", "title": "Levels are drawn geometrically", "statement": "InsertVector puts each new point on a level l >= 0 drawn at random, level j or higher with probability M^-j, small enough for the byte that records it, and no draw makes the insertion fail.", "quantifier": "every M, every value of the random number generator and every history of insertions", "why_tests_cant": "a test sees a few of 2^53 draws; the one that fails is never seen", "anchors": ["pkg/hnsw/hnsw.go:SpawnLevel", "pkg/hnsw/hnsw.go:NewHnsw", "pkg/hnsw/hnsw.go:InsertVector", "pkg/hnsw/friends.go:NewFriends"]}
{"id": "C94", "title": "Runs of the command on a CSV data file", "statement": "However a CSV data file grows between runs of the command with -csv, and whatever search headers each run is given, a run that sees a complete row succeeds; the index file it leaves opens as one of CSV, its metadata count all complete lines as read, and its indexes hold exactly the cells of all rows under the names of the first line; a run without a new complete line changes no byte; a run with -jsonl is refused and changes no byte; naming a column in -s makes it searchable.", "quantifier": "every growth of a data file, every number and moment of runs, every header list of each run", "why_tests_cant": "the claim is about all histories of growth and runs, including runs in the middle of a line; tests synchronize a fixed file once", "anchors": ["cmd/main.go:main", "pkg/appendable/index_file.go:NewIndexFile", "pkg/appendable/index_file.go:Synchronize", "pkg/handlers/csv.go:Synchronize"]}
{"id": "C95", "title": "What is taken for a value and for a row", "statement": "Parse of the JSONL handler gives a value for a text exactly when the text begins, after white space, with a number, string, true, false or null of the JSON grammar, and the value is what that scalar stands for; a line of a CSV file is taken for a row exactly when it is a list of fields, quoted or not, as RFC 4180 says, and its cells are the values of the fields, doubled quotes being one quote; everything else is refused.", "quantifier": "every text and every line", "why_tests_cant": "the claim is about all texts, the malformed ones included: there are infinitely many of both kinds, and one wrongly accepted text puts a wrong key into an index", "anchors": ["pkg/handlers/jsonl.go:Parse", "pkg/handlers/csv.go:Synchronize", "pkg/handlers/csv.go:handleCSVLine"]}
{"id": "C96", "title": "What follows the object on a line", "statement": "Whatever stands on a line of a JSONL file after its first object, up to the line break, does not change what is indexed: Synchronize succeeds, counts one entry for the line, and puts the same fields with the same values into the indexes as without that text; and a line that is not a JSON text as a whole is refused (it is not: see the note).", "quantifier": "all data files, all lines, all texts after the object, all histories of the index file", "why_tests_cant": "the text after the object is arbitrary, and its effect is on whatever the file holds before and after the line", "anchors": ["pkg/handlers/jsonl.go:Synchronize", "pkg/handlers/jsonl.go:handleJSONLObject", "src/db/query-lang.ts:handleSelect"]}
