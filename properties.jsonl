{"id": "C01", "title": "Live page allocations never overlap", "statement": "In libblobd-lite and libblobd-direct, whatever sequence of allocations and releases has happened, every page handed out and not yet released lies inside the heap, starts at a multiple of its size, has a power-of-two size between the small-page and large-page size that is at least what was asked for, and shares no byte with any other live page nor with any page the allocator still considers free.", "quantifier": "every heap size, every small/large page size, every finite history of allocate and release calls of any sizes, either allocation direction", "why_tests_cant": "the number of histories is unbounded; an overlap needs one particular split/merge order and silently corrupts another object's data", "anchors": ["libblobd-lite/src/allocator/mod.rs: Allocator::{allocate,_allocate,_release,release}", "libblobd-direct/src/allocator/mod.rs: Allocator::{allocate,_allocate,_release,release}"]}
{"id": "C02", "title": "Releasing everything restores the whole heap", "statement": "Page allocation neither loses nor invents space: after any history, free bytes plus live allocated bytes equal the heap size the allocator was created with, no two buddy pages are both free without being merged, and once every live page has been released the allocator is indistinguishable from a fresh one.", "quantifier": "every heap size, page size configuration and history of allocations and releases", "why_tests_cant": "leaks and failed merges show only after particular orders of frees; a test covers a handful of orders", "anchors": ["libblobd-lite/src/allocator/mod.rs: _release", "libblobd-direct/src/allocator/mod.rs: _release"]}
{"id": "C03", "title": "Allocation fails only when no free page is large enough", "statement": "Asking for space fails only if there is no free page of the requested (rounded-up) size or larger; otherwise it succeeds, it splits the smallest page that fits, and it uses the lowest (or, in the other direction, highest) free page of that size.", "quantifier": "every reachable allocator state and requested size", "why_tests_cant": "a wrong failure needs a particular fragmentation pattern out of exponentially many", "anchors": ["libblobd-lite/src/allocator/mod.rs: _allocate,allocate", "libblobd-direct/src/allocator/mod.rs: _allocate,allocate"]}
{"id": "C04", "title": "Pages in use at start-up are never handed out again", "statement": "When a store is opened, each page recorded as used by an existing object is reserved; a reserved page is never returned by a later allocation (wholly or partly) until it is released, reserving pairwise-disjoint pages always succeeds whatever their order, and reserving a set of pages yields the same allocator as any other order of the same set.", "quantifier": "every set of pairwise disjoint aligned pages, in every order, followed by every allocation history", "why_tests_cant": "depends on the order objects are found on the device and on which parents have already been split", "anchors": ["libblobd-lite/src/allocator/mod.rs: mark_as_allocated,_mark_as_allocated", "libblobd-direct/src/allocator/mod.rs: mark_as_allocated", "libblobd-lite/src/lib.rs: load_buckets", "libblobd-direct/src/objects.rs: load_objects_from_device"]}
{"id": "C05", "title": "An object's page layout covers its data with bounded waste", "statement": "For every object size, the pages chosen for it hold at least its size, waste less than one small page, consist of as many full large pages as fit followed by tail pages of distinct power-of-two sizes in decreasing order, none smaller than a small page and none larger than a large page (a large page occurs as a tail only on its own).", "quantifier": "every object size and every small/large page size accepted by the configuration", "why_tests_cant": "the size domain is 2^40 and the boundary cases move with the configured page sizes", "anchors": ["libblobd-lite/src/allocator/layout.rs: calc_object_layout", "libblobd-direct/src/object/mod.rs: calc_object_layout"]}
{"id": "C06", "title": "The compact tail-page list loses nothing", "statement": "A list of at most 24 page-size exponents below 32 packed into the two-word on-memory form has the same length, the same element at every index, the same iteration order, and reports nothing beyond its end; pushing appends and disturbs nothing before it.", "quantifier": "every list of up to 24 exponents, every index", "why_tests_cant": "5-bit fields straddle two machine words; there are 32^24 lists", "anchors": ["libblobd-lite/src/allocator/layout.rs: TailPageSizes", "libblobd-direct/src/object/tail.rs: TailPageSizes"]}
{"id": "C07", "title": "A created lite object's on-device record decodes to what was created", "statement": "For every key, size, id, creation time, page list and associated data accepted by create, reading the on-device record gives back exactly the same key, size, id, creation time, state, next link, page addresses and associated data; fields never overlap; changing the state or next link leaves all the others unchanged.", "quantifier": "every metadata value within the field widths, every page configuration", "why_tests_cant": "field offsets depend on the key length and on the number of pages of each kind, a product space no test enumerates", "anchors": ["libblobd-lite/src/object.rs: ObjectMetadata,offsets", "libblobd-lite/src/op/create_object.rs"]}
{"id": "C08", "title": "Lite read returns exactly the uploaded bytes of the requested range", "statement": "After all parts of an object have been written, reading any accepted range [start,end) streams exactly bytes start..end of what was uploaded, in order, and in particular exactly end-start bytes, whatever large/tail page boundaries it crosses.", "quantifier": "every object size, content, page configuration, page placement and range", "why_tests_cant": "boundary conditions multiply (range ends x page boundaries x tail page sizes)", "anchors": ["libblobd-lite/src/op/read_object.rs: op_read_object", "libblobd-lite/src/op/write_object.rs: op_write_object"]}
{"id": "C09", "title": "Writing a part only changes that object's pages", "statement": "Writing a part of an incomplete object changes no byte of the device outside the pages of that object that this part covers; parts may be written in any order and each ends up at the part's own place.", "quantifier": "every object, every part offset, every chunking of the incoming stream, every order of parts", "why_tests_cant": "stray writes corrupt other objects only for certain sizes and chunkings", "anchors": ["libblobd-lite/src/op/write_object.rs", "libblobd-direct/src/op/write_object.rs"]}
{"id": "C10", "title": "A short or failing upload stream ends the write call with an error", "statement": "If the client's data stream for a part ends early or fails, the write call returns an error (it does not hang or panic), and a stream longer than the part is rejected.", "quantifier": "every chunking and every truncation point of the incoming stream", "why_tests_cant": "needs a client that disconnects at a particular point relative to page boundaries", "anchors": ["libblobd-lite/src/op/write_object.rs", "libblobd-direct/src/op/write_object.rs"]}
{"id": "C11", "title": "Coalescing queued device writes does not change their effect", "statement": "Merging the writes of all queued transactions into non-overlapping intervals and writing those in any order leaves the device in the same state as performing the original writes one after another in order.", "quantifier": "every list of writes with any offsets, lengths and overlaps", "why_tests_cant": "overlap patterns are unbounded and the bug window is a single mis-split interval", "anchors": ["libblobd-lite/src/journal/merge.rs: WriteMerger"]}
{"id": "C12", "title": "A journalled lite update survives a crash wholly or not at all", "statement": "If the process dies at any point, then after reopening, every operation's group of metadata writes (for example linking a new object at the front of its chain) is either fully applied or not applied at all, and every operation that was acknowledged is fully applied.", "quantifier": "every batch of transactions and every crash point between or inside device writes", "why_tests_cant": "crash points cannot be enumerated by tests and no crash test exists", "anchors": ["libblobd-lite/src/journal/real.rs: recover,commit_transaction,start_flusher"]}
{"id": "C13", "title": "Lite operations behave like a simple keyed object store", "statement": "Executed one after another with versioning off (C48 covers versioning), create/commit/inspect/delete behave like this: inspect, read and delete on a key see the most recently committed object under that key; commit makes the object visible and removes any previously committed object with the same key; delete makes the key absent; no operation affects objects with other keys, even those that share a hash bucket.", "quantifier": "every sequence of operations, every set of keys, every hash function and bucket count", "why_tests_cant": "state space of linked chains with collisions is unbounded", "anchors": ["libblobd-lite/src/bucket.rs", "libblobd-lite/src/op/*.rs"]}
{"id": "C14", "title": "Lite commit and delete stay correct when a neighbouring create has not been flushed yet", "statement": "Deleting or replacing an object unlinks it permanently even if the object preceding it in the same hash bucket was created moments earlier and that creation is still only queued for writing.", "quantifier": "every interleaving of create, delete, journal flush and overlay eviction on one bucket", "why_tests_cant": "requires a flush to land between two particular steps", "anchors": ["libblobd-lite/src/bucket.rs: delete_object", "libblobd-lite/src/overlay.rs", "libblobd-lite/src/journal/real.rs"]}
{"id": "C15", "title": "Reopening a lite store finds every stored object", "statement": "After a clean shutdown, reopening the device restores exactly the committed and incomplete objects and reserves exactly their pages, so that reads give the same answers and no later allocation reuses their pages.", "quantifier": "every reachable stored state", "why_tests_cant": "needs reopen with arbitrary populated buckets", "anchors": ["libblobd-lite/src/lib.rs: load_buckets", "libblobd-lite/src/bucket.rs"]}
{"id": "C16", "title": "The store never addresses beyond its device", "statement": "For every device size accepted by the loader, every region (tables, journal or log, heap) lies inside the device, regions do not overlap, and every page that can ever be allocated lies inside the device.", "quantifier": "every device size, bucket count, page size and log size accepted by the configuration, for all three libraries", "why_tests_cant": "layout arithmetic depends on a multi-dimensional configuration space", "anchors": ["libblobd-lite/src/lib.rs: BlobdLoader::new", "libblobd-direct/src/partition/mod.rs: PartitionLoader::new", "libblobd-kv/src/lib.rs: BlobdLoader::new"]}
{"id": "C17", "title": "Direct object index entries survive serialisation", "statement": "For every set of objects assigned to an index page (at most its capacity), writing the index page and loading it again yields exactly the same objects with the same states, ids, record addresses and record sizes.", "quantifier": "every list of entries up to the page's capacity, every value in the field widths", "why_tests_cant": "end-of-page marker behaviour at exactly-full pages and every field width", "anchors": ["libblobd-direct/src/tuples.rs: load_tuples_from_raw_bundle,start_background_commit_loop", "libblobd-direct/src/object/mod.rs: ObjectTuple::{serialise,deserialise}"]}
{"id": "C18", "title": "Direct object index pages never overflow and never lose an entry", "statement": "For every history of inserts, state changes, deletes and flushes, every live object is in exactly one index page under its current state, no page holds more than its capacity, and deleted objects are in none.", "quantifier": "every history of index operations interleaved with flushes", "why_tests_cant": "needs long interleavings that fill pages exactly", "anchors": ["libblobd-direct/src/tuples.rs: Tuples"]}
{"id": "C19", "title": "Direct operations are acknowledged only once durable", "statement": "When create, commit or delete returns successfully, the device already holds an index page that reflects the operation (or a later one on the same object), for every interleaving of concurrent operations with the background flush.", "quantifier": "every interleaving of operations and flush steps", "why_tests_cant": "lost wake-up and stale snapshot races depend on schedule", "anchors": ["libblobd-direct/src/tuples.rs: start_background_commit_loop,insert_object,update_object_state,delete_object"]}
{"id": "C20", "title": "Direct object creation succeeds while index space remains", "statement": "Creating an object does not fail for lack of index space as long as the number of stored objects is below the index's total capacity.", "quantifier": "every history of creates, deletes and flushes", "why_tests_cant": "failure only appears after filling and deleting within a particular page", "anchors": ["libblobd-direct/src/tuples.rs: insert_object,delete_object"]}
{"id": "C21", "title": "Direct operations behave like a simple keyed object store", "statement": "Executed one after another, create/write/commit/read/inspect/delete behave as a map from key to the last committed object: commit publishes the object's data and returns a fresh id, replaces and reclaims a previously committed object with the same key, or with if-not-exists leaves it and discards the new one; delete removes the key; operations on one key affect no other key.", "quantifier": "every sequence of operations over any keys", "why_tests_cant": "unbounded histories", "anchors": ["libblobd-direct/src/op/*.rs", "libblobd-direct/src/objects.rs"]}
{"id": "C22", "title": "Direct read returns exactly the uploaded bytes of the requested range", "statement": "Reading any accepted range of a committed object yields exactly those bytes in order, for every streaming buffer size, every alignment of the range and every page layout, and every stored read stays inside the object's pages.", "quantifier": "every object size, range, page configuration, stream buffer size", "why_tests_cant": "alignment padding, page boundary and buffer boundary cases multiply", "anchors": ["libblobd-direct/src/op/read_object.rs: unaligned_read,op_read_object", "libblobd-direct/src/op/write_object.rs"]}
{"id": "C23", "title": "No write lands in an object after its commit has returned", "statement": "Once commit has returned (or the object became readable as committed), no concurrent write call can change the object's bytes any more.", "quantifier": "every interleaving of any number of writers with the commit", "why_tests_cant": "schedules of lock acquisition cannot be enumerated", "anchors": ["libblobd-direct/src/object/mod.rs: lock_for_writing_if_still_valid,update_state_then_ensure_no_writers", "libblobd-direct/src/op/commit_object.rs", "libblobd-direct/src/op/write_object.rs"]}
{"id": "C24", "title": "Direct metadata record space is tracked exactly", "statement": "The space reserved for an object's metadata record at creation is the same space that is read when reopening and released when the object is reclaimed.", "quantifier": "every metadata length and page configuration", "why_tests_cant": "only lengths in particular intervals differ", "anchors": ["libblobd-direct/src/op/create_object.rs", "libblobd-direct/src/objects.rs", "libblobd-direct/src/op/delete_object.rs"]}
{"id": "C25", "title": "Reopening a direct store restores the committed objects", "statement": "After reopening, each key maps to the object whose commit was acknowledged last, and every page of every other object is free.", "quantifier": "every crash point and commit history", "why_tests_cant": "requires crash between commit of the new and removal of the old object", "anchors": ["libblobd-direct/src/objects.rs: load_objects_from_device"]}
{"id": "C26", "title": "A direct read never returns bytes of another object", "statement": "A read that overlaps a deletion (or replacement) of its object either returns the object's bytes or an error, never bytes of a different object that reused the space.", "quantifier": "every interleaving of a read with delete and subsequent create/write", "why_tests_cant": "schedule dependent", "anchors": ["libblobd-direct/src/op/read_object.rs", "libblobd-direct/src/op/delete_object.rs: reap_object", "libblobd-lite/src/op/read_object.rs"]}
{"id": "C27", "title": "Object-count metrics equal the objects that exist", "statement": "The reported counts of incomplete and committed objects and of object bytes equal the true totals after every sequence of operations, and never go below zero.", "quantifier": "every sequence of operations", "why_tests_cant": "counters drift only on particular paths", "anchors": ["libblobd-direct/src/metrics.rs", "libblobd-direct/src/op/*.rs", "libblobd-lite/src/metrics.rs", "libblobd-lite/src/op/*.rs"]}
{"id": "C28", "title": "Export yields every committed object once, in order, and can resume", "statement": "Exporting from a marker yields every committed object at or after the marker exactly once in increasing order with exactly its key, size and bytes; resuming from the marker where an earlier export stopped yields exactly the remaining objects.", "quantifier": "every set of objects, every marker, every stop point", "why_tests_cant": "unbounded sets and stop points", "anchors": ["libblobd-direct/src/exporter.rs"]}
{"id": "C29", "title": "KV keys and values survive index serialisation", "statement": "For every list of entries with non-empty keys that fits an index page, writing the page and reading it back gives the same entries: short keys literally, long keys by their hash, inline values byte for byte, large values by address and length.", "quantifier": "every list of entries, key length, value length 0..16 MiB, heap offset", "why_tests_cant": "variable-length encodings with tag bits; page-exactly-full case", "anchors": ["libblobd-kv/src/object.rs: ObjectTupleKey,ObjectTupleData,ObjectTuple,BundleDeserialiser,LogEntry"]}
{"id": "C30", "title": "KV accepts every key, including the empty one, without harming others", "statement": "Storing an object under any key the API accepts never makes objects under other keys unreadable.", "quantifier": "every key, including the empty key", "why_tests_cant": "one special key out of all keys", "anchors": ["libblobd-kv/src/object.rs", "libblobd-kv/src/op/write_object.rs"]}
{"id": "C31", "title": "KV log replay reproduces the flushed operations", "statement": "Replaying the log from its persisted head to its persisted tail yields exactly the operations flushed since the head, in order, whatever the padding and wrap-around positions.", "quantifier": "every sequence of flushes of any sizes, every log size and wrap position", "why_tests_cant": "wrap-around at each alignment and buffer boundary", "anchors": ["libblobd-kv/src/log_buffer.rs: load_from_device,start_flush_loop"]}
{"id": "C32", "title": "KV log never overwrites entries that are still needed", "statement": "A flush never writes over log bytes between the persisted head and tail, for every order in which concurrent flushes complete.", "quantifier": "every interleaving of flushes, completions and commits", "why_tests_cant": "concurrent flush completion order", "anchors": ["libblobd-kv/src/log_buffer.rs: start_flush_loop,start_commit_loop"]}
{"id": "C33", "title": "KV acknowledgements follow log order", "statement": "A write or delete is acknowledged only after its own record and every record before it in the log are on the device and covered by the persisted tail.", "quantifier": "every completion order of concurrent flushes", "why_tests_cant": "schedule dependent", "anchors": ["libblobd-kv/src/log_buffer.rs: start_flush_loop completer"]}
{"id": "C34", "title": "KV reads return the latest acknowledged write", "statement": "A read returns the value of the most recently acknowledged write to its key (or not-found after a delete), whether the value currently is in the log, being moved, or in the index, at every point of the background commit.", "quantifier": "every sequence of writes, deletes, reads and commit steps, any number of index pages, any hash function without collisions on the keys used", "why_tests_cant": "read position relative to commit steps", "anchors": ["libblobd-kv/src/log_buffer.rs: read_tuple,start_commit_loop", "libblobd-kv/src/op/read_object.rs"]}
{"id": "C35", "title": "KV recovers the acknowledged state after a crash", "statement": "If the process dies at any point, reopening yields for each key the latest acknowledged value, possibly with later unacknowledged operations applied.", "quantifier": "every crash point inside flush and commit", "why_tests_cant": "crash points between individual device writes", "anchors": ["libblobd-kv/src/log_buffer.rs", "libblobd-kv/src/lib.rs: load_and_start"]}
{"id": "C36", "title": "KV stored values own their heap space", "statement": "The heap extent of a value that can still be read is never handed out to another value, including after reopening.", "quantifier": "every history of writes, deletes, commits and reopens", "why_tests_cant": "needs reopen or crash at particular points", "anchors": ["libblobd-kv/src/allocator.rs", "libblobd-kv/src/log_buffer.rs", "libblobd-kv/src/lib.rs"]}
{"id": "C37", "title": "KV heap allocation is exact and disjoint", "statement": "Any history of value-space allocations and releases keeps live extents disjoint and inside the heap, rounds up by less than a small page, returns all space on release, and reports allocated space exactly.", "quantifier": "every sequence of sizes 1..16 MiB", "why_tests_cant": "fragmentation patterns are unbounded", "anchors": ["libblobd-kv/src/allocator.rs: Allocator"]}
{"id": "C38", "title": "KV range reads return exactly the requested slice", "statement": "Reading [start,end) of a stored value returns exactly those bytes when start<=end<=size and an out-of-range error otherwise, for inline and heap values and every alignment.", "quantifier": "every value, range, alignment", "why_tests_cant": "alignment arithmetic over all offsets", "anchors": ["libblobd-kv/src/op/read_object.rs"]}
{"id": "C39", "title": "An access token grants exactly its action until it expires", "statement": "A token is accepted for an action at a time exactly when it was issued by a holder of the secret for that same action and the time is strictly before its expiry; malformed tokens are rejected.", "quantifier": "every action, key, secret, time and token string", "why_tests_cant": "the token space is unbounded", "anchors": ["blobd-token/src/lib.rs: AuthToken,BlobdTokens", "blobd/src/endpoint/mod.rs: verify_auth"]}
{"id": "C40", "title": "Commit needs proof that every part was written", "statement": "A commit request is accepted only if, for every part of the object, the server earlier issued a receipt for that part of that upload; no sequence of server responses can be recombined into a valid set otherwise.", "quantifier": "every object size and every set of tokens and receipts a client can obtain", "why_tests_cant": "adversarial recombination of server-issued strings", "anchors": ["blobd/src/libblobd-*", "blobd/src/endpoint/commit_object.rs", "blobd/src/endpoint/write_object.rs", "blobd-token/src/lib.rs"]}
{"id": "C41", "title": "HTTP range requests follow the inclusive/exclusive rules", "statement": "bytes=a-b serves bytes a..b inclusive, bytes=a- serves from a to the end, a missing range serves everything; status, Content-Range and Content-Length describe exactly the body.", "quantifier": "every header form and object size", "why_tests_cant": "boundary combinations", "anchors": ["blobd/src/endpoint/read_object.rs"]}
{"id": "C42", "title": "Batch upload stores exactly the framed objects", "statement": "For every list of (key, data) pairs encoded in the batch body, however the body is split into network chunks, exactly those objects are created with that data, in order, and the reported count equals the number stored, also when the body is truncated or a creation fails.", "quantifier": "every list of entries and every chunking", "why_tests_cant": "frame boundaries versus chunk boundaries", "anchors": ["blobd/src/endpoint/batch_create_objects.rs"]}
{"id": "C43", "title": "Client and server agree on keys and ranges", "statement": "For every key and range the official clients accept, the server sees the same key and serves the same range the caller asked for.", "quantifier": "every key string and range", "why_tests_cant": "special characters in keys", "anchors": ["blobd-client-rs/src/lib.rs: build_url,read_object", "blobd-client-js/src/main.ts", "blobd/src/endpoint/mod.rs: parse_key"]}
{"id": "C44", "title": "Tokens made by the official clients are accepted by the server", "statement": "An access token produced by an official client library (Rust or JavaScript) with the server's secret for an action is accepted by the server for that action until it expires.", "quantifier": "every action, key, expiry and secret, for both client libraries", "why_tests_cant": "two independent serialisers must agree on every action and key; the client unit tests only check each library against itself", "anchors": ["blobd-client-js/src/tokens.ts: AuthToken.new", "blobd-token/src/lib.rs: AuthToken::new, AuthToken::verify"]}
{"id": "C45", "title": "Authorisation for one key confines writes and commits to that key", "statement": "A client that holds access tokens only for key A can write parts of, and commit, only uploads that were created for key A.", "quantifier": "every pair of keys and every upload token", "why_tests_cant": "must hold for every combination of access token and upload token, including ones obtained by other clients", "anchors": ["blobd/src/endpoint/write_object.rs: endpoint_write_object", "blobd/src/endpoint/commit_object.rs: endpoint_commit_object", "blobd/src/endpoint/mod.rs: parse_and_verify_upload_token"]}
{"id": "C46", "title": "Operation counters count the calls that succeeded", "statement": "Each reported operation count equals the number of calls of that operation that have succeeded so far.", "quantifier": "every history of concurrent calls", "why_tests_cant": "counters differ only on particular failure paths and schedules", "anchors": ["libblobd-direct/src/metrics.rs", "libblobd-direct/src/op/*.rs"]}
{"id": "C47", "title": "KV reclaims the space of superseded values", "statement": "Once a value has been overwritten or deleted, the heap space it used becomes available again, at the latest when the operation that superseded it has been committed.", "quantifier": "every history of writes, deletes and commits", "why_tests_cant": "the space is lost only for particular orders of overwrite and background commit, and shows only when the device fills up", "anchors": ["libblobd-kv/src/log_buffer.rs: start_commit_loop", "libblobd-kv/src/op/write_object.rs", "libblobd-kv/src/allocator.rs"]}
{"id": "C48", "title": "With lite versioning on, requests without an id see the most recently committed version", "statement": "When versioning is enabled, a read, inspect or delete that does not name an object id acts on the version of the key that was committed last.", "quantifier": "every history of creates and commits on a key with versioning on", "why_tests_cant": "depends on the order of commits relative to the order of creates of the same key", "anchors": ["libblobd-lite/src/op/commit_object.rs", "libblobd-lite/src/bucket.rs: find_object", "libblobd-lite/src/lib.rs: BlobdCfg.versioning"]}
{"id": "C49", "title": "A direct store spread over several partitions behaves like one keyed store", "statement": "However many partitions a direct store is configured with, and however keys hash to partitions, calls answer exactly as those of a store with one partition: a key committed through a token is found by reads, inspects and deletes of that key, a token is accepted by writes and commits, and calls on one key or token never affect another.", "quantifier": "every number of partitions, hash function, configuration and concurrent interleaving of calls", "why_tests_cant": "tests use one or two partitions and a few keys; wrong routing shows only for keys or tokens that hash elsewhere", "anchors": ["libblobd-direct/src/lib.rs:get_partition_index_by_object_key", "libblobd-direct/src/lib.rs:Blobd", "libblobd-direct/src/incomplete_token.rs:IncompleteToken"]}
{"id": "C50", "title": "Listing objects shows every committed object exactly once", "statement": "Listing the objects of a direct store while nothing changes yields every committed object once, with its key, size, id and creation time, and nothing else (no open uploads, no deleted or replaced objects).", "quantifier": "every history of concurrent calls, number of partitions and moment", "why_tests_cant": "a test compares the list after a few operations; the claim ranges over all histories", "anchors": ["libblobd-direct/src/lib.rs:list_objects", "libblobd-direct/src/lib.rs:BlobdListObjectsOutputObject"]}
{"id": "C51", "title": "Partitions that share a device never touch each other's bytes", "statement": "When several partitions are configured on the same device at places that do not overlap, every call behaves as if each partition had a device of its own; a partition only ever changes bytes of its own heap, never of another partition.", "quantifier": "every placement without overlap, history of concurrent calls and device contents", "why_tests_cant": "corruption of a neighbour shows only for particular offsets and interleavings", "anchors": ["libblobd-direct/src/backing_store/mod.rs:PartitionStore", "libblobd-direct/src/lib.rs:BlobdLoader::new", "libblobd-direct/src/lib.rs:BlobdCfgPartition"]}
{"id": "C52", "title": "With lite versioning on, every committed version stays until it is deleted", "statement": "When versioning is enabled, committing an object never removes or changes another: each committed version of a key is found under its object id, with its size and the bytes written to it, until that version itself is deleted; uploads, commits and deletions of other versions or keys make no difference.", "quantifier": "every history of overlapping calls, set of keys and pattern of hash collisions, with versioning on", "why_tests_cant": "a version could be lost only in particular orders of commits, deletes and journal flushes on one bucket", "anchors": ["libblobd-lite/src/op/commit_object.rs", "libblobd-lite/src/bucket.rs: find_object", "libblobd-lite/src/lib.rs: BlobdCfg.versioning"]}
{"id": "C53", "title": "A lite store's used space is exactly that of its objects", "statement": "Whenever no call is under way, the space of a lite store that is not free is exactly what its objects need: each object's size rounded up to small pages plus the page of its record. The space of deleted and replaced objects is free again, and a store whose objects are all gone is as good as a new one.", "quantifier": "every history of concurrent calls and every key collision", "why_tests_cant": "leaks show only after particular histories, and only as later creations failing", "anchors": ["libblobd-lite/src/op/create_object.rs", "libblobd-lite/src/op/delete_object.rs", "libblobd-lite/src/op/commit_object.rs", "libblobd-lite/src/bucket.rs: delete_object", "libblobd-lite/src/allocator/mod.rs"]}
{"id": "C54", "title": "A creation that fails takes no space", "statement": "When creating an object fails, because it does not fit or because its description is too large, the store can hold afterwards whatever it could hold before; no sequence of failing requests uses up space.", "quantifier": "every state of the store and every request", "why_tests_cant": "only the state the failed call leaves behind is wrong, which shows in later calls", "anchors": ["libblobd-lite/src/op/create_object.rs: op_create_object", "libblobd-direct/src/op/create_object.rs: op_create_object"]}
{"id": "C55", "title": "The HTTP server is a keyed object store, end to end", "statement": "Whatever requests are made of a server on a freshly formatted device, one after another, with and without valid access tokens, every answer is the one of a keyed object store: POST opens an upload (or the connection breaks when there is no room), PATCH stores a part of it or refuses it with the documented status, PUT with a receipt for every part publishes it under its key, GET and HEAD answer from the object last published under the key, DELETE removes it. In particular, data all of whose parts were acknowledged, and whose upload was committed with 201, is exactly what GET returns (or the requested range of it) until the key is deleted or replaced, whatever else happens in between.", "quantifier": "all request histories, access tokens, keyed hashes, sizes, part sizes, configurations and internal interleavings of the store's background steps", "why_tests_cant": "Needs all histories of requests over several components (routing, tokens, endpoints, store).", "anchors": ["blobd/src/server.rs:start_http_server_loop", "blobd/src/endpoint/create_object.rs:endpoint_create_object", "blobd/src/endpoint/write_object.rs:endpoint_write_object", "blobd/src/endpoint/commit_object.rs:endpoint_commit_object", "blobd/src/endpoint/read_object.rs:endpoint_read_object", "blobd/src/endpoint/inspect_object.rs:endpoint_inspect_object", "blobd/src/endpoint/delete_object.rs:endpoint_delete_object", "libblobd-direct/src/lib.rs:Blobd"]}
{"id": "C56", "title": "A batch upload stores exactly its frames, and they can be read", "statement": "A batch request that is answered has stored, in order, exactly the objects whose whole frames begin its body, the answer counts them, and each is served by GET and HEAD until deleted or replaced; every object the server says it stored can be read and deleted through the API.", "quantifier": "all request histories, bodies, chunkings of bodies, cut-off points, keys", "why_tests_cant": "All bodies and all their chunkings and truncations, followed by all histories.", "anchors": ["blobd/src/endpoint/batch_create_objects.rs:endpoint_batch_create_objects", "blobd/src/server.rs:start_http_server_loop", "blobd/src/endpoint/mod.rs:parse_key"]}
{"id": "C57", "title": "Data the HTTP server acknowledged survives kills and restarts", "statement": "When the server process is killed, between requests or while it handles one, and started again on the same partition, however often, every later answer is the one an uninterrupted object store would give: uploads keep their tokens and written parts, acknowledged objects are served unchanged until deleted or replaced, and a request that got no answer has at most the effects of that request (a POST may leave an upload nobody has a token for, a PATCH an undetermined part, a batch its first objects; a PUT or DELETE happened entirely or not at all). The server can be started again.", "quantifier": "all request histories, kill points, numbers of restarts, loading orders of the index, upload and batch contents", "why_tests_cant": "Every kill point of every request in every history, and every history after it.", "anchors": ["blobd/src/server.rs:start_http_server_loop", "blobd/src/endpoint/create_object.rs:endpoint_create_object", "blobd/src/endpoint/write_object.rs:endpoint_write_object", "blobd/src/endpoint/commit_object.rs:endpoint_commit_object", "blobd/src/endpoint/read_object.rs:endpoint_read_object", "blobd/src/endpoint/inspect_object.rs:endpoint_inspect_object", "blobd/src/endpoint/delete_object.rs:endpoint_delete_object", "libblobd-direct/src/lib.rs:Blobd", "libblobd-direct/src/objects.rs: load_objects_from_device", "libblobd-direct/src/tuples.rs: load_tuples_from_raw_tuples_area"]}
{"id": "C58", "title": "blobc put stores the file", "statement": "When blobc put reports success, GET of the destination key (as it arrives at the server) returns exactly the bytes that were read from the file, and their number is the size announced, in whatever order the tiles were written and whatever other clients request meanwhile, until the object is deleted or replaced. A file of any size can be put as long as the store has room and the tokens have not expired.", "quantifier": "all files, read sizes, keys, server page sizes, orders of the tile writes, interleaved requests of other clients and internal schedules of the store", "why_tests_cant": "the tiles are written concurrently in any order, the page size of the server is configurable while the tile size of the client is fixed, and other clients' requests interleave freely; tests see one page size and few orders", "anchors": ["blobc/src/put.rs: cmd_put", "blobd-client-rs/src/lib.rs: create_object, write_object, commit_object", "blobd/src/endpoint/write_object.rs", "blobd/src/endpoint/commit_object.rs"]}
{"id": "C59", "title": "blobc upload-dir stores the files of a directory", "statement": "After blobc upload-dir of a directory, every file of the directory is stored under the prefix followed by its path, with its bytes; nothing else that is stored changes.", "quantifier": "all file systems, directories (absolute and relative paths), prefixes, points at which the request breaks off, request histories before and after, and internal schedules of the store", "why_tests_cant": "which entries the walk yields, how their paths are joined and when the request body fails depend on the whole file system; the command has no tests, and a test sees one directory", "anchors": ["blobc/src/upload_dir.rs: process_dir_ent, cmd_upload_dir", "blobd-client-rs/src/lib.rs: batch_create_objects", "blobd/src/endpoint/batch_create_objects.rs"]}
{"id": "C60", "title": "Reads that begin after a commit or delete returned see its effect", "statement": "With any number of calls running at the same time on a partition: a read or inspect of a key that begins after a commit for that key returned shows the committed object (its id, the size given at creation, the bytes written to its parts by writes that returned before the commit began), and one that begins after a delete returned finds nothing, provided no other call that may change that key overlaps the time from the beginning of the commit or delete to the end of the read. Calls on other keys, other reads, creations, the index flusher and the device may interleave in any way.", "quantifier": "every interleaving of any number of concurrent calls, flusher and device steps, all keys, contents, ranges", "why_tests_cant": "the property is about every schedule: whether a stale lookup, a missed publication or a write to a shared page is visible depends on where the tasks interleave", "anchors": ["libblobd-direct/src/op/commit_object.rs:op_commit_object", "libblobd-direct/src/op/read_object.rs:op_read_object", "libblobd-direct/src/op/inspect_object.rs:op_inspect_object", "libblobd-direct/src/op/delete_object.rs:op_delete_object", "libblobd-direct/src/op/write_object.rs:op_write_object", "libblobd-direct/src/object/mod.rs:Object"]}
{"id": "C61", "title": "Answered uploads and deletes are seen by requests that arrive later, with any number of requests in flight", "statement": "While the HTTP server handles any number of requests at the same time: if the parts of an upload were written by PATCH requests answered 202 before its PUT arrived (no other PATCH to the same part overlapping), the PUT was answered 201 before a GET or HEAD of the key arrived, and no other request that may change the key overlaps, the GET is answered with exactly the uploaded bytes (the requested range of them) and the HEAD with their length; likewise, after a DELETE was answered 200 or 404, a later GET or HEAD is answered 404. Requests for other keys may overlap freely.", "quantifier": "every server configuration, partition size, number of concurrent requests, and every interleaving of the handlers, of the steps of their storage calls and of index flushes", "why_tests_cant": "The number of interleavings of handlers and of the storage steps of each call is unbounded; tests exercise a few schedules chosen by the runtime.", "anchors": ["blobd/src/server.rs start_http_server_loop", "blobd/src/endpoint/create_object.rs", "blobd/src/endpoint/write_object.rs", "blobd/src/endpoint/commit_object.rs", "blobd/src/endpoint/read_object.rs", "blobd/src/endpoint/inspect_object.rs", "blobd/src/endpoint/delete_object.rs", "blobd-direct/src/op/commit_object.rs", "blobd-direct/src/op/read_object.rs"]}
{"id": "C62", "title": "Every device access of a partition is block-aligned and inside the partition", "statement": "While a direct partition serves calls, every read and write it issues to its device for metadata records and object data starts at a multiple of the device's block (small-page) size, is a non-zero multiple of it long, and lies within the partition's heap - as O_DIRECT demands and so that no call ever touches bytes outside its partition. Nothing else of the device is touched: the bytes a step changes are within such a write, and what a call returns depends on no byte outside such a read.", "quantifier": "every configuration, every history of calls since formatting (one process lifetime) with any number of calls in progress, every interleaving, every torn write in progress, every range of every read and every chunking of every upload", "why_tests_cant": "A test issues a few sizes and offsets; an unaligned or out-of-range access appears only for particular combinations of object size, page layout, read offset and stream buffer size, and O_DIRECT failures depend on the device.", "anchors": ["libblobd-direct/src/backing_store/mod.rs PartitionStore, BoundedStore", "libblobd-direct/src/backing_store/file.rs FileBackingStore", "libblobd-direct/src/backing_store/uring.rs UringBackingStore", "libblobd-direct/src/op/read_object.rs unaligned_read, op_read_object", "libblobd-direct/src/op/write_object.rs op_write_object", "libblobd-direct/src/op/create_object.rs op_create_object", "libblobd-direct/src/util.rs floor_pow2, ceil_pow2"]}
{"id": "C63", "title": "The stress tester passes on the direct store, and passing means something", "statement": "The stochastic stress tester, run against a formatted direct partition with any number of objects and workers, never fails an assertion or an unwrap unless the store runs out of space on a create. Conversely, whatever the store, once the tester is done with an object it has seen it created, written completely, committed, inspected with the right id and size, every byte read back with the value written, and deleted; any error, panic, wrong id, size or byte, or stream of the wrong length makes the worker of that object fail. Through the kv adapter objects larger than a large page make a worker panic.", "quantifier": "every configuration, pool, hash, choice of read ends, number of objects, interleaving of workers and of the store's internal steps; for the second part every sequence of store results", "why_tests_cant": "one run of the tester samples one schedule and one set of random sizes; that it can neither fail on a correct store nor pass on a wrong one quantifies over all of them", "anchors": ["stochastic-stresser/src/main.rs", "store/src/direct.rs BlobdDirectStore", "store/src/kv.rs BlobdKVStore::write_object"]}
{"id": "C64", "title": "The stores compared in the benchmark keep the same contract", "statement": "Each store behind the benchmark's Store interface that is not blobd itself (a directory of files, RocksDB, the kv store, S3) does what the interface says: an upload begun where there is nothing, written part by part in any order, each part once, and then committed, leaves exactly the bytes written, in order; inspecting gives their number, reading a range that lies within the object gives exactly those bytes, deleting makes the key free again, calls on one key never show on another, and no such call panics or hangs. Nothing can be seen of an upload before its commit.", "quantifier": "every history of create, write, commit, inspect, read and delete calls on any keys, interleaved between keys; all sizes, part orders and ranges; every part size, directory depth, hash and way the system splits a read", "why_tests_cant": "A benchmark run uses one access pattern and checks no bytes; the ranges, sizes, keys and orders at which an adapter goes wrong are unbounded.", "anchors": ["store/src/fs.rs FileSystemStore", "store/src/rocksdb.rs RocksDBStore", "store/src/kv.rs BlobdKVStore", "store/src/s3.rs S3Store", "store/src/lib.rs Store"]}
{"id": "C65", "title": "The benchmark runs to its end on any store that keeps the contract, and an ended run has read everything back", "statement": "On every store that keeps the contract of C64 for the calls asked, the benchmark never panics, fails a comparison or hangs, whatever the order of its concurrent calls; it ends after a fixed number of calls, having created, written in all its parts, committed, inspected, read at a random place, read from end to end and deleted every object once and in that order, and leaves nothing stored (or, when told not to delete, exactly the written bytes). Conversely, when a run has ended, every byte of every object was returned by the store and was right.", "quantifier": "every store that keeps the contract; every number and size of objects, part size, read size, pool of random bytes, choice of random offsets, shuffle and interleaving of the tasks of a phase", "why_tests_cant": "A run exercises one store, one configuration and one interleaving; that the numbers compare like with like depends on what every store returns in every order.", "anchors": ["benchmark-runner/src/main.rs run_benchmark", "store/src/lib.rs Store"]}
{"id": "C66", "title": "The blobd-lite store of the benchmark keeps the contract while there is room", "statement": "Of the store interface the benchmark drives (C64's contract), the blobd-lite one answers every call made in its turn: each call comes to an end and what is read, inspected and deleted is what was written in parts and committed under that key, except that the creation of an object may be refused; it is refused only when the object's record is too large for a large page or the pages have run out. On it (and on any store that is right but may refuse to create) a failed benchmark has failed in creating objects; past that it runs through.", "quantifier": "every formatted lite store, hash function, history of calls in turn on any keys and sizes below 2^40 bytes, choice of object ids and times, and moments of the journal", "why_tests_cant": "one history of calls on one device says nothing of all other orders of parts, sizes, bucket collisions and journal passes", "anchors": ["store/src/lite.rs:BlobdLiteStore", "libblobd-lite/src/op", "benchmark-runner/src/main.rs"]}
{"id": "C67", "title": "The blobd-direct store of the benchmark never gives a wrong answer", "statement": "Of the store interface the benchmark drives (C64's contract), the blobd-direct one with any number of partitions gives only right answers to calls made in their turn: parts written under a token, in any order, and committed are the bytes that are read and the size that is inspected under that key, whatever partition it hashes to, and deletion succeeds; no such call fails, except that a creation may be refused. Hence a benchmark that fails on it has failed in creating objects.", "quantifier": "every number and geometry of formatted partitions with one large-page size, hash function, history of calls in turn on any keys and sizes, choice of ids and times, and behaviour of the index flushers and of the devices", "why_tests_cant": "one history of calls says nothing of all other orders of parts, sizes, assignments of keys to partitions, and moments of the flushers", "anchors": ["store/src/direct.rs:BlobdDirectStore", "libblobd-direct/src/lib.rs:Blobd", "benchmark-runner/src/main.rs"]}
{"id": "C68", "title": "Every create, commit and delete on the direct object index is acknowledged", "statement": "At any moment, whatever creates, commits and deletes have been made on a partition's object index and whatever pages are being written, if no further call comes the background flush has a fixed finite number of steps left: it never takes more, it is never stuck before that, and afterwards every call made so far has been acknowledged. A flush pass that finds nothing to write never discards a waiting caller.", "quantifier": "every initial index, every valid history of calls, every interleaving with flush steps, every order of the page writes", "why_tests_cant": "a lost wake-up or a stuck flush shows only in particular schedules; tests see one schedule and cannot see that something never happens", "anchors": ["libblobd-direct/src/tuples.rs: start_background_commit_loop,insert_object,update_object_state,delete_object"]}
{"id": "C69", "title": "Every lite create, commit and delete that has begun returns", "statement": "At any moment, whatever transactions have been handed to the lite journal, if nothing more is committed its background tasks have a fixed finite number of steps left: they are never stuck before, and then every transaction has been acknowledged, in order of commitment, and is on the device. Every create, commit and delete that has begun returns, however the remaining steps are scheduled, and afterwards nothing is left in the journal.", "quantifier": "every history of transactions, every timing of flusher and timer, every order of entry writes, every schedule of the remaining steps, with and without versioning", "why_tests_cant": "that something always happens in the end, under every schedule, cannot be observed by running some schedules", "anchors": ["libblobd-lite/src/journal/real.rs: commit_transaction,start_loop,start_time_threshold_loop", "libblobd-lite/src/op/create_object.rs", "libblobd-lite/src/op/commit_object.rs", "libblobd-lite/src/op/delete_object.rs"]}
{"id": "C70", "title": "Every KV operation whose batch has been cut is acknowledged", "statement": "At any moment after formatting, crashes and re-openings included: if nothing more arrives, then in whatever order the device writes of the log batches cut so far end and are handed over, none of them is stuck, all of them are taken, and every operation received since (and not still being collected for the next batch) is acknowledged.", "quantifier": "every configuration that is a whole number of pages, every history of operations, batches, torn writes, commits and crashes, every schedule of the remaining steps", "why_tests_cant": "batches complete out of order and are acknowledged in order; a gap that is never closed shows only in particular schedules", "anchors": ["libblobd-kv/src/log_buffer.rs"]}
