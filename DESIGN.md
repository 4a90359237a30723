# A Rocq (Coq 8.16.1) model of wilsonzlin/blobd

The source is /repo, read as text only.  Nothing is compiled or run from it.
This file says what is modelled, how each property (`properties.jsonl`) is
treated, what has to be trusted, and what the model showed to be false of the
code.  `MANIFEST.json` maps properties to theorems.

## Conventions

* `theories/…Model.v`: executable Gallina model, each definition with the file
  and lines it models.  No proofs there.
* `theories/…Spec.v` (or the head of the Properties file): the small independent
  specification the theorem statements use.
* other `theories/….v`: invariants, simulations and lemmas.
* `theories/Properties….v`: the property theorems, each with `Print
  Assumptions`, together with an `…example` (or a refutation run) showing a
  concrete non-trivial case that meets the hypotheses.
* Rust `assert!`, `unwrap`, index out of bounds and checked arithmetic are
  explicit error values (`None` / `Panic …`), never default values.
* A property that the faithful model violates gets a `…_refuted` theorem: a
  reachable run of the model, with its concrete inputs, that contradicts the
  claim; and a `…_partial` theorem with the strongest part that holds.
* Concurrency: a call is a process; a step is what the code does between two
  points where another task could be observed (under one lock, or one device
  access).  Runs are arbitrary interleavings; crashes are arbitrary prefixes.

## Plan per property

| id | what is modelled | how it is proved |
|----|------------------|------------------|
| C01–C04 | lite/direct buddy allocator (`allocator/mod.rs`), state = one set of free page numbers per size class (BuddyModel) | invariant over histories: free and live pages tile the heap; induction on the split/merge recursion |
| C05 | `calc_object_layout` (LayoutModel) | induction over the highest-bit loop; sum/ordering lemmas; 4 GiB large pages refuted |
| C06 | `TailPageSizes` bit packing on two 64-bit words | refinement to a list, bit lemmas |
| C07 | lite metadata record codec (MetaModel) | offsets and BE/LE integer codec round trip; ≥ 2^40 refuted |
| C08, C09, C22 | read/write page arithmetic over a byte-function device, any interleaving of writers (PageIOModel) | loop invariants on the streamed prefix, system invariant over interleavings |
| C10 | the write loop over an arbitrary chunk stream | refuted for truncation (the loop state repeats for ever); proved for exact, failing, overlong streams |
| C11 | `WriteMerger` (JournalModel) | invariant: sorted, disjoint, lookup = sequential application |
| C12 | journal flusher as a sequence of device writes, crash at any prefix, `recover` as it is | refuted; partial: acknowledged implies applied |
| C13 | whole lite store (LiteModel): chains on device, overlay, journal, allocator, record codec, page I/O | refinement to a keyed store (LiteSpec) by a simulation with an invariant over chains, overlay and journal |
| C14 | same, concurrent calls | refuted; the same simulation for histories that do not remove inner chain objects under a pending call |
| C15 | `load_buckets`, `load_object_list` | refuted (shift direction; unmarked record pages); empty store proved |
| C16 | region layout arithmetic of the three loaders (RegionModel) | refuted for lite (ceil) and kv (overlap); proved for direct |
| C17–C20 | direct tuples (TuplesModel) | codec round trip; invariant over call/flush interleavings; durability over prefixes; C20 refuted + partial |
| C21 | whole direct partition, every operation stepwise concurrent (DirectModel) | forward simulation to a concurrent specification (DirectSpec), then to a sequential map (DirectSeqSpec) |
| C23 | same, plus dropped futures (DirectCancelModel) | history invariant; refuted for dropped writes |
| C24 | same, ownership of pages | invariant: allocator state = exactly the space of existing objects; refuted for metadata records of 3, 5–7, … small pages |
| C25 | `objects.rs` loader, MessagePack decoding (DirectLoadModel), sessions and crashes | invariant connecting device, index and memory; a second invariant (DirectOld) ties the record of every object being removed to what its key once had, so a kill in the middle of commits and deletes is described exactly (`crash`, DirectRestartSpec; an upload that is back after it is that of the commit under way); four refutations |
| C26 | read stream versus delete/reuse | refuted; partial while the object exists |
| C27, C46 | metrics of the direct store (over any number of sessions) and the object counters of the lite store | invariant with the contributions of calls under way; invariant of the loader; refuted transients; lite metadata and incomplete counters refuted |
| C28 | exporter (ExportModel) | sorted-list lemmas on top of C25's invariant |
| C29, C30 | kv tuple/bundle codecs (KvCodecModel) | round trip; empty key refuted |
| C31–C33 | kv log ring: writer, flushes, completer, commit, replay (KvLogModel) | system invariant; wide wrap and misalignment refuted |
| C34–C36 | whole kv store (KvStoreModel): overlay, commit steps, index pages, heap, opening | invariant + abstract operation list; crash at every state; refutations |
| C47 | same; ownership invariant parameterised by "nothing lost" (PropertiesKvSpace) | refuted in general; positive theorem for runs with no overwrite of a large value inside one commit |
| C37 | kv heap allocator (KvAllocModel) | invariant over histories; metric refuted |
| C38 | kv range read (KvReadModel) | arithmetic |
| C39, C40, C44, C45 | tokens with an abstract MAC that theorem statements quantify over (TokenModel) | acceptance iff; receipts and key binding refuted; JS serialiser refuted |
| C41–C43 | range header, batch framing, key encoding, clients (HttpModel) | functional correctness, refutations |
| C48 | lite store with versioning | refuted by a run of LiteModel; holds when versions are committed in creation order: simulation of LiteModel by the store with versions (LiteVerSpec, LiteVerSim), then induction over its histories |
| C49, C50 | several partitions (ClusterModel): routing by key hash and by token, `list_objects` | merge of the per-partition simulations (ClusterSim, ClusterInv) into one specification history |
| C52 | lite store with versioning: all versions kept | the same simulation; a committed version is unchanged by every step but its own deletion |
| C53, C54 | space of the lite store; failing creations of both stores | the simulation's invariant with the pages lost by failed creations, none otherwise; allocator states are determined by the pages held; refuted by computed histories |
| C55, C56 | the whole HTTP server on a direct partition | handlers as programs that call the store (ServerModel); per-request refinement of a keyed object store (ServerSpec) on top of C21's sequential specification and the token lemmas; induction over histories; empty-key objects refuted |
| C57 | the HTTP server over kills and restarts | events (answered, lost, killed) and the effects a lost request may have (ServerCrashSpec); a handler may be cut at any point; composes the per-request refinement (C55) with the session refinement (C25): the specification state after a clean crash is again the sequential state (ServerCrash); kills during a commit or delete (ServerKill*): where the pending call began is found in the history, its effect after the crash is read off C25's `crash` relation with what its key had before, giving all-or-nothing PUT and DELETE; such a kill may be the last one only (C25 refutes a second), inexact records and panicked handlers excluded, hence _partial |
| C58 | blobc put stores the file | the requests of the client and what it does with the answers (PutModel), as part of a history of the server (ServerSpec); the receipts and part checks force tile i to be part i, so uploaded data is served (C55); which files can be put at all, by inversion of the specification's answers |
| C59 | blobc upload-dir stores the files of a directory | the entries the client sends and the body they make, for any file system and walk (UploadDirModel); which frames can begin such a body; composed with C56; refuted for directories, proved for a single file |
| C60 | reads that begin after a commit or delete returned see its effect | the concurrent specification of C21 with positions in the history (DirectReal): between the commit's publication and the end of the read only calls that may change the key could change it, and none overlaps; the same counting for the writers of a part; transferred to the partition by C21's refinement |
| C61 | the same for requests to the HTTP server in flight at the same time | handlers as tasks that make the calls of ServerModel and wait for them (ServerConcModel); an invariant gives each handler its calls and their place between arrival and answer (ServerConc), so requests apart in time make calls apart in time, and C60 applies; the answers follow by C55 |
| C62 | device accesses are aligned, inside the heap, and all there is | which device range each call in progress asks for (PropertiesIo.accesses); pages of objects are allocated pages, which C01's allocator invariant places on multiples of their size inside the heap; `unaligned_read` and the padded lengths stay inside one page; a step is a function of the bytes it asks for; the same in later sessions and for the metadata pages read on opening (PropertiesIoSessions) |
| C63 | the stress tester passes on the direct store; passing means the data was read back | StressModel: the tester's tasks and assertions (stochastic-stresser/src/main.rs) and the direct adapter, interleaved with the store's labels; an invariant ties each object's task to the abstract store of C21 (its upload's parts, its committed bytes) and calls of other objects leave it alone; for any store, an induction over the run collects what each finished task saw. kv adapter: second part refused |
| C64 | the stores compared in the benchmark keep the same contract | StoreModel: the fs, RocksDB, kv and S3 adapters over documented models of their systems (files with partial reads, maps, multipart uploads); StoreSpec: a state machine per key; per-adapter invariant tying each key's file/entry/upload to that machine; induction over histories. Necessity of each exclusion proved by universal failure theorems |
| C65 | the benchmark runs to its end on any store that keeps the contract, and an ended run has read everything back | BenchModel: phases and tasks of benchmark-runner/src/main.rs interleaved freely over any adapter of StoreModel; invariant: each task's position determines its key's state in the contract's machine; a measure that falls by one each step gives the exact length of a run. Second half refuted: any store made to return nothing still passes; S3's extra byte passes |
| C66 | the blobd-lite store of the benchmark keeps the contract of C64 while there is room | StoreLite: the adapter of store/src/lite.rs:89-199 over LiteModel (the whole store, with its journal, overlay and allocator). Invariant: the ghost map of C13 restricted to the keys is the contract's machine; liveness: from every state reached the journal can be driven until the call is done. Calls follow each other (the adapter starts a call when nothing is in progress); overlapping calls of one lite store are C13's and C14's subject. Refuted for empty ranges, which lite refuses |
| C67 | the blobd-direct store of the benchmark answers right | StoreDirect: the adapter of store/src/direct.rs:110-204 over DirectModel's partitions, and the choice of a partition by the hash of the key or by the token (libblobd-direct/src/lib.rs:248-330). One partition: every sequential history is one of C21's specification, whose every run agrees with the contract's machine. Several: a product theorem for any adapter. Safety only: that a call ends is not claimed |
| C68 | every update of the direct object index is acknowledged | TuplesModel (as for C17-C20); TuplesLiveSpec: the flusher's own steps, in any order, with no further call. Proof: the pages left to write plus the pages changed since the snapshot bound the steps left exactly, every step lowers that number by one, none is stuck (the pages written fit, by the invariants of C19), and a call not yet acknowledged is on the list of the current or of the next pass; the idle pass, which also empties that list, finds it empty |
| C69 | every lite update that has begun is acknowledged and ends | JournalModel and LiteModel (as for C11-C14, C52); LiteLiveSpec: steps without any new call, and `comes_to`: every schedule of them gets there. Proof: the entries left to write give the exact number of journal steps left; signals acknowledged, being flushed, queued and pending are always all the signals in order; for the store, creations left and then journal steps plus waiting calls decrease lexicographically; no step panics by C14/C52 (calm histories). In the others every call still gets to its end, where it returns or panics releasing its pages (`C69_every_call_ends_or_panics`); and one in which a deletion does panic is given (PropertiesLiteStuck.v, `C69_a_deletion_panics_refuted`) |
| C70 | every operation of a batch the kv log has cut is acknowledged | KvLogModel (as for C31-C33); KvLogLiveSpec: the steps of batches already cut and `comes_to`: every schedule of them gets there. Proof: every batch not yet taken by the completer is in flight or in its backlog and its writes fit the ring; batches outstanding, and then device writes plus operations being applied, decrease lexicographically; operations since the chosen moment are acknowledged once taken. That the writer cuts a batch at all needs room in the log (it panics otherwise, log_buffer.rs:688) and is not part of it |
| C51 | partitions on shared devices (ShareModel): offsets of `PartitionStore` | every step changes heap bytes only; bytes outside the heap do not matter |

## Trusted base

* Coq 8.16.1's kernel (including `vm_compute`, used for the concrete runs of
  examples and refutations; no `native_compute`).
* `Print Assumptions` prints *Closed under the global context* for every
  property theorem: they use no axiom at all.  (`vcheck` also lists
  `Coq.ssr.ssrunder.Under_rel.{Over_rel, Under_rel, Under_relE,
  Under_rel_from_rel, over_rel, over_rel_done, under_rel_done}` as
  `library_axioms`: these are the parameters of a sealed module of Coq's own
  standard library which std++ loads; no theorem here depends on them.)
* Libraries: Coq's standard library and std++ (definitions and proved lemmas
  only).  No axioms, functors, module types or plugins of our own; no kernel
  check switched off; no `Admitted`.
* That the model says what the Rust code does: each definition cites its lines.
  This reading is by hand; nothing connects the model to the compiled code.
* Arithmetic: u64/u32/u128 values are unbounded `N` with explicit bounds or
  explicit wrap-around where the code can reach the bound (release builds wrap;
  the models say which is assumed).

## What is modelled, what is not

| code | model | left out or simplified |
|------|-------|------------------------|
| libblobd-lite/src/allocator/*, libblobd-direct/src/allocator, object/tail.rs, pages.rs | BuddyModel, LayoutModel | RoaringBitmap is a finite set |
| libblobd-lite/src/object.rs, op/create_object.rs | MetaModel | – |
| libblobd-{lite,direct}/src/op/{read,write}_object.rs | PageIOModel | device = function from address to byte; a device write may land in any pieces where the property is about crashes, otherwise at once |
| libblobd-lite/src/journal/{merge,real}.rs | JournalModel | blake3 is a parameter; mock journal not modelled |
| libblobd-lite/src/{bucket,overlay,lib}.rs, op/* | LiteModel, LiteMetricsModel | the locked part of a call is one step; lock timings not modelled, nor what opening adds to the counters; ids never repeat |
| libblobd-{lite,direct,kv}/src/lib.rs, partition/mod.rs: device regions | RegionModel | – |
| libblobd-direct/src/lib.rs: routing, list_objects; backing_store/mod.rs: PartitionStore | ClusterModel, ShareModel | the index area on the shared device; listing while calls run |
| libblobd-direct/src/tuples.rs, object/mod.rs | TuplesModel | one page write is atomic (the code relies on it) |
| libblobd-direct/src/op/*, ctx.rs, metrics.rs, incomplete_token.rs | DirectModel, DirectCancelModel | one partition; random ids never repeat; io_uring and file back ends are one abstract device |
| libblobd-direct/src/objects.rs | DirectLoadModel | – |
| libblobd-direct/src/exporter.rs | ExportModel | – |
| libblobd-kv/src/{object,util}.rs | KvCodecModel | blake3 parameter |
| libblobd-kv/src/log_buffer.rs | KvLogModel, KvStoreModel | threads/channels as steps; 4 KiB state page write atomic; metrics left out |
| libblobd-kv/src/allocator.rs | KvAllocModel | – |
| libblobd-kv/src/op/*, lib.rs | KvReadModel, KvStoreModel | – |
| blobd/src/{server,main}.rs (routing, one partition) | ServerModel; ServerConcModel for requests in flight at the same time | CORS and tracing layers, query-string parsing |
| blobd-token, blobd/src/endpoint/*, blobd-client-rs, blobd-client-js | TokenModel, HttpModel | axum/hyper, TLS, base64, MessagePack, URL parsing are modelled from their documentation |
| blobc/src/put.rs, upload_dir.rs | PutModel, UploadDirModel | the file system is any function from paths; progress bars; get.rs is C43's read request |
| stochastic-stresser/src/main.rs, store/src/direct.rs | StressModel | progress counters, logging, number of workers; of store/src/kv.rs only write_object |
| store/src/{fs,rocksdb,s3}.rs, kv.rs | StoreModel | metrics, client set-up, wait_for_end; the file system, RocksDB, S3 (from their documentation; no key-length limit of S3, no failures or crashes) and kv (by C34's specification); each call takes effect at one moment |
| benchmark-runner/src/main.rs 378-735 | BenchModel | clocks, percentiles, memory/CPU/disk counters, cache dropping, scripts, the report; `start + read_size` taken not to wrap; a stream is one chunk |
| **not modelled** | | backing_store/{file,uring}.rs, device/{real,mock}.rs, journal/mock.rs; blobd conf; store/lite.rs (adapter); benchmark-{plotter,types}, the rest of benchmark-runner; tracing, statsd |

## What the model showed to be false

Each has a `…_refuted` theorem with a concrete run.

* Layout/record/page I/O: 4 GiB large pages panic (C05); sizes ≥ 2^40 are stored
  truncated (C07); part offsets near 2^64 overwrite tail pages (C09); a stream cut
  inside a page makes the write call spin for ever, a trailing empty chunk panics
  (C10); stream buffer size 0 loops (C22).
* Lite: `recover` is a TODO, so a crash while the journal is applied tears a
  transaction, and a replacement can lose both versions (C12); deleting an inner
  chain object next to a pending call brings it back, makes chains cyclic, or
  commits the next owner of its page, and a lookup spanning a flush misses a
  present object (C14); reopening shifts heads the wrong way and does not reserve
  record pages (C15); the heap is rounded up beyond the device (C16); with
  versioning the version created last wins (C48); a record's bytes are counted in
  and its page's bytes out, an open upload is never counted (C27); a creation that
  fails for lack of space keeps the pages it took (C54).
* Direct: deletions do not return index slots (C20); a dropped write lands after
  commit (C23); metadata records of 3 small pages leak space (C24); acknowledged
  commit lost on restart, long keys and second crashes make opening panic, deleted
  object back (C25); read overlapping delete returns other bytes (C26); counters
  transiently negative or permanently wrong (C27, C46);
  replaced object exported (C28); failing creations keep the pages they took (C54).
* KV: empty key (C30); log wrap wider than the replay buffer, log length not a
  multiple of the page (C31); full index page loses acknowledged writes, read
  racing with release (C34); re-opened log frees live values (C35, C36);
  allocated-bytes counter never falls (C37); superseded values never freed (C47);
  heap region overlaps log (C16).
* HTTP/tokens: receipts double as upload tokens (C40); suffix ranges, last
  position u64::MAX, empty bodies (C41); over-long keys in batches (C42); batch objects with an empty key cannot be read or deleted (C56); dot
  segments and reserved characters in keys, inclusive/exclusive range mismatch
  (C43); JS tokens rejected (C44); uploads not bound to keys (C45).
* Stress tester: through the kv adapter any object larger than a large page makes a
  worker panic, and a panicking worker leaves the tester waiting forever (C63).
* The comparison stores: S3 ranges return one byte too many (HTTP ranges are inclusive) and
  fail at the end of an object; empty objects cannot be committed to S3 and vanish on RocksDB
  and kv; the file store's ranged read panics or spins when it takes more than one read and
  ends before the file; uploads to files, RocksDB and kv are visible before commit (C64).
* Benchmark: it compares what arrives but not how much: a store that returns nothing
  passes; S3's extra bytes pass; empty objects on RocksDB or kv panic at inspection (C65).
* blobd-lite as a store of the benchmark: `Store::start`, `wait_for_start/end` and the metrics are not modelled;
  calls with an explicit object id are not made by the benchmark and not modelled (C66, and C67 for blobd-direct).

## Testing the theorems

`seeded/LOG.jsonl` records, for each deliberate bug put into a copy of the model,
which lemmas and theorems stopped proving.
