# Formal model of FaVe's vector index and document client

Target: fairDataSociety/FaVe (Go), read as text from `/repo`; nothing is built or run.
Prover: Rocq/Coq 8.16.1, logical root `Verif` = `rocq/theories/`.

## Layout

| file | content |
|------|---------|
| `Base.v` | result type (`Ok/Err/Panic/OutOfFuel`), association maps, list helpers |
| `F32.v` | float32 values (`SpecFloat`, prec 24, emax 128), Go comparison operators, order lemmas |
| `PQ.v` / `PQProofs.v` | array heap of `priorityqueue/queue.go` and its correctness |
| `Visited.v` / `VisitedProofs.v` | `visited/list_set.go`, `visited/pool.go` |
| `Distancer.v` / `DistancerProofs.v` | `distancer/*.go`, block structure of `distancer/asm/*.s` |
| `Graph.v` | vertex, node store (cache over key-value table), `nodeByID`, `vertex.go` |
| `VertexFacts.v` | re-selected links written one by one, as the code does, are the list the model writes |
| `Search.v` / `SearchProofs.v` | `searchLayerByVector`, `KnnSearchByVectorMaxDist`, `knnSearchByVector`, `flatSearch` |
| `SearchLayer.v`, `SearchKnn.v`, `SearchCount.v`, `SearchCong.v`, `SearchSched.v` | loop invariants, queries, operation count, congruence in the node view, schedule independence |
| `Insert.v` | `heuristic.go`, `neighbor_connections.go`, `insert.go`, `findBestEntrypointForNode` |
| `HeuristicProofs.v`, `Insert{Proofs,Hist,Total,Dim,Small,Ep,Facts,Find}.v` | invariants over insertion histories, small collections |
| `Persist.v` / `PersistProofs.v`, `PersistHist.v` | `Flush`, `LoadEntrypoint`, `GetDocCount`, restart, crash points |
| `LRU.v` / `LRUProofs.v` | the bounded node cache |
| `Client.v` / `ClientProofs.v`, `ClientSafe.v`, `ClientFacts.v`, `ClientReq.v`, `ClientIds.v`, `ClientSmall.v` | `AddDocuments`, `GetNearDocuments*`, `GetDocument`, add handler, fetch goroutines |
| `JsonNum.v` / `JsonNumProofs.v` | number literals of request bodies, `json.Number.Float64`, float32 conversion |
| `Handlers.v` / `HandlersProofs.v`, `PoisonProofs.v` | responses of the nearest and get handlers; vertices that cannot be marshalled |
| `Collections.v` / `CollectionsProofs.v` | `CreateCollection`, `DeleteCollection`, `GetCollections`, their handlers, cache keys |
| `NodeRace.v` / `NodeRaceProofs.v` | interleaved steps of `nodeByID`, `connectNeighborAtLevel`, `Flush` on the vertices of a collection; `EvictProofs.v`: what a restart keeps when the cache drops vertices |
| `Locks.v` / `LocksProofs.v` | the locks every function takes, sync.RWMutex, goroutines |
| `Vectorizer.v` / `VectorizerProofs.v` | `rest.Vectorizer`: `NewVectorizer`, `Corpi`, the decoding of its answer |
| `NumProofs.v` | number literals and the floats they become (`JsonNum.v`, `Vectorizer.f32_of_text`) |
| `ClientMany.v`, `PropHistory.v` | exact answers after any history of add requests, queries, reads and restarts with up to 61 documents in all |
| `Bind.v` / `BindProofs.v`, `PropBind.v` | from the request body to the handler: `BindRequest`, the request types, their validation (`restapi/operations/*_parameters.go`, `models/*.go`) |
| `LitCos.v`, `EndToEnd.v`, `PropEndToEnd.v` | proofs only: cosine distances of decimal vectors under rounding; from request bodies to response bodies |
| `Switch.v` / `SwitchProofs.v`, `PropSwitch.v` | the writing side of the commit log: opening, switching files, listing for backups, pausing maintenance (`commit_logger.go`, `backup.go`) |
| `Startup.v`, `PropStartup.v` | settings and start-up of the service (`environment.go`, `defaults.go`, `handler.go`, `configure_fave.go`, `document.go:62-145`) |
| `Routes.v`, `PropRoutes.v` | routing, URL builders and statuses of the HTTP interface (`fave_api.go`, `embedded_spec.go`, `*_urlbuilder.go`, `*_responses.go`) |
| `Mmap.v`, `MmapProofs.v`, `PropMmap.v` | the mapped condensor (`condensor_mmap.go`, `condensor_mmap_analyzer.go`, `condensor_mmap_reader.go`) |
| `Vector.v`, `F32L2.v`, `PropVector.v` | the vectorizer's `vector.go`; forward error of the distances other than cosine |
| `ClientGraph.v`, `PropGraph.v` | degrees and links of the graph over histories of requests with restarts |
| `Step.v`, `StepProofs.v`, `PropStep.v` | Step and Wrap of the metrics, as the product quantiser uses them |
| `Geo.v`, `GeoReal.v`, `GeoProofs.v`, `PropGeo.v` | the geographic distance, with sine, cosine and arc tangent as arguments |
| `Server.v`, `PropServer.v` | listeners, servers and shutdown of `restapi/server.go` |
| `PropPanic.v` | panics over the lock model of `Locks.v` |
| `ConcSearch.v`, `ConcProofs.v`, `ConcFind.v`, `ConcHalf.v`, `PropConc.v` | a query by vector over an index that changes between its accesses |
| `PropReads.v` | reading requests between others |
| `Pools.v` | pools.go, visited/pool.go and the functions that use them, as programs of interleaved steps |
| `PoolProofs.v`, `PoolCalls.v` | any interleaving of well-bracketed programs; the programs are well bracketed |
| `PropPools.v` | C86 |
| `Slices.v` | vertex.go link lists as slice headers over arrays; additions as interleaved steps; the same over values |
| `SliceProofs.v` | the memory shows the values: who may share an array, and when it is written |
| `PropSlices.v` | C87 |
| `WriteBack.v` | whole vertices between cache and table, requests as interleaved steps; requests one after the other as events |
| `WriteBackProofs.v` | what the table holds of the cached vertices, for tidy runs; requests one after the other are tidy |
| `PropWriteBack.v` | C88, C19 with drops at any step |
| `CompSearch.v` | the search functions on a compressed index |
| `CompSearchProofs.v` | a compressed search is an uncompressed search of a recoded index |
| `PropCompSearch.v` | C89 |
| `Watchers.v` | the background goroutines of an index, and the calls and locks that end them |
| `WatchersProofs.v` | progress and termination of every interleaving |
| `PropWatchers.v` | C90 |
| `GetProp.v` | `GetDocument` and its handler for any property |
| `PropGetProp.v` | C91 |
| `Fanout.v` | the goroutines that fetch the documents of an answer |
| `PropFanout.v` | C92 |
| `Race.v` | the accesses to shared variables, between the lock operations of `Locks.v` |
| `RaceProofs.v` | accesses under their guard do not race |
| `PropRace.v` | C93 |
| `PropEntry.v` | C94 |
| `Overlap.v` | reading requests during an add request |
| `PropOverlap.v` | C95 |
| `DropLog.v` | Drop of an index and of its commit log |
| `PropDrop.v` | C96 |
| `Validate.v` | insert.go:39-55 (ValidateBeforeInsert) with index.go:579-592 and the vector cache |
| `PropValidate.v` | C97 |
| `PropOrder.v` | C98 |
| `PropCut.v` | C99 |
| `PropGrow.v` | C100 |
| `PropLimit.v` | C26 for every limit |
| `PropNearest.v` | C60 for every limit |
| `PropAnyLimit.v` | C71 for every limit |
| `PropTextLimit.v` | C67 for every limit after one request of up to 30 documents |
| `ClientComplete.v` | the ground layer stays complete over a history of up to 30 documents |
| `PropTextHistory.v` | C67 for every limit after such a history |
| `PropTextCut.v` | C99, the limit by text, after such a history |
| `PropAnyOrder.v` | C98 for every limit, by vector and by text |
| `Compress.v` / `CompressProofs.v` | `Compress`, the cache of codes (`compress.go`, `compressed_vector_cache.go`) |
| `TestGraph.v`, `TestInsert.v` | concrete graphs and histories for the examples |
| `CommitLog.v` / `CommitLogFacts.v`, `CommitLogReplay.v`, `CommitLogEffect.v`, `CommitLogCondense.v` | record codec, deserializer, condensor (`deserializer.go`, `condensor.go`) |
| `LogFiles.v` / `LogFilesProofs.v`, `LogIdem.v`, `LogOver.v`, `LogFilesCondense.v` | directory of logs: combiner, condensing, fixer, start-up (`commit_log_combiner.go`, `commit_logger.go`, `corrupt_commit_logs_fixer.go`, `startup.go`) |
| `BufIO.v` / `BufIOFacts.v` | buffered log writer (`bufiowriter.go`) |
| `Config.v` / `ConfigProofs.v` | user configuration parsing, validation, update, ef selection, `strconv.ParseInt` |
| `VCache.v` / `VCacheProofs.v`, `VCacheFacts.v` | vector cache, document cache; requests as runs of insertions |
| `InsertRestart.v` | insertions interleaved with write-backs, queries and restarts |
| `F32Real.v`, `F32Norm.v`, `F32Err.v`, `DistancerDepth.v`, `F32Cos.v`, `F32Cmp.v` | the float operations as rounded real operations (Flocq), forward error of normalisation and dot products |
| `SearchDist.v` / `SearchDistProofs.v`, `SearchDistFacts.v` | `SearchByVector`, `SearchByVectorDistance` with its pages (`search.go:70-162,548-615`) |
| `Delete.v` / `DeleteProofs.v` | `Delete`, tombstones, clean-up cycle (`delete.go`), histories with them |
| `Prop*.v` | only the property theorems (`exact lemma.`), examples and `Print Assumptions` |

Models hold only computable definitions; every definition cites file and lines.

## Modelling conventions

* Errors are values, nil is `None`, a Go panic is the explicit result `Panic`.
* Loops are structural recursion or recursion on fuel with the explicit result `OutOfFuel`; theorems exclude it.
* Nondeterminism (goroutine completion order, random layer, external services) is an explicit oracle argument
  over which the theorems quantify universally.
* Distances are float32 values; Go's `<` and `>` are false on NaN. The distance provider is an arbitrary pair of
  functions except where a concrete provider is named.
* Node ids are `N`; uint64 wrap-around is written out only in the codec and visited-list models.

## Plan per property

| id | plan |
|----|------|
| C01 | `searchLayer` over an arbitrary node view with an arbitrary permutation oracle for the neighbour order; loop invariant: results, candidates distinct, visited, existing and reachable; carried through the layered descent and the distance cut |
| C02 | heap-sort theorem for the result queue + invariant "every queued distance is the distance function's value" |
| C03 | from the filter loop and truncation; float comparison semantics incl. NaN |
| C04 | termination measure: candidates + unvisited stored ids; `OutOfFuel` unreachable for the model's own fuel |
| C05 | reachability closure at loop exit when the result queue never exceeds ef |
| C06 | invariant: ground layer is a complete graph while there are at most 30 nodes; bounded-heap selection = k smallest |
| C07 | refute with a tie; prove determinism when all distances differ |
| C08 | tombstone filter in the search; refute for re-load after clean-up |
| C09 | allow-list filter invariant |
| C10 | bounded-heap selection = k smallest of the allowed existing ids |
| C11 | heap property + permutation by induction on histories |
| C12 | refinement of list+marker to a finite set over all histories, wrap-around included |
| C13 | invariant over insertion histories with an arbitrary (even failing or wrong) vector source |
| C14 | invariant over insertion histories; refutation for id reuse after a failed insertion |
| C15 | invariant over insertion histories |
| C16 | invariant over insertion histories |
| C17 | insertion with mismatching dimension returns an error and changes nothing but its own node |
| C18 | refute by an executed witness; prove for small collections |
| C19 | flush theorem on the cache/KV pair; invariant over interleaved steps with evictions, requests one after the other keep it |
| C20 | refute (top layer is not persisted); prove what is preserved |
| C21 | crash = prefix of the list of KV writes; invariant on the KV image |
| C22 | prove for error-free sequential histories; refute for failing batch and concurrent requests |
| C23 | refute (silently skipped documents); prove for batches on which nothing fails |
| C24 | invariant over histories |
| C25 | small-step machine of fetch goroutines and error channel, all interleavings |
| C26 | refute both; state exactly what happens |
| C27 | refute |
| C28 | encode/decode round trip for every record kind with uint64/uint16/uint8 fields |
| C29 | prefix theorem for the reader, for every cut |
| C30 | refute for lossy operations; prove for logs without them |
| C31 | directory model with crash points |
| C32 | refinement of the buffered writer to the concatenation of writes |
| C33 | ghost truth per id; invariant over all interleavings of the three steps of a lookup; refute for interrupted lookups |
| C34 | refute (25000 slots) ; prove below |
| C35 | LRU model refines a map while at most `cap` keys are touched |
| C36 | refute on the LRU model |
| C37 | decision function over JSON-like maps; characterise every field and every rejection; refute for ill-typed and overflowing numbers |
| C38 | decision theorem over all pairs; refute for distance, the package's own type, failing updates |
| C39 | arithmetic over int64 with wrap-around; refute for overflow |
| C40 | float32 arithmetic on SpecFloat |
| C41 | index partition theorem + equality over the integers |
| C42 | decision function; characterise the created indexes; refute for `bytes`, `hnswId`, existing collections, null |
| C43 | string-prefix model over histories |
| C44 | refute by three inputs; characterise the panicking requests |
| C45 | invariant for the clean-up; refute for entry-point handling |
| C46 | invariant: head of result never farther than entry point |
| C47 | state comparison for get requests; refute for a fresh process |
| C48 | invariant "every stored node id has a document" over histories; refute for repeated ids and skipped documents |
| C49 | compare the re-created collection with a new one; refute when a silent store deletion fails |
| C50 | injectivity of the printed key (last slash, decimal printing) |
| C51 | invariant over rounds of insertions, write-back, restarts; refute after a restart (vector source empty, 30 candidates) |
| C53–C55 | links-only relation between the index before and after re-linking; witnesses for the entry point cut off, the tombstone of an id added again, locks left held |
| C56, C57 | provenance of every stored document over histories; JSON re-reading as a relation; witnesses for reserved names and big integers |
| C58 | a vertex that cannot be marshalled stays below the counter: invariant over later requests; prove absence when normalised vectors are finite |
| C59, C60 | each operation = exact real operation then rounding; roundings per path through loop or kernel; composed with C24 and C26 |
| C63 | case analysis over one request, induction over the history |
| C64 | invariant over the interleaved steps; losing schedules as witnesses |
| C65 | rank of locks, the maintenance lock guards the acquisition of several shards; a deadlocked schedule and a leaked lock as witnesses |
| C66 | case analysis over the HTTP outcome; simulation up to the log between the request with and without the skipped documents |
| C67 | as C26, with the vectoriser as a function of the text; two documents as witnesses |
| C68 | literals as digit lists with their real value; the parser inverted; Flocq's rounding for the quotient of the mantissa and the power of ten; a number just above a half-way point |
| C69 | tasks in any order write their own slot; changes tracked per id; refute with a gap in the cache, an emptied cache, a low limit |
| C70 | decode after encode is the identity, by cases on the fields; ids checked for every document; refute with null, misspelt and repeated names, missing ids |
| C71 | the history of bodies is a history of client requests (C70), so C26 gives the exact answer for the rounded vectors; rounding moves a cosine by at most 5u (Cauchy-Schwarz, `LitCos.v`) and the float distance by C60's bound; the response shows what is stored (C56) |
| C72 | invariant `linv`: the directory with the buffer appended shows the logged records and the active file is the newest; a cut of the newest file is a cut of the record list (C29) |
| C73 | the copy shows the non-empty logs before the fresh active file; empty logs hold no records |
| C74 | case analysis over the outcomes |
| C75 | case analysis over the answers of the outside world |
| C76 | cleaning a path keeps exactly the proper segments; case analysis over operations, bindings and responses |
| C77 | binary search is correct on a sorted table, so upserting keeps it sorted with the maximum per id; induction over encoded records |
| C78 | a float difference has a relative error only (Flocq), so the sums are those of C59 over the differences; square root of an approximated number |
| C79 | an invariant of the index closed under Add, flush, restart and loading the entry point holds after every request; for the links, the state between two requests is that of C69: everything is in the table, the entry point in the table exists |
| C80 | with one component per segment the sum of the steps performs the same float operations as the loop of the whole distance; with longer segments both are within the bound of C18/C78 of the real value |
| C81 | haversine = squared chord / 4 by trigonometry; float64 errors bounded step by step; bounds of pi from Taylor sums; refute at the poles by the float32 rounding of the latitudes |
| C82 | follow Listen and Serve scheme by scheme; the wait for the servers by induction on the answers; refute by a taken port, an unknown scheme and a server that fails first |
| C83 | a broken-off trace runs the deferred unlocks; it keeps the lock order of C65; refute by a panic between RLock and RUnlock |
| C84 | the invariants of the search with the state at each access its own; additions keep links (`keeps`), also half done ones without upper layers (`seen_rel`), and the descent stays among complete vertices; refute by a query between the two layers of an addition |
| C85 | a flushed entry point is the one in memory, so LoadEntrypoint is the identity; refute by an addition after a restart |
| C86 | ghost owner of every object: one variable of one goroutine, or one pool; held objects equal those of a run alone |
| C87 | refinement of the array memory by values; an array that is ranged over is full and below the limit, so it is never written |
| C88 | an invariant of cache, table and pointers held; witnesses by computation, the whole index included |
| C89 | reduction to the searches of `Search.v`; composed with C69 for Compress followed by a search |
| C90 | invariant: the sends still possible find their goroutine, locks match; a measure that every step lowers |
| C91 | case analysis of the read; the refutation holds for every store |
| C92 | invariant over all schedules, a decreasing measure, and a simulation by `fetch_docs` |
| C93 | a lock per variable, and an invariant over all schedules; five interleavings that race |
| C94 | induction over the scan of the layers; two indexes by computation |
| C95 | an invariant over the documents of the request; 62 documents by computation |
| C96 | case analysis on the outcomes of the system; prefixes of path strings |
| C97 | the invariant over rounds of additions, write-backs and restarts; small histories by computation |
| C98 | two uses of the exactness of C26; sorted lists with the same elements; 62 documents by the computations of C26 and C85; for a limit the unique list of the nearest of C99 |
| C99 | the kept list for the smaller bound is a prefix of the other by induction; the fetches of a prefix; a computation for the text limit |
| C100 | two uses of the exactness of C26 and the ordered lists of C98, filtered; 62 documents in two requests by computation |
| C61, C62 | each page is a slice of one sorted list when each search is exact; termination by the growing offset; witnesses for small limits, for pages of different ef and for an index not yet written back |
| C52 | the condensed log as a state laid over the index of the earlier logs; refute for deleting records and leftovers |

## Trusted base (updated at the end of every milestone)

Coq's kernel (and `vm_compute` where used for witnesses), the reading of the Go source documented here,
and the behaviours listed under "Modelling conventions". No axioms are declared by this development.
`Print Assumptions` follows each theorem in the `Prop*.v` files. All of them are closed under the global context
except those of `PropNumeric.v` (C58_finite_components_partial, C59, C60, C41_cosine_close), `PropHistory.v`
(C60_history_neighbours_partial), `PropNearest.v`, `PropNumbers.v` (C68, except C68_document_query_differ_refuted and
C68_infinite_stored_refuted), `PropBind.v` (C70_query_numbers), `PropEndToEnd.v` and `PropAnyLimit.v` (C71), `PropVector.v` (C78, except
C78_vector_laws), `PropStep.v` (C80_segments_partial, C80_hamming, C80_segments_refuted, C80_nonvacuous) and
`PropGeo.v` (C81, except C81_symmetric), which speak about real numbers and use four axioms of the standard library: `ClassicalDedekindReals.sig_not_dec`,
`ClassicalDedekindReals.sig_forall_dec`, `FunctionalExtensionality.functional_extensionality_dep` and
`Classical_Prop.classic`. `coqchk` moreover lists the sealed definitions of the standard library's modules
`RbaseSymbolsImpl`, `RinvImpl` and `ssrunder.Under_rel`, which come with the reals and with Flocq.

Contracts of code that is not in the repository (oracles or contracts in the models):

* golang-lru: `Add` evicts the least recently used entry beyond the capacity, `Get`/`Add` refresh, `Keys` lists
  the present keys, `OnEvict` runs on eviction (`LRU.v`).
* fairOS-dfs key-value table: a successful put replaces the entry of its key; puts take effect one after the
  other, so that a crash keeps a prefix of them (`Persist.v`).
* fairOS-dfs pod: creating a database or table that exists changes nothing, a failing call changes nothing, a
  successful deletion removes name and content, `DocList` returns the indexes given to `DocCreate` (any index that
  the dependency adds itself is not modelled) (`Collections.v`).
* fairOS-dfs document store: a successful `DocPut` replaces the document with the same `id`; `DocFind` returns
  a stored document that matches the expression, an unspecified one if several match (`Client.v`).
* math.Sin, math.Cos and math.Atan2: the functions are arguments; the theorems assume the record `trig_ok` of
  `GeoProofs.v` (error at most 2^-52 for arguments up to 4, odd sine, NaN for NaN) (`Geo.v`).
* strconv.ParseFloat rounds to nearest, ties to even; its algorithm is not followed (`JsonNum.v`).
* encoding/json, go-openapi, net/http: a body arrives as a JSON value; a panic in a handler closes the
  connection without a response.

Commit logs: the service itself uses the no-op commit logger, and the code that restores an index from logs
(`startup.go:50-147`) is commented out. `CommitLog.v` models the deserializer with all twelve record kinds, including
product-quantizer records, and the condensor; the slice of nodes is a map plus its length, a growth past 2^45 slots
panics, and levels wrap at uint16 as in the code. Records that only the commitlog dependency writes have the layout
the deserializer expects. Bytes are `N` below 256.
`LogFiles.v` treats file names as a time stamp and a suffix, a rename and a removal as one step each, a write as
any prefix; it follows the commented text of the start-up, including the fixer that runs only there.

`NodeRace.v`: steps of goroutines interleave in one order (sequential consistency; the Go memory model promises less
for the unlocked reads of `Flush`). A vertex is one list of links and its `Committed` flag; a link is appended, the
bounded node cache may drop any vertex before any step, and the store does not fail.

`Locks.v` models a function by the lock operations it can perform: branches are choices, loops run any number of times,
vertex ids and shards are arbitrary. One index; goroutines that a function starts and waits for run inside it; locks of
dependencies and of the no-op commit logger are left out (no lock of this code is taken while they are held); a panic
runs the deferred unlocks and happens only outside sections that are unlocked without defer (`broken`; the exception is
`leak_shard`). `sync.Once` is its mutex. What a goroutine computes is not in this model, so "finished" is about locks
only.

`Vectorizer.v`: an HTTP exchange is its outcome (no answer, or status and body as a JSON value); an exchange that never
ends is not modelled although `http.Post` has no time limit. `Equal` and `Distance` of
`vector.go`, which the service does not use, are in `Vector.v`; `ToString` is not modelled.

`Compress.v`: the product quantizer is an arbitrary function of the vectors it was fitted to; a code is an arbitrary
value; the goroutines of `Concurrently` are an arbitrary order of their tasks. The search over codes is not modelled,
only what it reads.

`Bind.v`: the body is a JSON value, not text; names match up to the case of ASCII letters; of two members for one
field the last one counts (encoding/json merges two `documents` arrays element by element); the UUID test is a
parameter; a request that is not bound is a 400. Reads are modelled for the property `id`.

`Switch.v`: the writer of records is a library outside the repository: a buffer that reaches the active file piece by
piece. The clock is an argument. The cycles are library code too: running or not; stopping succeeds, or fails and
leaves the cycle running. Copying the listed files is the caller's part.

`Startup.v`: answers of the storage network and the vectoriser are given; of the network's state only the pods are
kept. The hour's time limit of start-up is not modelled.

`Routes.v`: go-openapi's router is a comparison of cleaned path segments with the documented templates (escaping and
unescaping a segment is the identity); its ServeError answers parse errors with 400 and validation errors with 422.
Content negotiation and the Swagger UI are left out.

`Mmap.v`: sizes and offsets do not overflow; creating, seeking, mapping and unmapping files succeed; debug output is left
out.

`Vector.v`: vectors are values; the conversion to text is left out.

`ConcSearch.v`: the index over time is a function from instants to states and a clock gives each access of the query its
instant; one access (the look-up of a vertex with its level and links, of a vector, of a tombstone) sees one state, so
data races inside one access (Go slices read while they are replaced) are not modelled. `connect_some` and
`insert_part` stop an insertion between two layers, not inside one.

`Pools.v`: one queue operation is one step.  sync.Pool hands out any object of
the pool or a new one, and may drop what is put back; both are decided by the
schedule.  A variable keeps its object after Put, so that a use after Put can be
expressed (`C86_early_put_mixes_up`).  The index a call works on is an argument
and does not change during the call.  connList (pools.go:135-160) is never used
and not modelled.

`Slices.v`: every slice starts at the first element of its array, so that a
header is an array and a length.  Setting the links of a layer and linking one
neighbour back are one step each; the code does them under the lock of the
vertex, and the reads of the range loop between them are part of the next step.
Which vertex object an id leads to, and what is chosen and selected, are given by
the events.

`WriteBack.v`: a vertex is any value and a change any function of it; the steps
of a request are not tied to what an insertion chooses, so that the theorems hold
for more than the code does.  Unlike `NodeRace.v` it tells apart the two ways of
changing a vertex (with and without unmarking it).  json.Marshal reads a vertex in
one step.

`CompSearch.v`: product quantization is in the weaviate library; code type,
encoding and both distance functions are arbitrary.  A code is never empty.  The
tombstone that search.go:501 sets for a result without vertex is left out; the
theorem about that search assumes that codes belong to stored vertices, so that
the line is not reached.

`Watchers.v`: only compressActionLock, h.compressed and the two cancel channels
are modelled; the shard locks of the caches are always free and a goroutine that
clears its cache comes back to its select (C65 has the deadlock in drop).  The
process level counts goroutines; an index whose New fails counts none, although
New would have started them (index.go:232-235 comes before init).

`GetProp.v`: DocFind is in the fairOS-dfs library; it is an arbitrary function of
the expression text and the documents.  That it finds `p=v` by equality is a
hypothesis of the positive theorems only.

`Fanout.v`: wg.Add and the start of a goroutine are one step.  A fetch always ends,
with any result; a panic inside it counts as an error.

`Race.v`: a section accesses its variables in any order and number.  A vertex is one
variable, and so are the slots of one shard.  Not listed: variables accessed atomically
only, fields that do not change once the index is shared, and what the dependencies
lock themselves.  A race is two goroutines that are both about to access; happens-before
edges other than locks (channels, sync.WaitGroup) are left out.

`Overlap.v`: a reading request runs as a whole between two documents of the addition.

`DropLog.v`: directories with their files; what the cycles do until they are stopped is any change of the log's own files.

`Delete.v`: `isOnlyNodeUnsecured` answers true for every argument, so the code behind it (new local or global entry
point) is never reached and not modelled. The clean-up runs without concurrent requests; the locks it leaves held are
part of its result. The client itself never calls `Delete`; these properties are about the index API.

The prefetch of `search.go:300-304` indexes the vector cache without a bound check and is not part of `Search.v`;
`C34_stored_ids_fit` shows that no history of requests stores an id outside that cache.

Not modelled: product quantisation itself (`ssdhelpers`) and the `h.compressed` branches outside `Compress.v` and `CompSearch.v`, metrics, logging output (except the
errors of skipped documents), the CLI, Swagger-generated code except the binding of requests (`Bind.v`) and
routing, URLs and statuses (`Routes.v`), and the schema/entity packages that the service
does not use.
