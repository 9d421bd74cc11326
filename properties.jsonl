{"id": "C01", "title": "Nearest results are real, distinct members", "statement": "Every id returned by a nearest-neighbour query is the id of a vector stored in that collection, it is reachable through the index, and no id is returned twice in one answer.", "quantifier": "every link graph (including cyclic, duplicated or asymmetric links), every query vector, every breadth parameter ef, every distance bound and every order in which the concurrent distance computations finish", "why_tests_cant": "The neighbour distances are collected from goroutines in an arbitrary order over arbitrary graphs; tests see a handful of graphs and schedules.", "anchors": ["pkg/hnsw/search_with_max_dist.go:KnnSearchByVectorMaxDist", "pkg/hnsw/search.go:searchLayerByVector", "pkg/hnsw/visited/list_set.go:ListSet"]}
{"id": "C02", "title": "Reported distances are the true distances, sorted, and aligned with the ids", "statement": "A nearest-neighbour query reports, for the i-th returned id, exactly the distance function applied to the (normalised) query and that id's stored vector, and the reported distances are in nondecreasing order; the distance list has at least as many entries as the id list.", "quantifier": "every link graph, query, ef, distance bound and schedule of the distance goroutines, for any distance function whose results are numbers", "why_tests_cant": "Requires a heap-order invariant over all insertion orders; a wrong heap index only shows on some shapes.", "anchors": ["pkg/hnsw/search_with_max_dist.go:KnnSearchByVectorMaxDist", "pkg/hnsw/search.go:searchLayerByVector", "pkg/hnsw/priorityqueue/queue.go"]}
{"id": "C03", "title": "Distance bound and limit are respected", "statement": "Every result of a nearest query with maximum distance d has distance at most d, and for a positive limit no more than limit results are returned; raising the limit only appends results for the by-vector query.", "quantifier": "every graph, query vector, d, and positive limit", "why_tests_cant": "Quantifies over every graph and every float bound, including NaN and infinities.", "anchors": ["pkg/hnsw/search_with_max_dist.go:KnnSearchByVectorMaxDist", "pkg/document/document.go:GetNearDocuments", "pkg/document/document.go:GetNearDocumentsByVector"]}
{"id": "C04", "title": "Every search terminates", "statement": "A nearest-neighbour search over a finite index always terminates, whatever the links look like (cycles, self links, links to missing nodes), having evaluated the distance of each stored vector at most once per layer.", "quantifier": "every finite link graph, query, ef >= 0 and schedule", "why_tests_cant": "Non-termination on an untested cyclic graph cannot be excluded by running finitely many graphs.", "anchors": ["pkg/hnsw/search.go:searchLayerByVector", "pkg/hnsw/visited/list_set.go"]}
{"id": "C05", "title": "A wide enough search is exhaustive", "statement": "If the breadth ef is at least the number of vectors reachable over ground-layer links from the entry point of that layer, the search returns every reachable vector within the distance bound, i.e. recall inside the connected part is exactly 1.", "quantifier": "every graph, every query, every ef at least the size of the reachable set, every schedule", "why_tests_cant": "Recall on sample data says nothing about the graphs not sampled.", "anchors": ["pkg/hnsw/search.go:searchLayerByVector", "pkg/hnsw/search_with_max_dist.go:KnnSearchByVectorMaxDist"]}
{"id": "C06", "title": "Small collections are searched exactly", "statement": "In a collection built by adding at most 30 vectors of one dimension in one process, a nearest query returns exactly the k nearest stored vectors (the brute-force answer up to ties) within the distance bound, whatever random layers the index drew.", "quantifier": "every sequence of at most 30 insertions, every sequence of random levels, every query, every k >= 1, every schedule", "why_tests_cant": "Depends on the random layer drawn for each vector and on all insertion orders.", "anchors": ["pkg/hnsw/insert.go:insert", "pkg/hnsw/neighbor_connections.go:doAtLevel", "pkg/hnsw/heuristic.go:selectNeighborsHeuristic", "pkg/hnsw/search_with_max_dist.go"]}
{"id": "C07", "title": "Answer is independent of goroutine timing", "statement": "Two runs of the same nearest query on the same index return the same answer, regardless of the order in which the concurrently computed neighbour distances arrive.", "quantifier": "all graphs, queries and pairs of schedules", "why_tests_cant": "Tests cannot enumerate schedules; the failure only appears with equal distances and a full result set.", "anchors": ["pkg/hnsw/search.go:searchLayerByVector"]}
{"id": "C08", "title": "Deleted vectors are never returned", "statement": "After a vector has been deleted from the index, no later search returns its id, before or after the tombstone clean-up cycle, as long as the id is not added again.", "quantifier": "every graph, deletion history and query", "why_tests_cant": "A deleted node remains in the graph as a routing point; every path through it must be considered.", "anchors": ["pkg/hnsw/delete.go:Delete", "pkg/hnsw/search.go:searchLayerByVector", "pkg/hnsw/delete.go:removeTombstonesAndNodes"]}
{"id": "C09", "title": "Filtered search respects the allow list", "statement": "A search with an allow list returns only ids in the allow list.", "quantifier": "every graph, allow list, query, ef, schedule", "why_tests_cant": "The filter is skipped on upper layers and for entry points, so all paths must be covered.", "anchors": ["pkg/hnsw/search.go:searchLayerByVector", "pkg/hnsw/search.go:insertViableEntrypointsAsCandidatesAndResults", "pkg/hnsw/search.go:knnSearchByVector"]}
{"id": "C10", "title": "Flat search is exact", "statement": "When the allow list is below the flat-search cut-off, a search for k >= 1 results returns exactly the k closest allowed, non-deleted, existing vectors (all of them if fewer), ordered by distance.", "quantifier": "every allow list, every set of vectors and every k >= 1", "why_tests_cant": "Bounded-heap selection must be right for every order of distances.", "anchors": ["pkg/hnsw/flat_search.go:flatSearch"]}
{"id": "C11", "title": "Priority queue pops in order and loses nothing", "statement": "Draining a min (max) priority queue yields every inserted item exactly once in nondecreasing (nonincreasing) distance order, under any interleaving of inserts and pops; each pop returns a minimum (maximum) of the current content.", "quantifier": "every history of inserts and pops", "why_tests_cant": "Array-heap index arithmetic has to hold for all sizes and shapes.", "anchors": ["pkg/hnsw/priorityqueue/queue.go", "pkg/hnsw/priorityqueue/queue_with_index.go"]}
{"id": "C12", "title": "Visited set is an exact set across resets", "statement": "A visited list answers 'visited' for an id exactly when that id was marked since the last reset, over any number of resets (the 8-bit version marker wraps) and any growth; a list borrowed from the pool is always empty.", "quantifier": "every history of visit, query, reset, borrow and return operations", "why_tests_cant": "The version marker wraps every 255 resets and growth copies old markers; only a proof covers all histories.", "anchors": ["pkg/hnsw/visited/list_set.go", "pkg/hnsw/visited/pool.go"]}
{"id": "C13", "title": "Insertion keeps every node's degree bounded", "statement": "After any sequence of insertions every stored vector has at most 30 links on each upper layer and at most 60 on the ground layer.", "quantifier": "every history of insertions (successful or failing), all random layers, all distance functions", "why_tests_cant": "Back-links are added to nodes of arbitrary earlier shape; the bound must hold for all of them.", "anchors": ["pkg/hnsw/neighbor_connections.go:connectNeighborAtLevel", "pkg/hnsw/neighbor_connections.go:maximumConnections", "pkg/hnsw/heuristic.go"]}
{"id": "C14", "title": "No dangling links, no self links", "statement": "After any sequence of insertions every link of every stored vector points to another stored vector of the same collection, never to itself and never twice to the same vector on one layer.", "quantifier": "every history of insertions, all random layers", "why_tests_cant": "Induction over all histories.", "anchors": ["pkg/hnsw/neighbor_connections.go", "pkg/hnsw/vertex.go"]}
{"id": "C15", "title": "Layer consistency", "statement": "A link on layer L only joins vectors whose own layer is at least L, so that a search at layer L never runs into a vector that does not exist there.", "quantifier": "every history of insertions, all random layers", "why_tests_cant": "Random layers: the number of combinations is unbounded.", "anchors": ["pkg/hnsw/insert.go:insert", "pkg/hnsw/neighbor_connections.go:connectNeighborAtLevel"]}
{"id": "C16", "title": "Entry point dominates", "statement": "In a process that built the index from empty, after every insertion the search entry point is a stored vector on the highest layer in use, and every successfully added vector is on that layer or below.", "quantifier": "every history of insertions within one process, all random layers", "why_tests_cant": "Induction over histories and random levels.", "anchors": ["pkg/hnsw/insert.go:insert", "pkg/hnsw/insert.go:insertInitialElement"]}
{"id": "C17", "title": "Vectors of one collection share one dimension", "statement": "A vector whose dimension differs from the collection's is rejected with an error and leaves every other vector's links, the entry point and all later query answers unchanged.", "quantifier": "every history of insertions and every offending vector", "why_tests_cant": "The rejection comes from the distance function deep inside the search, after state has been changed.", "anchors": ["pkg/hnsw/insert.go:insert", "pkg/hnsw/distancer/cosine_dist.go", "pkg/hnsw/distancer/l2.go"]}
{"id": "C18", "title": "Every added vector stays findable", "statement": "Every vector that was added successfully can be reached by a search (it is connected to the entry point through ground-layer links).", "quantifier": "every history of insertions", "why_tests_cant": "Neighbour pruning may disconnect a vector only for special distance patterns.", "anchors": ["pkg/hnsw/heuristic.go:selectNeighborsHeuristic", "pkg/hnsw/neighbor_connections.go:connectNeighborAtLevel"]}
{"id": "C19", "title": "A committed batch survives a restart", "statement": "After an add request returned success, a new process that opens the same collection sees for every id exactly the same vector and links as the process that added it, the same document count and the same entry point.", "quantifier": "every history of successful add requests, any interleaved queries", "why_tests_cant": "Write-back through a cache with dirty flags; every access pattern must be considered.", "anchors": ["pkg/hnsw/insert.go:Flush", "pkg/hnsw/index.go:nodeByID", "pkg/hnsw/insert.go:LoadEntrypoint", "pkg/hnsw/insert.go:GetDocCount"]}
{"id": "C20", "title": "Search answers are the same after a restart", "statement": "A nearest query answered by a fresh process on a flushed collection gives the same result as in the process that built it.", "quantifier": "every flushed index and query", "why_tests_cant": "Depends on which part of the in-memory state is persisted.", "anchors": ["pkg/hnsw/insert.go:Flush", "pkg/hnsw/insert.go:LoadEntrypoint"]}
{"id": "C21", "title": "A crash during the write-back leaves a searchable index", "statement": "If the process dies at any point of the write-back of a batch, the persisted collection can still be searched: nothing but vectors whose batch was acknowledged or in flight is returned and no query fails because of a half-written link.", "quantifier": "every crash point in the sequence of key-value writes, every order of these writes", "why_tests_cant": "The number of crash points times write orders is unbounded; tests crash nowhere.", "anchors": ["pkg/hnsw/insert.go:Flush", "pkg/hnsw/search.go:searchLayerByVector", "pkg/hnsw/index.go:nodeByID"]}
{"id": "C22", "title": "Index ids are never reused", "statement": "No two documents of a collection ever get the same index id, so a nearest hit identifies exactly one document.", "quantifier": "every history of add requests including failing ones, restarts and concurrent requests", "why_tests_cant": "Depends on failure points inside batches and on interleavings of requests.", "anchors": ["pkg/document/document.go:AddDocuments", "pkg/hnsw/insert.go:GetDocCount"]}
{"id": "C23", "title": "Acknowledged documents are stored", "statement": "If an add request reports success for n documents, all n documents are stored and retrievable by their id property.", "quantifier": "every batch, every vectoriser and storage behaviour", "why_tests_cant": "Error handling paths inside the loop combine arbitrarily.", "anchors": ["pkg/document/document.go:AddDocuments", "adapters/handlers/documents.go:FaveAddDocuments"]}
{"id": "C24", "title": "Document and vector stay paired", "statement": "Every stored document that carries a non-negative index id i has exactly the vector indexed under i: a nearest hit on i yields the document whose vector is at the reported distance.", "quantifier": "every history of add requests with arbitrary documents and failures", "why_tests_cant": "Id assignment and skipping of failed documents must stay in step on all paths.", "anchors": ["pkg/document/document.go:AddDocuments"]}
{"id": "C25", "title": "Nearest documents come back complete and in order", "statement": "A nearest request returns, for the i-th nearest id, the document stored for that id at position i, for every interleaving of the concurrent document fetches; if any fetch fails the request fails rather than returning a hole.", "quantifier": "every id list, document store content and interleaving of the fetch goroutines", "why_tests_cant": "Interleavings of n goroutines writing into one slice and one error channel.", "anchors": ["pkg/document/document.go:GetNearDocuments", "pkg/document/document.go:GetNearDocumentsByVector"]}
{"id": "C26", "title": "Limit zero and negative limits are harmless", "statement": "A nearest request with limit 0 (no limit) returns every document within the distance, and a negative limit is rejected or treated as 0, without a handler panic.", "quantifier": "all limits", "why_tests_cant": "Limit doubles as search breadth in one of the two endpoints.", "anchors": ["pkg/document/document.go:GetNearDocuments", "pkg/document/document.go:GetNearDocumentsByVector", "pkg/hnsw/search.go:searchLayerByVector"]}
{"id": "C27", "title": "Querying an empty collection gives an empty answer", "statement": "A nearest request on an existing collection without vectors returns an empty list.", "quantifier": "every collection without vectors and every query", "why_tests_cant": "Depends on persisted and cached state being both absent.", "anchors": ["pkg/document/document.go:GetNearDocuments", "pkg/hnsw/search_with_max_dist.go:KnnSearchByVectorMaxDist"]}
{"id": "C28", "title": "Commit-log records round-trip", "statement": "Reading back a commit-log record yields exactly the operation that was written, for every operation kind.", "quantifier": "every operation with every id, level and link list within the encodable ranges", "why_tests_cant": "64-bit ids and 16-bit counts; the space is far too large to test.", "anchors": ["pkg/hnsw/condensor.go", "pkg/hnsw/commit_logger.go", "pkg/hnsw/deserializer.go"]}
{"id": "C29", "title": "A torn commit log recovers its complete prefix", "statement": "If a commit log is cut at any byte, replaying it yields exactly the state of the operations that were completely written, reports how many bytes were valid, and a log truncated to that length replays to the same state without error.", "quantifier": "every sequence of operations and every cut position", "why_tests_cant": "Every cut position of every log.", "anchors": ["pkg/hnsw/deserializer.go:Do", "pkg/hnsw/corrupt_commit_logs_fixer.go", "pkg/hnsw/startup.go"]}
{"id": "C30", "title": "Condensing a commit log preserves its meaning", "statement": "Replaying the condensed log on an empty index gives the same index as replaying the original log.", "quantifier": "every valid operation sequence", "why_tests_cant": "All operation sequences.", "anchors": ["pkg/hnsw/condensor.go:Do", "pkg/hnsw/deserializer.go:Do"]}
{"id": "C31", "title": "Combining logs is crash safe and meaning-preserving", "statement": "Merging two adjacent condensed logs gives the same replayed index, and so does restarting after a crash at any point of the merge.", "quantifier": "every set of log files, sizes and threshold, every crash point", "why_tests_cant": "Crash points and directory states.", "anchors": ["pkg/hnsw/commit_log_combiner.go", "pkg/hnsw/commit_logger.go:getCommitFileNames"]}
{"id": "C32", "title": "Buffered log writer loses and reorders nothing", "statement": "The bytes that reach the file are exactly the bytes written, in order, after a flush; before a flush they are a prefix; after an I/O error nothing further is written and the error is reported.", "quantifier": "every sequence of writes of any sizes, any buffer size and any short-write behaviour of the file", "why_tests_cant": "Buffer boundary cases over all size combinations.", "anchors": ["pkg/hnsw/bufiowriter.go"]}
{"id": "C33", "title": "Vector cache never serves a wrong vector", "statement": "Looking a vector up through the cache yields either the stored vector of that id or an error; no history of loads, deletions and evictions makes it return another id's vector or a deleted one.", "quantifier": "every history of cache operations", "why_tests_cant": "Histories with eviction and deletion.", "anchors": ["pkg/hnsw/vector_cache.go"]}
{"id": "C34", "title": "Collections may hold any number of documents", "statement": "Adding a document succeeds or fails with an error independent of how many documents the collection already holds; the server does not crash.", "quantifier": "every number of documents", "why_tests_cant": "Only shows after 25000 documents.", "anchors": ["pkg/hnsw/vector_cache.go:preload", "pkg/hnsw/maintainance.go", "pkg/hnsw/insert.go:insert"]}
{"id": "C35", "title": "Node cache transparency", "statement": "Reading a node through the bounded node cache gives the most recently written version as long as the number of distinct nodes touched since the last write-back does not exceed the cache capacity.", "quantifier": "every history of node reads and writes", "why_tests_cant": "LRU eviction of modified nodes depends on access history.", "anchors": ["pkg/hnsw/index.go:nodeByID", "pkg/hnsw/insert.go:Flush"]}
{"id": "C36", "title": "Large batches are not lost", "statement": "However many documents one add request contains, all vectors that were linked into the index are written back.", "quantifier": "every batch size", "why_tests_cant": "Only shows when more than 10000 nodes are touched in one batch.", "anchors": ["pkg/hnsw/index.go:nodeByID", "pkg/hnsw/insert.go:Flush"]}
{"id": "C37", "title": "Accepted index configuration is within its bounds", "statement": "Whatever JSON object is given as index configuration, parsing either fails or yields a configuration with maxConnections >= 4 and efConstruction >= 4, defaults exactly for absent fields, and nothing else changed.", "quantifier": "every JSON-like map", "why_tests_cant": "All combinations of present, absent and ill-typed fields.", "anchors": ["pkg/hnsw/user_config.go", "pkg/hnsw/pq_config.go"]}
{"id": "C38", "title": "Immutable settings cannot be changed by an update", "statement": "A configuration update is accepted exactly when none of the immutable settings (efConstruction, maxConnections, cleanupIntervalSeconds, distance) differ; otherwise it is rejected and nothing changes.", "quantifier": "every pair of configurations", "why_tests_cant": "All pairs.", "anchors": ["pkg/hnsw/config_update.go"]}
{"id": "C39", "title": "Automatic ef stays within its documented window", "statement": "With ef unset the search breadth is k times the factor clamped to [min,max] and never below k; with ef set it is max(ef,k).", "quantifier": "all k and settings", "why_tests_cant": "All integers.", "anchors": ["pkg/hnsw/search.go:searchTimeEF", "pkg/hnsw/search.go:autoEfFromK"]}
{"id": "C40", "title": "Distance functions are symmetric and reject mismatched dimensions", "statement": "Each distance function returns an error exactly when the two vectors differ in length, gives the same value when its arguments are exchanged, and (squared Euclidean, Manhattan, Hamming) is never negative and zero on equal finite vectors.", "quantifier": "every pair of float32 vectors", "why_tests_cant": "All float32 vectors of all lengths.", "anchors": ["pkg/hnsw/distancer/l2.go", "pkg/hnsw/distancer/cosine_dist.go", "pkg/hnsw/distancer/dot_product.go", "pkg/hnsw/distancer/manhattan.go", "pkg/hnsw/distancer/hamming.go"]}
{"id": "C41", "title": "SIMD kernels compute the same sum as the scalar loop", "statement": "The block-wise accelerated dot product and squared distance visit every element exactly once and, up to floating-point reassociation, equal the plain sum for every length, including lengths that are not a multiple of the block size.", "quantifier": "every vector length", "why_tests_cant": "Off-by-one errors in the tail handling show only at particular lengths.", "anchors": ["pkg/hnsw/distancer/asm/dot_amd64.s", "pkg/hnsw/distancer/asm/l2_amd64.s"]}
{"id": "C42", "title": "Create-collection validation", "statement": "A create-collection request is accepted only with a non-blank name and index types from the documented list, and an accepted request creates exactly the requested indexes.", "quantifier": "every request", "why_tests_cant": "All names and index type strings.", "anchors": ["adapters/handlers/collections.go"]}
{"id": "C43", "title": "Collection listing shows exactly the collections created through this service", "statement": "GetCollections returns exactly the names of the collections that were created and not deleted, un-prefixed.", "quantifier": "every history of create and delete requests, including names that contain or equal the internal prefix", "why_tests_cant": "All names and histories.", "anchors": ["pkg/document/document.go:GetCollections", "pkg/document/document.go:CreateCollection", "pkg/document/document.go:DeleteCollection"]}
{"id": "C44", "title": "Malformed document requests do not crash the server", "statement": "An add-documents request with an arbitrary JSON body (missing or non-object properties, non-string text fields, odd vectors) yields a success or an error response, never a handler panic (which drops the connection without a response).", "quantifier": "every JSON document list", "why_tests_cant": "All JSON shapes.", "anchors": ["adapters/handlers/documents.go", "pkg/document/document.go:AddDocuments", "pkg/document/document.go:convertToFloat32Slice"]}
{"id": "C45", "title": "Deleting leaves no dead ends", "statement": "After deletions and a completed clean-up cycle no remaining vector links to a removed one, and the entry point is a remaining vector.", "quantifier": "every graph and deletion set", "why_tests_cant": "All graphs.", "anchors": ["pkg/hnsw/delete.go"]}
{"id": "C46", "title": "Search from upper layers only gets closer", "statement": "Descending through the layers, the entry point handed to the next layer is never farther from the query than the one the layer started from.", "quantifier": "every graph, query and schedule", "why_tests_cant": "All graphs and schedules.", "anchors": ["pkg/hnsw/search_with_max_dist.go", "pkg/hnsw/search.go:searchLayerByVector"]}
{"id": "C47", "title": "Fetching a document leaves the collection usable", "statement": "A get-document request does not change what later add and nearest requests of the same process do.", "quantifier": "every history of requests, including get requests that come first after a start", "why_tests_cant": "Depends on which request happens to open the collection in a fresh process.", "anchors": ["pkg/document/document.go:GetDocument", "pkg/document/document.go:AddDocuments", "pkg/document/document.go:GetNearDocuments"]}
{"id": "C48", "title": "Every nearest hit has its document", "statement": "If the search inside a nearest request succeeds and the document store answers, the request returns the documents: no vector is indexed without its document.", "quantifier": "every history of add requests, including repeated document ids and skipped documents", "why_tests_cant": "The index and the document store are updated by separate calls on many paths.", "anchors": ["pkg/document/document.go:AddDocuments", "pkg/document/document.go:GetNearDocumentsByVector"]}
{"id": "C49", "title": "Deleting a collection leaves nothing behind", "statement": "A collection that is deleted and created again starts without documents and without vectors.", "quantifier": "every content of the collection and every outcome of the storage calls of which the caller is not told", "why_tests_cant": "Needs storage failures in one of two concurrent calls.", "anchors": ["pkg/document/document.go:DeleteCollection", "pkg/document/document.go:CreateCollection"]}
{"id": "C50", "title": "Collections do not share cached vectors", "statement": "The vector that the index of one collection obtains from the document cache for an id is never one of another collection or another id.", "quantifier": "all collection names, including names with slashes and digits, and all ids", "why_tests_cant": "All pairs of names and ids.", "anchors": ["pkg/document/document.go:CreateCollection", "pkg/document/document.go:AddDocuments"]}
{"id": "C51", "title": "Documents can be added to an existing collection at any time", "statement": "Adding a document with a vector of the collection's dimension succeeds, and the document is then stored and indexed, no matter how many documents the collection holds, when they were added, and whether the server was restarted in between.", "quantifier": "every collection, request history and restart", "why_tests_cant": "Shows only for collections of 30 or more vectors after a restart, or beyond 1000 vectors; small tests in one process pass.", "anchors": ["pkg/document/document.go:AddDocuments", "pkg/document/document.go:documentCache", "pkg/hnsw/heuristic.go", "pkg/hnsw/vector_cache.go"]}
{"id": "C52", "title": "Condensing an old log does not change the restored index", "statement": "Condensing one of the closed logs of an index, and a crash while doing so, leave the index that a start-up restores from the directory unchanged.", "quantifier": "every content of the logs, every position of the condensed log among them, every crash point", "why_tests_cant": "The condensed log is replayed on top of earlier logs; only sequences that delete, clear or reset across log files show a difference.", "anchors": ["pkg/hnsw/condensor.go", "pkg/hnsw/commit_logger.go:condenseOldLogs", "pkg/hnsw/corrupt_commit_logs_fixer.go"]}
{"id": "C53", "title": "Clean-up keeps the remaining vectors findable", "statement": "After deletions and a completed clean-up cycle a query that covers the whole collection still returns every vector that was not deleted.", "quantifier": "every graph, deletion set and clean-up", "why_tests_cant": "Needs a clean-up that re-links the entry point; small tests delete other nodes or only check that deleted ids are gone.", "anchors": ["pkg/hnsw/delete.go:reassignNeighbor", "pkg/hnsw/delete.go:isOnlyNodeUnsecured"]}
{"id": "C54", "title": "A deleted id can be added again", "statement": "After deleting an id, adding a vector under it again succeeds and the vector is then stored and found, whether or not the clean-up cycle ran in between.", "quantifier": "every index, deletion history and clean-up", "why_tests_cant": "Depends on when the background clean-up runs.", "anchors": ["pkg/hnsw/delete.go:addTombstone", "pkg/hnsw/insert.go:Add", "pkg/hnsw/delete.go:removeTombstonesAndNodes"]}
{"id": "C55", "title": "A failing clean-up leaves the index usable", "statement": "Whatever fails during a clean-up cycle, later insertions, deletions and clean-ups return.", "quantifier": "every index, every failure of the storage calls and of the vector source, every interruption", "why_tests_cant": "Needs storage failures at particular calls; a held lock shows only in later calls.", "anchors": ["pkg/hnsw/delete.go:removeTombstonesAndNodes", "pkg/hnsw/delete.go:replaceDeletedEntrypoint"]}
{"id": "C56", "title": "Responses show the documents that were added", "statement": "Every document in the response of a nearest query is one that an earlier add request gave: it carries that document's id and all its properties with their values, nothing else but the distance.", "quantifier": "every request history, every query by text or vector, every JSON value of a property", "why_tests_cant": "Property names and numbers are unbounded; tests use small numbers and names that do not collide with those the service adds.", "anchors": ["adapters/handlers/documents.go:FaveGetNearestDocumentsHandler", "adapters/handlers/documents.go:FaveGetNearestDocumentsByVectorHandler", "pkg/document/document.go:GetNearDocumentsByVector"]}
{"id": "C57", "title": "An acknowledged document can be read by its id", "statement": "After an add request was answered with success, reading one of its documents by its id answers with that document and its properties, after any further requests that do not add the id again, and after a restart.", "quantifier": "every request history before and after, every document", "why_tests_cant": "All histories of later requests, including failing ones.", "anchors": ["adapters/handlers/documents.go:GetDocumentsHandlerFunc", "pkg/document/document.go:GetDocument", "pkg/document/document.go:AddDocuments"]}
{"id": "C58", "title": "A rejected request does not make later requests fail", "statement": "If an add request is rejected because of the data in it, a later add request of well-formed documents succeeds as it would have without the rejected one, and nearest queries are still answered.", "quantifier": "every rejected request and every sequence of later requests", "why_tests_cant": "Needs a component that overflows float32 but not float64; the request itself is rejected as a test would expect, and the damage shows only in later requests.", "anchors": ["pkg/document/document.go:AddDocuments", "pkg/hnsw/insert.go:Flush", "pkg/hnsw/distancer/normalize.go"]}
{"id": "C59", "title": "Reported distances are the exact cosine distances up to rounding", "statement": "The distance the service computes and reports between a query and a document differs from the exact cosine distance of the given vectors by at most a small multiple of the dimension times 2^-24; in particular a document is at distance 0 of its own vector up to this error.", "quantifier": "every pair of vectors with finite components, every dimension, both implementations of the dot product", "why_tests_cant": "Error bounds need all vectors; tests compare a few against a tolerance.", "anchors": ["pkg/hnsw/distancer/normalize.go", "pkg/hnsw/distancer/cosine_dist.go", "pkg/hnsw/distancer/dot_product.go", "pkg/hnsw/distancer/asm/dot_amd64.s"]}
{"id": "C60", "title": "Nearest answers are the true neighbours", "statement": "Against the exact cosine distances of the given vectors: a nearest query returns every document within the requested distance, nothing beyond it, nearest first, up to the rounding error.", "quantifier": "every set of documents, every query and distance, across a restart", "why_tests_cant": "Needs exact real arithmetic as the reference and all vectors.", "anchors": ["pkg/document/document.go:GetNearDocumentsByVector", "pkg/hnsw/search_with_max_dist.go:KnnSearchByVectorMaxDist"]}
{"id": "C61", "title": "Search by distance returns every vector within the target once, up to the limit", "statement": "SearchByVectorDistance returns, nearest first and each once, exactly the stored, undeleted and allowed vectors whose distance to the query is at most the target (or within the float tolerance of it), at most maxLimit of them if a limit is given; it always returns.", "quantifier": "every index, query, target distance, limit, allow list, every scheduling of the searches it makes", "why_tests_cant": "The paging starts to matter beyond 100 vectors, where consecutive searches use a different ef and may order the vectors differently.", "anchors": ["pkg/hnsw/search.go:SearchByVectorDistance", "pkg/hnsw/search.go:searchByVectorDistParams.iterate"]}
{"id": "C62", "title": "Search by count finds the nearest of the added vectors", "statement": "SearchByVector(k) returns the k nearest of all vectors whose Add returned without error, nearest first, at any time after that Add.", "quantifier": "every history of insertions and write-backs, every query, every k, every setting of ef", "why_tests_cant": "Whether the store has been written in between is invisible to the caller; tests flush or do not.", "anchors": ["pkg/hnsw/search.go:SearchByVector", "pkg/hnsw/search.go:knnSearchByVector", "pkg/hnsw/index.go:isEmpty"]}
{"id": "C63", "title": "Collections do not interfere", "statement": "Creating, deleting or using one collection, also when it fails half-way, leaves the documents, the vectors and the open index of every other collection as they were.", "quantifier": "every history of requests, names (also names that begin like another one or like its stored name) and failures", "why_tests_cant": "Needs names that collide after prefixing, and failures between the stores.", "anchors": ["pkg/document/document.go:CreateCollection", "pkg/document/document.go:DeleteCollection"]}
{"id": "C64", "title": "Concurrent requests lose no links", "statement": "Every link an insertion has added to a vertex stays among the links of that vertex, as later requests see it, whatever other insertions, searches and write-backs of the collection run at the same time, and after the process restarts once everything is written.", "quantifier": "every interleaving of the steps of any number of goroutines, every number of restarts", "why_tests_cant": "The losing schedules need a goroutine to pause between two adjacent statements; no test controls that.", "anchors": ["pkg/hnsw/index.go:nodeByID", "pkg/hnsw/neighbor_connections.go:connectNeighborAtLevel", "pkg/hnsw/insert.go:Flush", "pkg/document/document.go:AddDocuments"]}
{"id": "C65", "title": "Requests never block each other for ever", "statement": "Whatever requests, index operations, clean-ups and cache maintenance run at the same time, a state in which no goroutine can go on is one in which all are finished; from every state all can still finish.", "quantifier": "every number of goroutines, every sequence of operations in each, every schedule", "why_tests_cant": "A deadlock needs a particular interleaving of lock operations and, for the leaked locks, a failing store at one point.", "anchors": ["pkg/hnsw/insert.go:insert", "pkg/hnsw/neighbor_connections.go:connectNeighborAtLevel", "pkg/hnsw/delete.go:CleanUpTombstonedNodes", "pkg/hnsw/vector_cache.go:obtainAllLocks", "pkg/document/document.go:AddDocuments"]}
{"id": "C66", "title": "A failing vectorizer is reported", "statement": "If the vectorizer cannot be reached, answers with an error status or with something that is not a vector, a query by text is answered with an error and leaves the collection as it was; an add request that needs it is answered with an error and its other documents are not affected; the service does not crash.", "quantifier": "every answer of the vectorizer, every request and collection", "why_tests_cant": "All failure modes of the remote service at every document of a request.", "anchors": ["pkg/vectorizer/rest/vectorizer.go:Corpi", "pkg/vectorizer/rest/vectorizer.go:NewVectorizer", "pkg/document/document.go:AddDocuments", "pkg/document/document.go:GetNearDocuments"]}
{"id": "C67", "title": "A document is found by its text", "statement": "With a vectorizer that answers a text always with the same vector: after an acknowledged add request, a query for the text of a document returns the document, and a query for any text returns exactly the documents within the distance of its vector, nearest first, also after a restart.", "quantifier": "every vectorizer, every set of documents and indexed properties, every query text", "why_tests_cant": "Depends on the exact text sent when adding and when querying; a vectorizer in a test may ignore the difference.", "anchors": ["pkg/document/document.go:AddDocuments", "pkg/document/document.go:GetNearDocuments", "pkg/vectorizer/rest/vectorizer.go:Corpi"]}
{"id": "C68", "title": "Numbers become the nearest floats", "statement": "Every number of a vector sent with a document or a query is taken as the float32 nearest to the decimal number of the request, the same in both; a number beyond the range of float32 is refused; a number property is given back as the nearest float64.", "quantifier": "every JSON number: any number of digits, any exponent, either sign", "why_tests_cant": "Rounding differs only for numbers within 2^-53 of the middle between two floats; random tests never hit one.", "anchors": ["pkg/document/document.go:AddDocuments", "models/nearest_documents_by_vector_request.go:NearestDocumentsByVectorRequest", "pkg/vectorizer/rest/vectorizer.go:Corpi"]}
{"id": "C69", "title": "Compressed vectors stay with their ids", "statement": "After the index was switched to compressed vectors, the distance to every stored vector is computed from the code of that vector; this stays so through later insertions, removals and the cache's maintenance; a refused switch leaves the index as it was.", "quantifier": "every set of vectors and state of the vector cache, every order of the encoding goroutines, every later sequence of changes", "why_tests_cant": "Compression is only tested right after a complete import, when every vector is cached.", "anchors": ["pkg/hnsw/compress.go:Compress", "pkg/hnsw/compressed_vector_cache.go:get", "pkg/hnsw/compressed_vector_cache.go:grow", "pkg/hnsw/compressed_vector_cache.go:replaceIfFull", "pkg/hnsw/startup.go:prefillCache"]}
{"id": "C70", "title": "Requests are acted on as they were sent", "statement": "A request body that was written from the Go request type reaches the handler with the same documents, properties, names, limit, distance and vector; a body that is missing, is no JSON, has a value of the wrong type or an id that is no UUID is refused and changes nothing; every stored document has an id of its own.", "quantifier": "every request body: any JSON value, any order, case and repetition of names", "why_tests_cant": "The decoder's rules for null, case, unknown names and missing fields only show with bodies no client library produces.", "anchors": ["restapi/operations/fave_add_documents_parameters.go:BindRequest", "restapi/operations/fave_get_documents_parameters.go:BindRequest", "models/document.go:validateID", "models/add_documents_request.go:validateDocuments", "adapters/handlers/documents.go:FaveAddDocumentsHandler"]}
{"id": "C71", "title": "From the posted JSON to the posted answer, neighbours are right for the numbers as written", "statement": "After any history of HTTP requests that adds documents with decimal vectors (and reads, queries, restarts or refused requests in between), a posted query by vector is answered with status 200, and measured by the exact cosine distances of the decimal numbers in the requests, up to eps = (4n+34)/2^24: every document of the answer was posted, appears with its own properties and its distance, and lies within the asked distance; every posted document within the asked distance is in the answer; none appears twice; nearer ones come first.", "quantifier": "every history of requests, all decimal numbers however written (any digits, exponents), every dimension n, every query and distance, every order of the concurrent parts, every implementation of the dot product's summation order", "why_tests_cant": "Parsing, double rounding, normalisation, graph search, storage, restart and response each have their own tests on fixed values; that the errors of all stages together stay below a bound for all inputs is a statement about all of them at once.", "anchors": ["adapters/handlers/documents.go:FaveGetNearestDocumentsByVectorHandler", "pkg/document/document.go:AddDocuments", "pkg/document/document.go:GetNearDocumentsByVector", "pkg/hnsw/search_with_max_dist.go:KnnSearchByVectorMaxDist", "pkg/hnsw/distancer/normalize.go:Normalize"]}
{"id": "C72", "title": "Commit log files keep the order of the records", "statement": "However the commit log is spread over files by switching, restarting and writing from a buffer, a start-up at any later moment restores exactly the state of a prefix of the records in the order in which they were logged, and that prefix contains every record logged before the last flush.", "quantifier": "every directory of logs, every history of records, buffer writes, flushes, size checks, forced switches and restarts, every clock reading, every crash point", "why_tests_cant": "File names are seconds of the wall clock; the order only breaks when the clock steps back, and the prefix claim is about every byte position of the crash.", "anchors": ["pkg/hnsw/commit_logger.go:switchCommitLogs", "pkg/hnsw/commit_logger.go:getLatestCommitFileOrCreate", "pkg/hnsw/commit_logger.go:getCurrentCommitLogFileName", "pkg/hnsw/commit_logger.go:getCommitFileNames"]}
{"id": "C73", "title": "A backup is complete", "statement": "After the commit log was switched, copying the files that ListFiles names gives a directory from which a start-up restores exactly the index at the moment of the switch, whatever is logged while the files are copied.", "quantifier": "every earlier history of the log, every moment of the switch, every later activity during the copy", "why_tests_cant": "Tests take a backup of an index that was filled long before; a backup in the same second, or beside the remains of a failed merge, is a matter of timing.", "anchors": ["pkg/hnsw/backup.go:SwitchCommitLogs", "pkg/hnsw/backup.go:ListFiles", "pkg/hnsw/commit_logger.go:switchCommitLogs"]}
{"id": "C74", "title": "Pausing maintenance is all or nothing", "statement": "If PauseMaintenance reports success, the switching, condensing and clean-up cycles are all stopped; if it reports an error, all three run; ResumeMaintenance leaves all three running.", "quantifier": "every combination of outcomes of stopping the three cycles", "why_tests_cant": "Stopping fails only when a cycle is in the middle of long work; each combination needs its own timing.", "anchors": ["pkg/hnsw/backup.go:PauseMaintenance", "pkg/hnsw/backup.go:ResumeMaintenance", "pkg/hnsw/commit_logger.go:Shutdown"]}
{"id": "C75", "title": "The service starts with the settings it was given, or not at all", "statement": "Each setting is that of its environment variable or, if that is empty, the default; the service answers requests only after it has logged in as that user, found the vectorizer healthy if one is set, and opened that pod, creating it if it does not exist; if any of this fails the process ends with an error and has changed nothing.", "quantifier": "every environment, every answer of the storage network and the vectorizer, every set of existing pods", "why_tests_cant": "Start-up needs a live storage network; the failure of each single step cannot be provoked in a test.", "anchors": ["adapters/handlers/environment.go:FromEnv", "adapters/handlers/defaults.go:SetDefaults", "adapters/handlers/handler.go:NewHandler", "pkg/document/document.go:New", "pkg/document/document.go:Login", "pkg/document/document.go:OpenPod", "restapi/configure_fave.go:configureAPI"]}
{"id": "C76", "title": "Requests reach the operation they address and are answered with its documented status", "statement": "The URL built for an operation and its parameters is served by that operation with those parameters and by no other; a document that does not exist is reported as 404, a failure of the server's own as 500, a request that cannot be processed as 422 and without effect, and every whole answer has a status documented for its operation.", "quantifier": "every operation, every collection name and parameter value, every request body, every state, every failure of the store", "why_tests_cant": "Tests use plain names and look at successful requests; names with slashes or dots and the statuses of rare failures are not exercised.", "anchors": ["restapi/operations/fave_api.go:initHandlerCache", "restapi/operations/fave_api.go:HandlerFor", "restapi/operations/fave_delete_collection_urlbuilder.go:Build", "restapi/operations/fave_get_documents_urlbuilder.go:Build", "restapi/operations/fave_get_documents_responses.go:FaveGetDocumentsNotFound", "adapters/handlers/documents.go:GetDocumentsHandlerFunc", "restapi/embedded_spec.go:SwaggerJSON"]}
{"id": "C77", "title": "The mapped condensor gives every node of a log a region that holds its links", "statement": "Condensing a commit log into a mapped file lists every node named since the last reset, and no deleted one, once, in ascending order, with its highest level; the regions are consecutive, do not overlap and fill the file; each is large enough for all links the node may have, and holds its links; every log the other components write, the empty one included, is accepted.", "quantifier": "every sequence of log records, every number of connections", "why_tests_cant": "Errors in sizes and offsets show only for particular levels and orders of ids, in a binary file nothing reads yet.", "anchors": ["pkg/hnsw/condensor_mmap.go:Do", "pkg/hnsw/condensor_mmap_analyzer.go:UpsertNodeMaxLevel", "pkg/hnsw/condensor_mmap_analyzer.go:Size", "pkg/hnsw/condensor_mmap_analyzer.go:Do", "pkg/hnsw/condensor_mmap_reader.go:Do"]}
{"id": "C78", "title": "The other distances are the exact ones up to rounding", "statement": "The squared Euclidean, dot product and Manhattan distances of two finite vectors of the same length are finite and within a stated relative error of the exact sums, for the Go loops and the AVX2 kernels, so that vectors whose distances to a query differ by more than the error are ordered correctly; the Hamming distance is the exact number of differing components; Distance of the vectorizer's Vector is the Euclidean distance up to rounding, Equal holds for a vector and itself, and vectors of different lengths are errors.", "quantifier": "every pair of finite float32 vectors, every length, both implementations", "why_tests_cant": "Tests compare a few short vectors with a tolerance; cancellation, overflow, underflow and the rounding of long sums depend on particular values.", "anchors": ["pkg/hnsw/distancer/l2.go:l2SquaredImpl", "pkg/hnsw/distancer/asm/l2_amd64.s", "pkg/hnsw/distancer/dot_product.go:dotProductImplementation", "pkg/hnsw/distancer/manhattan.go:manhattanImpl", "pkg/hnsw/distancer/hamming.go:hammingImpl", "pkg/vectorizer/vector.go:Distance", "pkg/vectorizer/vector.go:Equal"]}
{"id": "C79", "title": "The stored graph stays well-formed under every history of requests", "statement": "After any sequence of add, search, read, create and restart requests, the graph in memory and the one the next process finds in the table are well-formed: every vertex has one list of links per layer, at most 60 on the ground layer and 30 on the others, without repetition; each link leads to another existing vertex that is present on that layer; the id of every vertex is below the stored count; and unless the graph is empty its entry point exists.", "quantifier": "every sequence of requests, every document, every random layer, every outcome of each store operation", "why_tests_cant": "A damaged link does not fail a request, it only loses results later; the damaging sequences need a failure or an empty request at one particular point.", "anchors": ["pkg/document/document.go:AddDocuments", "pkg/hnsw/insert.go:Add", "pkg/hnsw/insert.go:insert", "pkg/hnsw/neighbor_connections.go:doAtLevel", "pkg/hnsw/neighbor_connections.go:connectNeighborAtLevel", "pkg/hnsw/index.go:isEmpty", "pkg/hnsw/insert.go:Flush"]}
{"id": "C80", "title": "Segment sums compute the distance of the whole vectors", "statement": "For each metric of the product quantiser, splitting two vectors into segments, taking Step on each pair of segments, adding the results and applying Wrap gives the distance that the metric gives for the whole vectors, up to rounding; Step panics exactly when its second argument is shorter than its first.", "quantifier": "every metric, all vectors, every division into segments, both implementations of the dot product and the squared distance", "why_tests_cant": "Tests of a quantiser compare recall on random data, where a metric whose segment values do not add up only ranks slightly worse.", "anchors": ["pkg/hnsw/distancer/cosine_dist.go:Step", "pkg/hnsw/distancer/cosine_dist.go:Wrap", "pkg/hnsw/distancer/dot_product.go:Step", "pkg/hnsw/distancer/dot_product.go:Wrap", "pkg/hnsw/distancer/l2.go:Step", "pkg/hnsw/distancer/manhattan.go:Step", "pkg/hnsw/distancer/hamming.go:Step", "pkg/hnsw/distancer/geo_spatial.go:Step"]}
{"id": "C81", "title": "The geographic distance is that of a sphere", "statement": "The geo provider's distance between two points given by latitude and longitude is a non-negative number of metres that agrees, up to rounding, with the great-circle distance on a sphere of radius 6371 km; it does not depend on the order of the points, is 0 for equal points, and is an error unless both vectors have two components.", "quantifier": "all latitudes in [-90, 90] and longitudes in [-180, 180] representable in float32; all sine, cosine and arc tangent functions within two units in the last place", "why_tests_cant": "The failures need nearly antipodal points, which a handful of city pairs does not contain.", "anchors": ["pkg/hnsw/distancer/geo_spatial.go:geoDist", "pkg/hnsw/distancer/geo_spatial.go:Distance", "pkg/hnsw/distancer/geo_spatial.go:SingleDist"]}
{"id": "C82", "title": "The HTTP server serves the enabled schemes and shuts down gracefully", "statement": "Serve answers on exactly the enabled schemes (http if none is named), each on its own listener, with the TLS settings falling back to those of plain HTTP; a scheme that does not exist is an error; a Listen that fails leaves nothing open, so that it can be tried again; signals and calls of Shutdown stop the server once; the shutdown waits until every server has finished and calls ServerShutdown if all finished without an error.", "quantifier": "all lists of schemes, settings, addresses in use, failures of the system calls, orders in which the servers finish, sequences of signals", "why_tests_cant": "The failures need a port that is taken at the right moment or a server that does not finish in time while another still works.", "anchors": ["restapi/server.go:Serve", "restapi/server.go:Listen", "restapi/server.go:Shutdown", "restapi/server.go:handleShutdown", "restapi/server.go:handleInterrupt", "restapi/server.go:hasScheme"]}
{"id": "C83", "title": "A request that panics does not block the others", "statement": "When the handling of a request panics and net/http recovers it, every lock the request held is given back: all other requests, index operations and ticks of the vector cache can still finish, and later requests are served.", "quantifier": "any number of goroutines, each serving any sequence of requests that end or panic at any point; all schedules", "why_tests_cant": "A lock that stays held shows only when another request comes that needs it, and tests that provoke a panic stop at the panic.", "anchors": ["pkg/hnsw/vector_cache.go:get", "pkg/hnsw/vector_cache.go:preload", "pkg/hnsw/vector_cache.go:replaceIfFull", "pkg/hnsw/insert.go:insert", "pkg/hnsw/insert.go:Add", "pkg/hnsw/search.go:searchLayerByVector", "pkg/hnsw/delete.go:findNewGlobalEntrypoint", "pkg/document/document.go:AddDocuments"]}
{"id": "C84", "title": "A query during additions returns what was there", "statement": "A query by vector that runs while other requests add documents ends without a panic, answers distinct documents nearest first, each stored at some moment of the query and at the distance reported, and misses no document within the bound that was stored before the query began.", "quantifier": "all interleavings of the accesses of the query with the writes of any number of additions, also with additions seen between two layers; all vectors, ef and bounds", "why_tests_cant": "The window between the linking of two layers is short; a test would have to stop an addition inside it.", "anchors": ["pkg/hnsw/search_with_max_dist.go:KnnSearchByVectorMaxDist", "pkg/hnsw/search.go:searchLayerByVector", "pkg/hnsw/neighbor_connections.go:neighborConnector.do", "pkg/hnsw/insert.go:insert", "pkg/document/document.go:GetNearestDocuments"]}
{"id": "C85", "title": "Reading requests have no effect on later requests", "statement": "A query by vector or by text and the reading of a document change nothing that a later request can notice: every later request is answered as if they had not been made.", "quantifier": "all histories of add, query and read requests and restarts, all answers of the store and the vectorizer", "why_tests_cant": "The effect of a query (it reloads the entry point) shows only in answers after later additions and only for vectors that few links lead to.", "anchors": ["pkg/document/document.go:GetNearestDocuments", "pkg/document/document.go:GetNearestDocumentsByVector", "pkg/document/document.go:GetDocument", "pkg/document/document.go:AddDocuments", "pkg/hnsw/insert.go:LoadEntrypoint", "pkg/hnsw/insert.go:Flush"]}
{"id": "C86", "title": "Requests running at the same time do not mix up their pooled working storage", "statement": "Queries and additions that run at the same time share pools of priority queues, slices and visited lists; each of them obtains the result it would obtain alone on the same index, whatever objects the pools hand out, also after calls that failed and never gave their storage back, and finishes after a number of own steps that the others do not influence.", "quantifier": "any number of goroutines, each making any sequence of layer searches, queries, neighbour selections and entry point searches; all interleavings of their queue operations; all choices of the pools", "why_tests_cant": "A queue used after it was given back is noticed only if another goroutine takes it out within the few operations in between.", "anchors": ["pkg/hnsw/pools.go:GetMin", "pkg/hnsw/pools.go:GetMax", "pkg/hnsw/pools.go:Put", "pkg/hnsw/visited/pool.go:Borrow", "pkg/hnsw/visited/pool.go:Return", "pkg/hnsw/search.go:searchLayerByVector", "pkg/hnsw/search_with_max_dist.go:KnnSearchByVectorMaxDist", "pkg/hnsw/heuristic.go:selectNeighborsHeuristic", "pkg/hnsw/index.go:findBestEntrypointForNode", "pkg/hnsw/neighbor_connections.go:doAtLevel"]}
{"id": "C87", "title": "Additions running at the same time do not write into each other's link lists", "statement": "Whatever additions run at the same time, the link list of a vertex in a layer never shares storage with another list, every list holds exactly what was put into it, and each addition links back exactly the neighbours it chose, in order, although the slice it goes through may at the same time be the link list that others append to.", "quantifier": "any number of additions, all neighbour choices within the limits of the layers, vertices read from the store with any spare capacity, all interleavings of setting links and linking back", "why_tests_cant": "Overwriting a slice that is being ranged over needs a second addition to link to the new vertex within the same few operations, with a list of the right capacity.", "anchors": ["pkg/hnsw/vertex.go:setConnectionsAtLevel", "pkg/hnsw/vertex.go:appendConnectionAtLevelNoLock", "pkg/hnsw/vertex.go:resetConnectionsAtLevelNoLock", "pkg/hnsw/vertex.go:upgradeToLevelNoLock", "pkg/hnsw/neighbor_connections.go:doAtLevel", "pkg/hnsw/neighbor_connections.go:connectNeighborAtLevel", "pkg/hnsw/insert.go:insert"]}
{"id": "C88", "title": "What acknowledged additions did is in the store, also when requests run at the same time", "statement": "When several requests add documents to a collection at the same time and all are acknowledged, a new process shows every vertex with the links that the old one showed.", "quantifier": "any number of concurrent requests, all interleavings of their steps, vertices dropped by the bounded node cache at any step, restarts", "why_tests_cant": "A Flush of one request must fall between two statements of another one's insertion; nothing goes wrong until the process is restarted.", "anchors": ["pkg/hnsw/insert.go:Flush", "pkg/hnsw/insert.go:insert", "pkg/hnsw/vertex.go:setConnectionsAtLevel", "pkg/hnsw/neighbor_connections.go:doAtLevel", "pkg/hnsw/neighbor_connections.go:connectNeighborAtLevel", "pkg/hnsw/index.go:nodeByID"]}
{"id": "C89", "title": "Searches of a compressed index", "statement": "Once an index is compressed, a search returns distinct ids that links lead to, with the quantizer's distances between the query and their codes, in ascending order and within bound and limit; it succeeds, and with a large enough ef on a connected index it returns every stored vector whose coded distance is within the bound.", "quantifier": "all quantizers, link graphs, code caches, goroutine schedules, queries, allow lists", "why_tests_cant": "Compression is only switched on through the configuration and needs product quantization from another library; the code cache loses its codes by a timer.", "anchors": ["pkg/hnsw/search.go:searchLayerByVector", "pkg/hnsw/search.go:distanceToByteNode", "pkg/hnsw/search.go:currentWorstResultDistanceToByte", "pkg/hnsw/index.go:distBetweenNodeAndVec", "pkg/hnsw/search_with_max_dist.go:KnnSearchByVectorMaxDist", "pkg/hnsw/compressed_vector_cache.go:get", "pkg/hnsw/compress.go:Compress"]}
{"id": "C90", "title": "Closing an index or deleting its collection ends its background work", "statement": "Every index starts two background goroutines. Dropping or shutting down an index, or deleting its collection, ends both; no call that ends one (Compress, UpdateUserConfig with compression, Drop, Shutdown) waits for ever, and none keeps additions and searches from returning. The number of background goroutines of the process is twice the number of registered indexes.", "quantifier": "all sets of calls on an index and all interleavings of them; all histories of requests that create, open and delete collections", "why_tests_cant": "A leaked goroutine shows in no answer, and the wait for a goroutine that has ended needs two compressions under way at the same time.", "anchors": ["pkg/hnsw/vector_cache.go:drop", "pkg/hnsw/vector_cache.go:watchForDeletion", "pkg/hnsw/compressed_vector_cache.go:drop", "pkg/hnsw/compressed_vector_cache.go:watchForDeletion", "pkg/hnsw/compress.go:Compress", "pkg/hnsw/config_update.go:UpdateUserConfig", "pkg/hnsw/index.go:Drop", "pkg/hnsw/index.go:Shutdown", "pkg/document/document.go:DeleteCollection", "pkg/document/document.go:CreateCollection"]}
{"id": "C91", "title": "Reading by a property answers with a document that has the value", "statement": "A read request with a property and a value is answered with a stored document whose property has this value, with all its properties, if there is one, and with an error otherwise; different requests ask the store for different things.", "quantifier": "all collections, properties, values, query strings and document stores that find by equality; the ambiguity for all document stores", "why_tests_cant": "The client joins property and value to one expression text; only names or values that contain the operator show the ambiguity.", "anchors": ["pkg/document/document.go:GetDocument", "adapters/handlers/documents.go:GetDocumentsHandlerFunc", "restapi/operations/fave_get_documents_parameters.go:BindRequest"]}
{"id": "C92", "title": "The documents of an answer are fetched in parallel without loss or leak", "statement": "The goroutines that fetch the documents of a near-documents answer never panic, never wait for ever, and all end, also when the caller returns early with an error; a successful answer has the document of every id in the place of this id and is not written any more afterwards, and an error is the error of one of the fetches.", "quantifier": "all numbers of ids, all results of the fetches and all schedules of the goroutines", "why_tests_cant": "Channel capacity, close and early return only matter under particular interleavings; a test run sees a few of them, and a goroutine left behind shows in no answer.", "anchors": ["pkg/document/document.go:GetNearDocumentsByText", "pkg/document/document.go:GetNearDocumentsByVector"]}
{"id": "C93", "title": "Concurrent requests do not access shared memory in conflict", "statement": "Whatever requests, index operations, clean-ups and cache ticks run at the same time, no two goroutines access the same shared variable of the service or of an index at the same time with one of them writing it: the map of open indices, the tombstones, the reset context, the pool of visited lists, the entry point, the maximum layer, the guard of the first insertion, the vertices and the slots of the vector cache.", "quantifier": "all numbers of goroutines, all sequences of operations of each and all interleavings", "why_tests_cant": "The race detector only sees the interleavings a test happens to run, and the tests run requests one after the other.", "anchors": ["pkg/document/document.go:indices", "pkg/hnsw/insert.go:LoadEntrypoint", "pkg/hnsw/insert.go:Flush", "pkg/hnsw/insert.go:insert", "pkg/hnsw/delete.go:resetIfEmpty", "pkg/hnsw/delete.go:findNewLocalEntrypoint", "pkg/hnsw/neighbor_connections.go:pickEntrypoint", "pkg/hnsw/vector_cache.go:preload"]}
{"id": "C94", "title": "An addition gets by without its entry point", "statement": "If the node an addition should start from can be read neither from memory nor from the store, the addition starts from another node of the index instead: the entry point of the index if that one is there, otherwise a remaining node of the highest layer, and never fails or stays unconnected while there is one.", "quantifier": "all indexes, entry points, deny lists and query vectors", "why_tests_cant": "Tests never lose the entry point: it takes an evicted or unwritten node, and the loop that looks for a replacement only ends by itself after a minute.", "anchors": ["pkg/hnsw/neighbor_connections.go:pickEntrypoint", "pkg/hnsw/neighbor_connections.go:tryEpCandidate", "pkg/hnsw/delete.go:findNewLocalEntrypoint"]}
{"id": "C95", "title": "Queries have no effect on the additions they run beside", "statement": "An add request during which other clients query the collection or read documents ends with the same answer and leaves the same index and documents as if nobody had asked: in particular every document it acknowledges is found afterwards.", "quantifier": "all collections, all documents and all reading requests between any two documents of the request and before its write-back", "why_tests_cant": "Tests run requests one after the other; the loss needs a query between the last document and the write-back and shows only in later answers.", "anchors": ["pkg/document/document.go:AddDocuments", "pkg/document/document.go:GetNearDocumentsByVector", "pkg/hnsw/insert.go:LoadEntrypoint", "pkg/hnsw/insert.go:Flush"]}
{"id": "C96", "title": "Dropping an index deletes its commit log and no other", "statement": "After Drop returned success nothing of the index's commit log is left, its background cycles have ended, and an index made again under the same name starts empty; the logs of all other indexes keep their files, whether Drop succeeds or not; a Drop that fails can be repeated.", "quantifier": "all names, roots and disks, all outcomes of closing, of stopping each cycle and of the removal", "why_tests_cant": "Tests drop one index in a directory of its own and never see a cycle that does not stop in time or a removal that fails half-way.", "anchors": ["pkg/hnsw/commit_logger.go:Drop", "pkg/hnsw/index.go:Drop", "pkg/hnsw/commit_logger.go:commitLogDirectory"]}
{"id": "C97", "title": "A vector's length can be checked before it is added", "statement": "ValidateBeforeInsert accepts a vector exactly if Add would accept it: at any time, vectors of the collection's length pass, others are refused, and a refused vector leaves nothing behind in the index.", "quantifier": "for all histories of additions, write-backs, queries and restarts, all vectors, states of the vector cache and answers of the vector source and the table", "why_tests_cant": "The check reads three things that change at different times: the table (empty until the first write-back), the entry point in memory (not loaded after a start) and the vector cache; a test of the function on a fresh index sees only one of the combinations.", "anchors": ["pkg/hnsw/insert.go:39-55", "pkg/hnsw/index.go:579-592", "pkg/hnsw/vector_cache.go:75-120"]}
{"id": "C98", "title": "Answers do not depend on how the documents were added", "statement": "Two collections that hold the same documents with the same vectors answer every nearest query alike, whatever the order of the documents, their distribution over requests, the random layers, and the restarts and queries in between.", "quantifier": "for all pairs of request histories that add the same documents, all random layers, goroutine timings, queries, distances and limits that reach the number of documents", "why_tests_cant": "It relates two runs; a test compares a few orders of a few documents and cannot choose the random layers, and with few documents or lucky layers the answers agree.", "anchors": ["pkg/document/document.go:287-454", "pkg/document/document.go:557-651", "pkg/hnsw/insert.go:201-311", "pkg/hnsw/search_with_max_dist.go:22-80"]}
{"id": "C99", "title": "A smaller distance or a limit only shortens the answer", "statement": "Of two nearest requests that differ in the distance alone, the one with the smaller distance answers the first documents of the other, with the same distances, up to the first document above it. A request with a limit answers the first documents of the request without one.", "quantifier": "for all collection states, whatever their size and however they were reached, all queries, distances, limits and goroutine timings", "why_tests_cant": "It relates two requests; a test asserts single answers, and a cut that drops or reorders a document only shows on particular distances and bounds.", "anchors": ["pkg/document/document.go:456-555", "pkg/document/document.go:557-651", "pkg/hnsw/search_with_max_dist.go:22-87"]}
{"id": "C100", "title": "Further documents take nothing away from an answer", "statement": "A document that a nearest query lists is still listed, with the same distance, after more documents were added, at its place among the new ones; nothing but the new documents joins the answer.", "quantifier": "for all pairs of request histories of which the second adds the documents of the first and more, all random layers, goroutine timings, queries, distances and limits that reach the number of documents", "why_tests_cant": "It relates the answers before and after any number of requests; the loss needs a collection of more than 61 documents with many alike, which no test has.", "anchors": ["pkg/document/document.go:287-454", "pkg/document/document.go:557-651", "pkg/hnsw/insert.go:201-311", "pkg/hnsw/heuristic.go:23-103"]}
