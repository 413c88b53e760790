{"id": "C01", "title": "Posting lists stay well formed", "statement": "Starting from a freshly initialised indexer, after any sequence of add, remove and flush calls (documents list each keyword text at most once) every keyword row holds its document ids in strictly ascending order without duplicates, no row is empty, the frequency / location column of the configured index type has exactly one entry per document, and the columns not used by the index type are empty.", "quantifier": "every finite history of AddDocToCache / RemoveDocToCache calls, every cache size >= 1, every index type, every admissible (possibly unstable) sort, every document whose keyword texts are distinct", "why_tests_cant": "the invariant has to survive every interleaving of batch insertions, in-place compactions and row deletions; tests check a handful of histories of 3-5 documents", "anchors": ["core/indexer.go:AddDocToCache", "core/indexer.go:AddDocs", "core/indexer.go:RemoveDocToCache", "core/indexer.go:RemoveDocs"]}
{"id": "C02", "title": "Binary search inside a posting list is exact", "statement": "For every strictly ascending id list, every sub-range start..end that lies inside it and every id, the position search terminates, never reads out of range, reports 'found' exactly when the id occurs in that range and then returns its position, and otherwise returns the unique insertion point of the range.", "quantifier": "all ascending id lists, all ranges, all ids", "why_tests_cant": "off-by-one errors of a binary search live on the range boundaries; unit tests fix one list", "anchors": ["core/indexer.go:searchIndex"]}
{"id": "C03", "title": "AND search is sound and complete", "statement": "In every state reachable by indexing, removing and flushing, a plain search (tokens plus labels, optional DocIds filter) reports exactly the ids of the live documents that carry every requested keyword and pass the filter: nothing missing, nothing extra.", "quantifier": "all reachable index states, all keyword lists (with repetitions and unknown words), all filters, all three index types", "why_tests_cant": "the early exits and the pointer hand-over between rows are data dependent; tests use ten documents at most", "anchors": ["core/indexer.go:Lookup", "core/indexer.go:internalLookup"]}
{"id": "C04", "title": "Search results come once each, newest id first, and counting agrees", "statement": "The ids returned by a plain search are strictly descending in byte-wise string order (hence without duplicates), NumDocs equals the number of returned documents, and a count-only search returns no documents but the same NumDocs.", "quantifier": "all reachable index states and all queries", "why_tests_cant": "needs all rows and all queries; a test observes single result lists", "anchors": ["core/indexer.go:Lookup", "core/indexer.go:internalLookup"]}
{"id": "C05", "title": "Forced updates make the indexer a plain map", "statement": "If every call carries the force-update flag, then whatever the order and number of adds and removes, no call crashes and the set of live documents (id and content) is exactly the finite map obtained by executing the adds as insert/overwrite and the removes as delete; HasDoc answers membership of that map.", "quantifier": "all histories of forced adds, forced removes and forced empty flushes; all cache sizes >= 1; ids different from the reserved id 0 for removals", "why_tests_cant": "quantifies over all histories", "anchors": ["core/indexer.go:AddDocToCache", "core/indexer.go:RemoveDocToCache", "core/indexer.go:HasDoc"]}
{"id": "C06", "title": "Batching is transparent after a flush", "statement": "For any history of unforced or forced adds and removes in which no id that still waits in the add cache is added or removed again, a final forced flush leaves exactly the documents of the map semantics (last call wins) live and both caches empty - whatever the cache size and whenever intermediate automatic flushes happened.", "quantifier": "all histories without conflicting operations on a waiting id, all cache sizes >= 1, all admissible sorts", "why_tests_cant": "automatic flushes happen at history-dependent moments; tests use a cache size that never fills or one fixed fill", "anchors": ["core/indexer.go:AddDocToCache", "core/indexer.go:RemoveDocToCache"]}
{"id": "C07", "title": "A removed document is invisible to plain search at once", "statement": "Once a remove call for a live document has returned, no plain search returns the document and HasDoc is false, even before the removal has been flushed. If no other version of the id waits in the add cache, this stays so until the same id is added again; if one waits, it comes back at the next flush.", "quantifier": "all reachable states, all live ids except the reserved id 0, all queries, all continuations without an add of that id", "why_tests_cant": "ranges over all continuations of the history", "anchors": ["core/indexer.go:RemoveDocToCache", "core/indexer.go:internalLookup", "core/indexer.go:HasDoc"]}
{"id": "C08", "title": "Removing documents leaves all others untouched", "statement": "Flushing a batch of removals deletes from every row exactly the entries of the removed ids; ids, order, frequencies and locations of all remaining entries are unchanged, rows that become empty disappear and no other row does.", "quantifier": "all well formed tables, all sorted id batches (including ids that are not indexed and repeated ids)", "why_tests_cant": "in-place two-pointer compaction over three parallel slices; errors appear only for particular alignments of both lists", "anchors": ["core/indexer.go:RemoveDocs"]}
{"id": "C09", "title": "Re-indexing replaces the old version", "statement": "Adding a document whose id is live with forced update makes the new version live and removes every trace of the old one, provided no other version of the id waits in the add cache: afterwards a search matches the id through exactly the keywords of the new version.", "quantifier": "all reachable states, all documents whose id does not wait in the add cache", "why_tests_cant": "tests try one replacement", "anchors": ["core/indexer.go:AddDocToCache", "core/indexer.go:AddDocs", "core/indexer.go:RemoveDocs"]}
{"id": "C10", "title": "The live document counter is exact", "statement": "In every reachable state the indexer's document counter (the N of BM25, and the guard that makes an empty index answer nothing) equals the number of live documents; it never under-runs (the 64-bit counter is modelled without overflow).", "quantifier": "all reachable states", "why_tests_cant": "the counter is decremented and incremented in four places depending on three states per document", "anchors": ["core/indexer.go:AddDocToCache", "core/indexer.go:AddDocs", "core/indexer.go:RemoveDocToCache"]}
{"id": "C11", "title": "Cache arrays never overflow while waiting ids are distinct", "statement": "The remove queue (twice the cache size) never overflows on any history, and no call crashes as long as no id is added while an earlier add of the same id is still waiting in the add cache.", "quantifier": "all histories, all cache sizes >= 1", "why_tests_cant": "overflow needs histories as long as the cache (300000 by default)", "anchors": ["core/indexer.go:AddDocToCache", "core/indexer.go:RemoveDocToCache", "core/indexer.go:Init"]}
{"id": "C12", "title": "Repeated unforced updates of one document crash the indexer (boundary of C11)", "statement": "An add call crashes exactly when the add cache is already full at its start. That state is reachable for every cache size n >= 2: index X with force, index X n more times without force, index anything once more.", "quantifier": "all states (crash characterisation) and all cache sizes >= 2 (reachability)", "why_tests_cant": "with the default size a test would need 300001 unflushed updates", "anchors": ["core/indexer.go:AddDocToCache"]}
{"id": "C13", "title": "Duplicate adds in one batch: exactly one version survives, not necessarily the last", "statement": "When several adds of one id wait in the add cache, the flush that commits the id makes exactly one of the waiting versions live. The documented 'the last one wins' does not hold: even with a stable sort, the older version wins after add a(v1), add a(v2), add x where x was live.", "quantifier": "all reachable states, all admissible sorts (positive part); explicit history (negative part)", "why_tests_cant": "depends on the sort used and on the swap order inside the cache", "anchors": ["core/indexer.go:AddDocToCache", "core/indexer.go:AddDocs", "types/doc_index_data.go:DocsIndex"]}
{"id": "C14", "title": "Removing a document that is only waiting to be added has no effect", "statement": "A remove call for an id that is neither live nor waiting for deletion changes nothing about that id: a later flush still makes the waiting document live. Hence 'index, remove, flush leaves the document absent' fails.", "quantifier": "all reachable states and ids (exact effect), all fresh documents (failure of the naive claim)", "why_tests_cant": "needs the unflushed history", "anchors": ["core/indexer.go:RemoveDocToCache"]}
{"id": "C15", "title": "The reserved document id 0", "statement": "No sequence of remove calls naming the id 0 ever removes a live document with id 0 from the core indexer (it is only ever replaced by another add), and through the engine a document with id 0 never becomes searchable.", "quantifier": "all reachable indexer states; all engine requests", "why_tests_cant": "universal over histories", "anchors": ["core/indexer.go:RemoveDocToCache", "segment.go:segmenterWorker"]}
{"id": "C16", "title": "Exactly which plain searches crash", "statement": "A plain search never crashes on a document-id or frequency index. On a location index it crashes exactly when it carries no tokens and at least one live document carries all labels and passes the filter (a labels-only search that has a hit).", "quantifier": "all reachable states, all queries", "why_tests_cant": "crash depends on the combination of index type, query shape and data", "anchors": ["core/indexer.go:internalLookup", "core/indexer.go:computeTokenProximity"]}
{"id": "C17", "title": "Token proximity is realisable", "statement": "For every list of tokens and non-empty location lists, the i-th snippet location is one of the i-th token's locations; and for locations and token lengths below 2^31 and fewer than 2^30 tokens the reported proximity is non-negative and equals the cost sum |P(i+1) - P(i) - len(token i)| of the reported snippet locations.", "quantifier": "all tokens, all location lists (sorted or not)", "why_tests_cant": "dynamic programming with back-pointers; correctness of the back-pointers is a global invariant", "anchors": ["core/indexer.go:computeTokenProximity"]}
{"id": "C18", "title": "Token proximity is minimal when occurrences do not overlap", "statement": "If location lists are ascending and no occurrence of token i+1 starts at or inside an occurrence of token i, the reported proximity is the minimum of the cost over all choices of one location per token. Without the non-overlap condition it need not be: one token of length 6 at 0 followed by one at 1, 2 or 6 reports 4 instead of 0.", "quantifier": "all token/location lists meeting the condition, all alternative choices; explicit counterexample for the rest", "why_tests_cant": "minimum over exponentially many choices", "anchors": ["core/indexer.go:computeTokenProximity"]}
{"id": "C19", "title": "Every field of a returned document comes from that document", "statement": "For every hit of a plain search the BM25 value is the documented formula evaluated in float32, left to right, over the hit's own term frequencies (location counts on a location index), the number of indexed documents carrying each term, the live document count and the average length; token locations are the hit's own location lists; on a document-id index all these fields are zero.", "quantifier": "all reachable states, all queries, all logarithm implementations", "why_tests_cant": "row pointers of all tokens must point at the hit when it is reported", "anchors": ["core/indexer.go:internalLookup"]}
{"id": "C20", "title": "Accumulated token length is exact below 2^24 and drifts above", "statement": "As long as document lengths are non-negative integers whose sum (over the documents that were live together with waiting deletions) never exceeds 2^24, the accumulated total equals the sum of the lengths of the indexed documents. Beyond that it is not: adding lengths 2^24 and 1 and removing the first leaves a total of 0 although a document of length 1 is live, so every BM25 becomes 0.", "quantifier": "all histories within the bound; explicit history beyond it", "why_tests_cant": "float32 accumulation error appears only after millions of tokens", "anchors": ["core/indexer.go:AddDocs", "core/indexer.go:RemoveDocs"]}
{"id": "C21", "title": "MUST logic search is exact on a flushed index", "statement": "When no removals are pending, a logic search with a must part returns, in descending id order and without duplicates, exactly the live documents in the DocIds filter that carry all must words, at least one should word (if a should part is given) and none of the not-in words.", "quantifier": "all flushed reachable states, all word lists, all filters", "why_tests_cant": "all boolean combinations of word lists over all states", "anchors": ["core/indexer.go:LogicLookup", "core/indexer.go:findInMustTable", "core/indexer.go:findInShouldTable", "core/indexer.go:findInNotInTable"]}
{"id": "C22", "title": "SHOULD logic search is exact except for the DocIds filter", "statement": "When no removals are pending, a logic search with a should part and no must part returns each document that carries a should word and no not-in word exactly once - but the DocIds filter of the request is ignored, so documents outside the filter are returned.", "quantifier": "all flushed reachable states, all word lists, all filters", "why_tests_cant": "needs all states and filters", "anchors": ["core/indexer.go:LogicLookup", "core/indexer.go:unionTable"]}
{"id": "C23", "title": "NOT-only logic search returns the excluded documents", "statement": "A logic search with only a not-in part returns exactly the occurrences of the documents that DO carry one of the not-in words, once per word they carry; it never returns a document free of those words.", "quantifier": "all reachable states, all word lists", "why_tests_cant": "needs all states", "anchors": ["core/indexer.go:LogicLookup"]}
{"id": "C24", "title": "Which words each logic part uses", "statement": "The must part uses Expr.Must if non-empty, else the query words; the should part uses Expr.Should if non-empty, else Expr.Must if non-empty, else the query words; the not-in part uses Expr.NotIn, else Expr.Should, else Expr.Must, else the query words. Consequently a query text combined with Should and Expr.Must is ignored entirely, and a request whose only logic content is Expr.NotIn does not exclude anything.", "quantifier": "all requests and states", "why_tests_cant": "combinations of three flags, three word lists and the query words", "anchors": ["core/indexer.go:Lookup", "core/indexer.go:LogicLookup"]}
{"id": "C25", "title": "Exactly which logic searches crash", "statement": "A logic search crashes exactly when the must flag is set, neither query words nor Expr.Must are given, and the should part (Expr.Should) names at least one indexed word.", "quantifier": "all reachable states with at least one live document, all requests", "why_tests_cant": "crash depends on a rare combination of flags and data", "anchors": ["core/indexer.go:LogicLookup"]}
{"id": "C26", "title": "Logic search sees documents whose removal is pending", "statement": "A logic search does not look at document states: a document removed but not yet flushed is still returned, whereas the plain search does not return it. After a forced flush both agree.", "quantifier": "all reachable states, all must/should queries", "why_tests_cant": "needs the unflushed window", "anchors": ["core/indexer.go:LogicLookup"]}
{"id": "C27", "title": "The ranker is a last-write-wins map", "statement": "After any sequence of add and remove calls, the ranker knows a document iff its last call was an add, and returns the fields, content and attributes of that last add.", "quantifier": "all call sequences", "why_tests_cant": "all histories", "anchors": ["core/ranker.go:AddDoc", "core/ranker.go:RemoveDoc"]}
{"id": "C28", "title": "Ranking keeps exactly the scorable documents, sorted", "statement": "For every candidate list and scoring function, ranking without paging returns exactly the candidates known to the ranker with a non-empty score vector (same multiplicity), each with its own scores and payload, ordered by lexicographically descending scores (ascending when reverse order is requested), and the reported total is their number.", "quantifier": "all candidate lists, all ranker contents, all scoring functions without NaN, all admissible sorts, both output modes", "why_tests_cant": "all inputs and all sort implementations", "anchors": ["core/ranker.go:Rank", "core/ranker.go:rankOutIDs", "core/ranker.go:rankOutDocs", "types/search_response.go"]}
{"id": "C29", "title": "Paging is slicing", "statement": "For non-negative offset and limit, paged ranking returns exactly the slice [offset, offset+limit) of the unpaged result (limit 0 = to the end), consecutive pages tile the full result without gap or overlap, and the total does not depend on paging.", "quantifier": "all results, offsets, limits whose sum fits in 63 bits", "why_tests_cant": "boundary cases around the end of the list for every length", "anchors": ["core/ranker.go:RankDocID", "core/ranker.go:RankDocs", "core/ranker.go:maxOutput"]}
{"id": "C30", "title": "Exactly which paging parameters crash", "statement": "Paging crashes exactly when the computed slice bounds are invalid: a negative offset, or a limit (after 64-bit addition of the offset) that makes the end smaller than the start; in particular limit = 2^63-1 with offset >= 1 crashes in the engine because the sum wraps around.", "quantifier": "all 64-bit offsets and limits", "why_tests_cant": "needs all integer corner cases", "anchors": ["core/ranker.go:RankDocs", "core/ranker.go:maxOutput", "engine.go:maxRankOutput", "ranker_worker.go:rankerRank"]}
{"id": "C31", "title": "The result order is a strict weak order unless a score is NaN", "statement": "On score vectors without NaN the ordering used for results is irreflexive, transitive and has transitive incomparability, two vectors are incomparable iff they are component-wise equal and equally long, and reversal flips it. With NaN transitivity of incomparability fails.", "quantifier": "all pairs/triples of score vectors", "why_tests_cant": "order laws are universal statements", "anchors": ["types/search_response.go:ScoredDocs.Less", "types/search_response.go:ScoredIDs.Less"]}
{"id": "C32", "title": "Sharded search equals unsharded search", "statement": "However the documents are spread over shards, however the shard answers arrive, and whatever admissible sorts are used, a ranked search without timeout returns as page [offset, offset+limit) a document list whose score sequence is exactly that slice of the sorted score sequence of all matching documents; every returned document is a match with its own scores, none occurs more often than it matches.", "quantifier": "all distributions over any number of shards, all arrival orders, all page parameters (non-negative, no wrap), all NaN-free scores", "why_tests_cant": "all distributions and arrival orders", "anchors": ["engine.go:NotTimeOut", "engine.go:RankID", "engine.go:Ranks", "engine.go:maxRankOutput", "ranker_worker.go:rankerRank"]}
{"id": "C33", "title": "NumDocs of a ranked search", "statement": "NumDocs of a ranked search without timeout is the total number of matching, scorable documents over all shards, independent of paging and arrival order. A count-only search instead counts matches before scoring: it is never smaller, and differs exactly by the matches that the ranker does not know or that get no scores.", "quantifier": "all shard contents, queries, scorers", "why_tests_cant": "needs all scorers and ranker contents", "anchors": ["engine.go:Ranks", "engine.go:NotTimeOut", "indexer_worker.go:indexerLookup", "ranker_worker.go:rankerRank"]}
{"id": "C34", "title": "A timeout only loses whole shards", "statement": "With a timeout, for every subset of shards that answer in time and every order, the result is the ranked result of exactly those shards; if the timeout flag is false every shard has been included; the reply channel is large enough that no shard worker ever blocks on it, even after the caller has gone.", "quantifier": "all arrival/timeout schedules, all shard counts", "why_tests_cant": "schedules", "anchors": ["engine.go:TimeOut", "engine.go:Search", "indexer_worker.go:indexerLookup", "ranker_worker.go:rankerRank"]}
{"id": "C35", "title": "Shard choice is total and in range", "statement": "The shard computed from any 32-bit hash is the remainder modulo the shard count, hence always a valid shard for every shard count from 1 to 2^32-1.", "quantifier": "all hash values, all shard counts", "why_tests_cant": "2^64 cases", "anchors": ["engine.go:getShard"]}
{"id": "C36", "title": "Updating a document with other content can leave the old version searchable", "statement": "Re-indexing an id sends the new version to the shard of hash(id + new content). If that shard differs from the old one, then after all updates are flushed the old version is still live in its shard and still matches its old words, next to the new one. If the shards coincide the old version is gone.", "quantifier": "all hash functions, shard counts, documents, and shard states", "why_tests_cant": "depends on hash values of contents", "anchors": ["engine.go:internalIndexDoc", "engine.go:getShard", "segment.go:segmenterWorker"]}
{"id": "C37", "title": "RemoveDoc reaches every shard", "statement": "A forced engine-level removal of a live id makes the id disappear from the indexers of all shards and from all rankers, whichever shards hold it.", "quantifier": "all shard contents", "why_tests_cant": "all distributions", "anchors": ["engine.go:RemoveDoc", "indexer_worker.go:indexerRemoveDoc", "ranker_worker.go:rankerRemoveDoc"]}
{"id": "C38", "title": "Request counters account for every in-flight request", "statement": "In every reachable state of the concurrent pipeline, under every schedule, number of indexing requests = number of documents handed to indexers + number of requests still in a queue or in a worker's hands; likewise for removals (per shard) and forced updates (per shard). So the equalities that Flush waits for hold only when nothing is in flight.", "quantifier": "all schedules, any number of segmenter threads, shards and clients, all request sequences", "why_tests_cant": "schedules", "anchors": ["engine.go:Index", "engine.go:RemoveDoc", "engine.go:Flush", "segment.go:segmenterWorker", "indexer_worker.go:indexerAddDoc", "indexer_worker.go:indexerRemoveDoc"]}
{"id": "C39", "title": "After Flush everything indexed before is in the inverted index", "statement": "A single client indexes any number of documents with pairwise different fresh ids and calls Flush. Under every schedule of segmenters and indexer workers, when Flush's last wait condition holds, each document is live in the indexer of its shard with its content, and no other document is live there.", "quantifier": "all schedules, shard counts, thread counts, document sets", "why_tests_cant": "schedules", "anchors": ["engine.go:Flush", "engine.go:Index", "segment.go:segmenterWorker", "indexer_worker.go:indexerAddDoc", "core/indexer.go:AddDocToCache"]}
{"id": "C40", "title": "Flush does not wait for the rankers", "statement": "There is a schedule in which Flush returns, and a ranked search issued afterwards misses a document indexed before the Flush, because the ranker has not yet received it; there is also a schedule in which an index request issued after a flushed removal of the same id is cancelled by the late ranker removal, so that the document stays unfindable in ranked searches for good.", "quantifier": "existence of schedules of the pipeline model; and for all schedules: after ranker queues drained the first anomaly is gone", "why_tests_cant": "requires a particular interleaving", "anchors": ["engine.go:Flush", "segment.go:segmenterWorker", "ranker_worker.go:rankerAddDoc", "ranker_worker.go:rankerRemoveDoc"]}
{"id": "C41", "title": "Adding and removing concurrently can deadlock a shard", "statement": "The add worker takes the table lock and then the remove-cache lock, the remove worker takes them in the opposite order: a state in which both wait for each other for ever, and every search on the shard blocks, is reachable from a state with one live document. Without a concurrent remove call (or if no waiting document is live) no deadlock is reachable.", "quantifier": "schedules of the lock-level model", "why_tests_cant": "requires a particular interleaving", "anchors": ["core/indexer.go:AddDocToCache", "core/indexer.go:RemoveDocToCache", "core/indexer.go:Lookup"]}
{"id": "C42", "title": "A document removed in the middle of its flush can never be indexed again", "statement": "If a remove call runs between the scan and the insertion step of a flush, the waiting document ends up permanently marked as 'waiting for deletion' without being queued for deletion. From such a state, whatever calls follow, the document never becomes live again.", "quantifier": "one schedule for reachability; all continuations for permanence", "why_tests_cant": "requires an interleaving, then all continuations", "anchors": ["core/indexer.go:AddDocToCache", "core/indexer.go:AddDocs", "core/indexer.go:RemoveDocToCache"]}
{"id": "C43", "title": "A removal can be lost while another removal batch is being processed", "statement": "The remove worker releases its lock before it sorts and processes its batch, which is a view of the shared array. There is a schedule with a concurrent add worker in which a batch entry is overwritten, so that a removed document stays in the inverted index after both workers have finished.", "quantifier": "schedules of the array-level model", "why_tests_cant": "requires a data race", "anchors": ["core/indexer.go:RemoveDocToCache", "core/indexer.go:AddDocToCache"]}
{"id": "C44", "title": "HasDoc asks exactly the shards and changes no answer", "statement": "HasDoc is true iff the id is live in some shard's indexer, for every shard count; calling it never changes the answer of later HasDoc or search calls.", "quantifier": "all shard contents and ids, any number of calls", "why_tests_cant": "universal; the call appends indexers to the engine each time", "anchors": ["riot.go:HasDoc"]}
{"id": "C45", "title": "Persistent store behaves as a map and recovery reloads exactly it", "statement": "Set/Delete/Has/Get/ForEach of the store obey the map laws; a restart re-indexes exactly the key/value pairs present in all store shards, each once, decoded to the data that was encoded.", "quantifier": "all store contents, all numbers of store shards, all codecs with the round-trip law", "why_tests_cant": "all contents", "anchors": ["store_worker.go:storeInit", "store_worker.go:storeIndexDoc", "store/store.go"]}
{"id": "C46", "title": "Store removal is not ordered with indexing", "statement": "The store removal runs in its own goroutine: there are schedules in which, after every request has completed, a document whose last call was RemoveDoc is still stored (and comes back on restart), and in which a document whose last call was Index is not stored. If each removal's goroutine finishes before the next call on that id, the store equals the map semantics.", "quantifier": "schedules", "why_tests_cant": "requires particular interleavings", "anchors": ["engine.go:RemoveDoc", "store_worker.go:storeRemoveDoc", "store_worker.go:storeIndexDoc", "engine.go:Close"]}
{"id": "C47", "title": "Stop words are never indexed", "statement": "Whatever the segmentation mode, content, user tokens and labels, no stop word becomes a keyword of an indexed document.", "quantifier": "all inputs, all segmenter behaviours, all modes", "why_tests_cant": "all inputs", "anchors": ["segment.go:segmenterData", "segment.go:splitData", "segment.go:defaultTokens", "segment.go:makeTokensMap", "segment.go:segmenterWorker"]}
{"id": "C48", "title": "User tokens and labels all become keywords with the right locations", "statement": "Every user token and every label that is not a stop word becomes a keyword; labels never erase locations found in the text; a keyword's frequency is its number of locations.", "quantifier": "all inputs", "why_tests_cant": "all inputs", "anchors": ["segment.go:segmenterWorker", "segment.go:makeTokensMap"]}
{"id": "C49", "title": "Whitespace queries in no-segmenter mode", "statement": "In no-segmenter mode a query with leading, trailing or doubled spaces yields an empty search word and therefore finds nothing, although its words are indexed; a query without such spaces is split into exactly its words.", "quantifier": "all query texts and index contents", "why_tests_cant": "all query texts", "anchors": ["engine.go:Tokens", "engine.go:Segment", "segment.go:ForSplitData"]}
{"id": "C50", "title": "Whole-word split indexes every word", "statement": "In whole-word mode every space-separated word of the lower-cased content that is non-empty and not a stop word becomes a keyword, locations within each keyword are strictly ascending and all locations used are exactly 1..numTokens.", "quantifier": "all contents, all split modes", "why_tests_cant": "all contents", "anchors": ["segment.go:ForSplitData"]}
{"id": "C51", "title": "uint64 sorting functions", "statement": "Asc, Desc, StableAsc and StableDesc terminate without out-of-range access on every slice and leave an ascending (descending) permutation of the input; IsSortedAsc/IsSortedDesc recognise exactly sorted slices.", "quantifier": "all slices of any length", "why_tests_cant": "hand-specialised quicksort / heapsort / symmerge with many index computations", "anchors": ["core/uint64.go"]}
{"id": "C52", "title": "Option defaults", "statement": "Initialising engine options is idempotent, keeps every explicitly set field and fills every zero field with the documented default.", "quantifier": "all option values", "why_tests_cant": "all combinations of set and unset fields", "anchors": ["types/engine_init_options.go:Init", "types/indexer_init_options.go:Init"]}
{"id": "C53", "title": "Distributed search truncation is off by one", "statement": "When more than maxOutputs documents are gathered from several hosts, the merged answer has maxOutputs-1 documents (and crashes for maxOutputs = 0); they are the best maxOutputs-1 in (timestamp, id) descending order.", "quantifier": "all gathered lists and limits", "why_tests_cant": "all sizes", "anchors": ["net/http/dist.go:WgDist", "net/grpc/search.go:wgGrpc"]}
{"id": "C54", "title": "Heartbeat restarts on accumulated, not consecutive, failures", "statement": "The heartbeat monitor triggers a restart after more than the configured number of failed probes in total since the last restart, however many successful probes happened in between.", "quantifier": "all probe sequences", "why_tests_cant": "all sequences", "anchors": ["net/heartb/heart.go"]}
{"id": "C55", "title": "Memory statistics", "statement": "Unit conversions are truncating divisions by powers of 1024; used-memory difference wraps around modulo 2^64 when the current reading is smaller than the initial one.", "quantifier": "all readings", "why_tests_cant": "all 64-bit values", "anchors": ["info.go"]}
{"id": "C56", "title": "Document-info group counters", "statement": "A document exists in the group iff it was added; the document counter equals the number of add calls, which is at least the number of distinct documents and differs exactly by the overwrites.", "quantifier": "all call sequences", "why_tests_cant": "all histories", "anchors": ["core/data.go"]}
{"id": "C57", "title": "With two clients Flush can return although its own writes are not applied", "statement": "Flush compares sums of counters over all shards and all clients. With two shards and a second client issuing removals there is a schedule in which a client's Flush returns while the removal it issued before is still queued at the shard that holds the document, which is therefore still found.", "quantifier": "existence of a schedule, for either evaluation order of Flush's comparisons", "why_tests_cant": "requires a particular interleaving of two clients and six workers", "anchors": ["engine.go:Flush", "engine.go:RemoveDoc", "indexer_worker.go:indexerRemoveDoc"]}
{"id": "C58", "title": "Updating a document is not atomic for concurrent searches", "statement": "A live document is updated by a forced add: there is a schedule in which a search issued before and one issued after the update find it, and a search in between finds neither version. If a removal of another document is flushed at the same time, the document can still be missing after both calls have returned, waiting in the cache for the next flush.", "quantifier": "existence of schedules of the lock-level model", "why_tests_cant": "requires a particular interleaving", "anchors": ["core/indexer.go:AddDocToCache", "core/indexer.go:RemoveDocToCache", "core/indexer.go:Lookup"]}
{"id": "C59", "title": "Concurrent workers can make a search return a document twice", "statement": "There is a schedule of one add worker and one remove worker after which the row of a keyword contains the same document twice, and a search returns it twice.", "quantifier": "existence of a schedule of the lock-level model", "why_tests_cant": "requires a data race", "anchors": ["core/indexer.go:AddDocs", "core/indexer.go:RemoveDocs", "core/indexer.go:RemoveDocToCache"]}
{"id": "C60", "title": "Without interference a shard under concurrent searches behaves sequentially", "statement": "If only the add worker runs, or only the remove worker, together with any number of searches, then every finished execution ends in the state of the sequential model; likewise if both run, the added documents are new and pairwise different, and the remove worker only gets flush requests.", "quantifier": "all states, all calls, all schedules of the lock-level model", "why_tests_cant": "all interleavings", "anchors": ["core/indexer.go:AddDocToCache", "core/indexer.go:AddDocs", "core/indexer.go:RemoveDocToCache", "core/indexer.go:RemoveDocs", "core/indexer.go:Lookup"]}
{"id": "C61", "title": "Index then search finds the document in no-segmenter mode", "statement": "In no-segmenter mode, after a forced Index call for a document that is neither re-indexed on its shard nor removed later, every search whose words all occur in the document's text and whose labels are labels of the document finds it on that shard.", "quantifier": "all texts, ids, call histories, shard counts, hash functions, queries", "why_tests_cant": "all texts and all call histories; crosses segmentation, routing, batching and lookup", "anchors": ["segment.go:segmenterWorker", "segment.go:ForSplitData", "engine.go:Index", "engine.go:Tokens", "core/indexer.go:AddDocs", "core/indexer.go:Lookup"]}
{"id": "C62", "title": "A changed number of store shards resurrects and loses documents", "statement": "When the engine is opened with another StoreShards value, a copy of a document outside the shard its id now hashes to survives every later Index and RemoveDoc call and is re-indexed on every restart, beside the current version; documents only in files above the new number are never read; HasDocDB sees only the shard of the id.", "quantifier": "all programs, schedules, contents and shard numbers", "why_tests_cant": "needs configuration changes combined with arbitrary later histories", "anchors": ["engine.go:Store", "engine.go:Index", "engine.go:RemoveDoc", "store_worker.go:storeInit", "riot.go:HasDocDB"]}
{"id": "C63", "title": "Recovered documents are not searchable until something flushes the cache", "statement": "Recovery indexes stored documents without the force flag: if fewer documents than the add-cache size are stored, then at no point of any execution of the recovery does any shard report or find any of them.", "quantifier": "all store contents, schedules, shard numbers, queries", "why_tests_cant": "an absence over all schedules and queries", "anchors": ["store_worker.go:storeInit", "engine.go:Store", "core/indexer.go:AddDocToCache"]}
{"id": "C64", "title": "Restart restores exactly the stored documents", "statement": "Once the recovery goroutines and the pipeline have come to rest, one forced flush makes every indexer shard show exactly the stored decodable documents that hash to it (with the keywords of their re-segmented content), whatever the interleaving.", "quantifier": "all store contents, schedules, shard numbers", "why_tests_cant": "all interleavings of several recovery goroutines with the pipeline", "anchors": ["store_worker.go:storeInit", "engine.go:Store", "segment.go:segmenterWorker", "indexer_worker.go:indexerAddDoc"]}
{"id": "C65", "title": "HasDoc next to running workers", "statement": "HasDoc appends an empty indexer to engine.indexers in each iteration. If this append reallocates the slice while a worker is inside a method of shard s, then in no continuation does any worker get into shard s again, and no later write to it is seen; such a moment exists for every number of shards and growth policy. If all reallocating appends happen while no worker is inside an indexer, no shard is ever blocked without a worker inside, and no value is lost.", "quantifier": "all numbers of shards, capacities, growth functions, schedules and continuations", "why_tests_cant": "needs an append at one moment inside a critical section; the claim is about all continuations", "anchors": ["riot.go:HasDoc", "engine.go:Init", "indexer_worker.go:indexerAddDoc", "indexer_worker.go:indexerRemoveDoc", "indexer_worker.go:indexerLookup"]}
{"id": "C66", "title": "Engine start-up: exactly when Init succeeds and what it sets up", "statement": "Init returns normally exactly for the stated conditions on options, environment and engine state, and then the numbers and sizes of shards, channels, workers and store files are those of the effective options; a second Init ends the process; negative thread numbers are accepted although no look-up workers are started; HasDocDB panics without a store; store file names of different shards differ.", "quantifier": "all option values, environments, engine states", "why_tests_cant": "the space of option combinations and environments is infinite", "anchors": ["engine.go:Init", "engine.go:Store", "engine.go:CheckMem", "engine.go:WithGse", "store/store.go:OpenStore", "riot.go:HasDocDB"]}
{"id": "C67", "title": "Arguments of New and NewEngine, crashes of SearchDoc and SearchID", "statement": "New and NewEngine panic exactly for the stated argument lists and otherwise start an engine with the stated options; SearchDoc and SearchID panic exactly when the answer holds no document list of the expected type, in particular for count-only requests.", "quantifier": "all argument lists, requests and answers", "why_tests_cant": "the arguments are untyped lists; crash conditions over all of them", "anchors": ["riot.go:New", "riot.go:NewEngine", "engine.go:SearchDoc", "engine.go:SearchID"]}
{"id": "C68", "title": "What one server answers", "statement": "A search over HTTP or gRPC is answered with the page of the hits in order of score that the engine returns for the offset and limit in force (those of the request if it gives a limit, else those of the configuration), shown newest first by timestamp and then by id. If the limit in force is 0, which means no limit to the engine, the answer is empty. The HTTP handler crashes exactly if the engine does, if the page holds a document whose attributes are not of the server's own type, or if the limit is negative.", "quantifier": "for all shard contents, queries, offsets, limits, configurations and sorting algorithms", "why_tests_cant": "the page is taken in one order and shown in another, so the effect depends on how scores and timestamps are correlated in the whole index", "anchors": ["net/http/http.go:54-130", "net/grpc/search.go:67-101", "net/http/search.go:22-64", "net/com/search.go:114-129"]}
{"id": "C69", "title": "Gathering the replies of other hosts", "statement": "The distributing servers collect replies in package-level variables shared by all requests. If no two requests overlap, every reply in an answer belongs to that request; if in addition no two reply goroutines overlap, the answer is complete. Otherwise a reply can be lost, an answer can contain replies to another client's request, and the reset for a new request can wipe replies that another request is waiting for.", "quantifier": "for all interleavings of requests and reply goroutines", "why_tests_cant": "data races depend on scheduling; a test sees one interleaving", "anchors": ["net/http/dist.go:31-115", "net/grpc/search.go:104-178"]}
{"id": "C70", "title": "The gRPC server and its clients", "statement": "Nothing a client can send initialises the engine used by gRPC Delete, so every gRPC Delete ends the process, whatever was done before, while HTTP search, add and delete work after InitEngine. Documents sent with InitGrpcc lose their id, labels and force flag. The gRPC server drops the labels and fields of a document and hands on its id, content, tokens and force flag. A gRPC search without Logic or Logic.Expr crashes. Otherwise the distributing gRPC server sends the offset and limit in force to every host and merges the answers as in C53; one unreachable host ends the process.", "quantifier": "for all sequences of server calls, requests, configurations and host answers", "why_tests_cant": "whole-history claim about which of two package variables is ever initialised", "anchors": ["net/com/search.go:28-112", "net/grpc/grpc.go:30-136", "net/grpc/grpcc.go:31-111", "net/grpc/etcd.go:89-130"]}
{"id": "C71", "title": "Clients can end the process through paging parameters", "statement": "With the offset and limit in force, some worker goroutine of the engine (where no panic is recovered) dies exactly if at least one document matches, the limit is not 0, and limit plus offset, computed in 64 bits, is negative.", "quantifier": "for all shard contents, queries, and all 64-bit offsets and limits", "why_tests_cant": "the exact set of fatal parameter pairs includes wrap-around of 64-bit sums and depends on whether anything matches", "anchors": ["ranker_worker.go:60-73", "net/http/http.go:54-130", "net/com/search.go:114-129"]}
{"id": "C72", "title": "Scores of the default ranking are numbers", "statement": "If the BM25 parameters are in the usual range (0<K1<2^10, 0<=B<=1), the documents' lengths and frequencies are non-negative and of sane size, math.Log2 returns a non-negative number below 2^7 at arguments >= 1, and the accumulated token length is finite and non-negative, then every BM25 score a plain search computes is a number and not negative. The condition on the accumulated length holds when all lengths ever added sum to less than 2^24; a search with RankByBM25 then returns its page in score order. Beyond 2^24 the rounded accumulated length can become negative, and scores with the default parameters are then negative or infinite.", "quantifier": "for all histories of adds and removes, all documents, queries, parameters in range, and all functions Log2 as described", "why_tests_cant": "involves float32 rounding of every operation over all magnitudes; the failure needs a large document to be removed again after rounding has lost smaller ones", "anchors": ["core/indexer.go:205", "core/indexer.go:309", "core/indexer.go:444-445", "core/indexer.go:523-547", "types/scoring_criteria.go:28-34"]}
{"id": "C73", "title": "The write pipeline always comes to rest", "statement": "From every reachable state of the pipeline of clients, segmenter workers, indexer and ranker workers, in every execution in which each goroutine keeps getting turns, all calls of all clients return (also concurrent Flush calls, whose waiting loops end) and all queues are emptied; after that no goroutine moves. There is no deadlock or livelock between the channels and the waiting loops of Flush, provided the calls on indexers return (C41 says when they do not).", "quantifier": "for all numbers of clients, shards and segmenter workers, all channel capacities >= 1, all client programs, all reachable states and all fair schedules", "why_tests_cant": "termination under every fair scheduler is a statement about infinite executions; full channels and several goroutines in Flush have to be combined", "anchors": ["engine.go:376-463", "engine.go:812-842", "segment.go:248-314", "indexer_worker.go:46-73", "ranker_worker.go:48-80"]}
{"id": "C74", "title": "Each request is carried out exactly once", "statement": "When the pipeline is at rest, the indexer of each shard has been given exactly the documents whose id and content hash to this shard, and every removal, each exactly as many times as the clients asked for it; likewise each ranker.", "quantifier": "for all client programs, numbers of shards and workers, capacities and schedules", "why_tests_cant": "lost or doubled requests depend on the interleaving of many goroutines", "anchors": ["engine.go:376-463", "segment.go:248-314", "indexer_worker.go:46-73", "ranker_worker.go:48-80"]}
{"id": "C75", "title": "Every search returns", "statement": "In every execution in which each goroutine keeps getting turns, with any number of clients searching at the same time and any writes to the shards meanwhile, all searches of all clients return, each with one response, unless a goroutine panics. No goroutine panics if offset and limit are non-negative with a sum below 2^63 and the index lookups come back. There is no deadlock between the lookup, rank and reply channels.", "quantifier": "for all numbers of clients, shards, lookup and rank workers, all channel capacities >= 1, all requests with or without timeout, all writes, all fair schedules", "why_tests_cant": "termination under every fair scheduler is a statement about infinite executions; replies of timed-out searches that nobody receives could block workers", "anchors": ["engine.go:557-630", "engine.go:762-808", "indexer_worker.go:115-148", "ranker_worker.go:60-73"]}
{"id": "C76", "title": "Concurrent searches do not disturb each other", "statement": "If nobody writes, each of any number of concurrent searches gets the response that it would get alone, for some order of the answers of the shards; without timeout this is its page of the ranking of all hits of all shards, with the full total.", "quantifier": "for all numbers of clients, shards, workers, capacities, all request sequences and all schedules", "why_tests_cant": "replies of different searches travel through shared workers; mixing them up would need particular interleavings", "anchors": ["engine.go:762-808", "indexer_worker.go:115-148", "ranker_worker.go:60-73"]}
{"id": "C77", "title": "What a search beside writers can return", "statement": "Whatever is written while a search runs, it gets exactly one answer from each shard (at most one if it has a timeout), never one of another search; each answer consists of the documents the index of that shard matched at one moment during the search, scored and filled in by the ranker at moments not before that and still during the search. A shard that is not written to meanwhile answers as always. The answer need not agree with the shard at any one moment: a document found by a word of its old version can be returned with its new content.", "quantifier": "for all numbers of clients, shards, workers, capacities, requests, schedules and writes", "why_tests_cant": "depends on the interleaving of several goroutines with writers; a test observes one interleaving", "anchors": ["engine.go:762-808", "indexer_worker.go:115-148", "ranker_worker.go:60-73", "core/ranker.go:129-242"]}
{"id": "C78", "title": "A search sees exactly what was written", "statement": "Clients index and remove documents with any force flags, no id being used in two calls. When all goroutines of the write pipeline have come to rest and no document waits in an indexer cache, a plain ranked search without deadline (also one of many concurrent searches) returns the requested page of an ordered list that has every indexed document with all the words asked for (and allowed by the document filter) exactly once, with the content, attributes and fields given to Index and scores computed from those fields, and nothing else; documents are missing only if the scoring rejects them. Nothing waits if all calls were forced, or if a single client ended with Flush.", "quantifier": "for all numbers of clients, calls, shards, goroutines, capacities, hash functions, schedules and requests", "why_tests_cant": "combines the concurrent write pipeline, batching in the indexers, routing by hash, ranking, merging and paging; a test runs one schedule on a few documents", "anchors": ["engine.go:376-473", "engine.go:557-589", "engine.go:686-810", "engine.go:812-844", "segment.go:240-320", "core/indexer.go:116-176", "core/ranker.go:129-242"]}
{"id": "C79", "title": "Indexed documents survive a restart and are found again", "statement": "With storage on: after one client has indexed documents (all writable, none removed) and the store goroutines have come to rest, an engine started again on the same database files, flushed and then searched with a plain ranked request without deadline returns the requested page of an ordered list that has exactly the documents whose last Index data (or, for ids not indexed in this run, the data stored earlier) contain all the words asked for after segmentation, each once, with the content, attributes and fields of those data; only the scoring may reject a document. More generally the search after a restart and a Flush sees exactly the decodable entries of the files.", "quantifier": "for all documents, calls, store shards, index shards, goroutines, capacities, hash functions, dictionaries, options, codecs that round-trip, schedules before and after the restart, and requests", "why_tests_cant": "spans two runs of the process, the storage goroutines, decoding, segmentation, the write pipeline and the search; a test sees one schedule and one set of documents", "anchors": ["engine.go:185-248", "engine.go:376-473", "store_worker.go:33-91", "segment.go:240-320", "core/indexer.go:116-176", "core/ranker.go:129-242"]}
{"id": "C80", "title": "Close keeps what was indexed before and freezes the files", "statement": "With storage on, one client makes any calls, then Close, then any further calls: once all databases are closed, each file has for every id the value of the last Index call before Close that could be written (or the id was removed before Close and is gone, or it was never written and is unchanged), and nothing of the calls after Close; a closed file never changes, whatever any number of clients do. If nothing was removed, a restart, Flush and Search find exactly those documents. Not guaranteed, and refuted: an Index (and Flush) after Close returns as usual though nothing is stored; with a second client, an Index that returned before the databases were closed can be lost; a RemoveDoc before Close can be lost, so the document is back after the restart.", "quantifier": "for all calls before and after, store shards, hash functions, codecs, refusing databases, schedules of the store workers and removal goroutines; the refutations give a schedule", "why_tests_cant": "Close runs beside store workers and removal goroutines that nothing waits for; a test cannot choose when they run", "anchors": ["engine.go:812-859", "engine.go:376-397", "engine.go:429-463", "store_worker.go:33-91"]}
{"id": "C81", "title": "Updates: the indexer and the ranker of a shard see new versions in the same order", "statement": "With one segmenter thread there is one order of all Index and Flush calls, compatible with the order of each client, in which the indexer and the ranker of every shard get the additions; hence, once all is processed, a search shows in each shard the last version sent there together with the fields, content and attributes of that very call (one client that flushes between updates, or any number of clients with forced calls). With two or more segmenter threads (the default) this fails: Index, Flush, Index, Flush for one document can leave the ranker with the old data for ever while the index has the new version.", "quantifier": "all numbers of shards, hash functions, channel capacities, programs and schedules (one segmenter); a witness schedule (two segmenters)", "why_tests_cant": "needs a particular interleaving of two segmenter goroutines and a ranker worker", "anchors": ["segment.go:248-314", "ranker_worker.go:48-58", "indexer_worker.go:46-58", "engine.go:376-416", "engine.go:812-842"]}
{"id": "C82", "title": "With storage on, Flush means indexed and stored, and a restart changes no answer", "statement": "The engine with UseStore, pipeline and store together: every execution is at the same time an execution of the pipeline alone and of the store alone with the same requests counted once, so all that holds for these holds for the whole. When a client that works in phases (any Index and RemoveDoc calls on different ids, then Flush) has returned, every indexer shows exactly the versions of the calls, nothing waits, and every file has the last writable value of each id (or it was removed, or never written). If nothing was removed and no id used twice, a search now and a search after a restart from the files both return the documents given to Index with all the words asked for, the same in both. Not guaranteed: Flush does not wait for removals in the store, a removed and flushed document can still be in the file.", "quantifier": "for all programs, numbers of clients, shards, store shards, segmenter threads, capacities, hash functions, databases, both read orders in Flush, all schedules", "why_tests_cant": "the waiting loop of Flush reads counters that pipeline workers, store workers and other clients change in any order; the restart spans two runs of the process", "anchors": ["engine.go:330-355", "engine.go:376-463", "engine.go:812-842", "store_worker.go:33-91", "segment.go:248-314"]}
{"id": "C83", "title": "With storage on, all work is done in the end, each request once", "statement": "The engine with UseStore (pipeline, store workers, removal goroutines and clients together): from every reachable state and under every schedule in which each goroutine keeps getting turns, after finitely many turns every client has returned from all its calls (Flush included), all channels are empty, all workers idle and no removal is pending; from then on nobody can move. At that point each Index and RemoveDoc call has reached the indexer and ranker of its shard exactly once, and each document has been written to, or deleted from, its database file exactly once.", "quantifier": "for all programs of any number of clients, shards, store shards, segmenter threads, buffer capacities of at least one, hash functions, encoders, databases, both read orders, all reachable states, all fair schedules", "why_tests_cant": "liveness is about infinite executions; a deadlock between Index blocking on a store worker and Flush waiting for counters would show only under particular schedules", "anchors": ["engine.go:376-463", "engine.go:812-842", "store_worker.go:33-70", "segment.go:248-314"]}
{"id": "C84", "title": "Searches beside running writes find what is there and lose nothing", "statement": "While any number of clients call Index, RemoveDoc and Flush, searches run at the same time. A search without deadline returns a page of a sorted answer in which every entry stems from an Index call whose words were asked for. A document with one call that is in the index and known to the ranker when the search starts is in the answer if it matches; a document in the answer is in the index and known to the ranker when the search ends; it is shown with the fields of its call and never twice. A document found by one search is found by every later search with the same request. So if each id has one call, the number of documents found never falls.", "quantifier": "for all executions of searches and writes in any interleaving, all numbers of clients, shards and workers, capacities, hash functions, search functions, requests and scoring functions that give no NaN for the documents found", "why_tests_cant": "the answer depends on which shard is read at which moment between the steps of the write pipeline; a document lost for one search under one interleaving is not seen by tests that wait for Flush", "anchors": ["engine.go:376-476", "engine.go:557-588", "engine.go:762-842", "indexer_worker.go:46-148", "ranker_worker.go:48-80", "core/indexer.go:116-415", "core/ranker.go:66-244"]}
{"id": "C85", "title": "Documents added through the servers are never stored", "statement": "With storage on, take any set of clients whose calls come from the HTTP handlers (AddIndex, DelIndex), the gRPC handlers (DocInx) or the Flush at start-up. Given that encoding/gob refuses interface values of types it has not been told of, and that nobody told it of types.Attri (the repository never does), no execution adds or changes an entry of any database file. All the same every added document is counted as stored, so Flush returns. After a restart from the files nothing is found by any search.", "quantifier": "for all requests, forms, messages, clients, shards, store shards, capacities, hash functions, databases, schedules and search requests", "why_tests_cant": "the encoder error is thrown away and the counter is advanced, so nothing but a restart shows the loss; a test that registers the type itself (as the examples do) hides it", "anchors": ["net/http/http.go:133-165", "net/grpc/grpc.go:35-88", "net/com/search.go:94-97", "store_worker.go:33-70", "engine.go:376-463"]}
{"id": "C86", "title": "The parameters of HTTP requests: numbers, and the id to delete", "statement": "outputOffset and maxOutputs: a decimal numeral is taken as the nearest 64-bit integer, other text as 0 unless it begins with a numeral of 2^64 or more. A search with such numbers kills an engine worker exactly if something matches and the 64-bit sum is negative. A document added by posting a form with its id is not deleted by posting the same form to DelIndex (which reads the URL only): it is still found. With the id in the URL it is deleted after a flush.", "quantifier": "for all request texts, forms, shards, hash functions, capacities, numbers of segmenters, schedules, search requests", "why_tests_cant": "errors of Atoi are ignored, so bad values turn into extreme or zero ones; the two handlers read the id from different places and both answer with success", "anchors": ["net/http/http.go:54-130", "net/http/http.go:133-165", "net/http/http.go:168-174", "net/com/search.go:114-134"]}
{"id": "C87", "title": "Over HTTP nothing is forced: documents wait, and one repeated form kills the server", "statement": "The HTTP handlers never force an update. As long as fewer than DocCacheSize documents have been added, no search finds anything, whatever has been asked for over HTTP. A cache full of updates of indexed documents with an id twice in it stays full, and then any further document makes the indexer panic. So 2n+1 posts of one and the same form, n >= 2 being DocCacheSize, crash the indexer, in every schedule.", "quantifier": "for all forms, clients, shards, cache sizes of at least two, hash functions, capacities, schedules, search requests", "why_tests_cant": "the cache size is 300 000 by default in the server and small in tests; the panic needs a full cache and repeated ids, and is out of reach of tests with a few documents", "anchors": ["net/http/http.go:133-174", "net/com/search.go:94-134", "core/indexer.go:116-176", "core/indexer.go:259-297", "engine.go:376-463", "indexer_worker.go:46-58"]}
{"id": "C88", "title": "A session on files that already hold documents", "statement": "With storage on, Init reads the files and waits until the counters of requested and indexed documents agree. Under fair scheduling this wait ends. Whenever it ends, every document of the files has been handed to the indexer of its shard. If then one client works and calls Flush after each phase, at the return of a Flush every indexer shows exactly the latest versions of the documents of the files and of the calls (ids of the first phase being new), no document waits in a cache, every store worker has written what it was given, and each entry of the files is what the calls made of the entry before. Under fair scheduling every call of every client returns; in particular the recovered documents do not keep Flush waiting.", "quantifier": "for all file contents, iteration orders, shards, store shards, segmenters, capacities, hash functions, codecs, clients, phases and schedules", "why_tests_cant": "needs all interleavings of recovery goroutines, segmenters, indexers and store workers; the counters of both sides have to fit together over a restart", "anchors": ["engine.go:206-245", "engine.go:330-355", "engine.go:376-463", "engine.go:812-844", "store_worker.go:33-91"]}
{"id": "C89", "title": "Any number of sessions: nothing is lost and nothing is made up", "statement": "Run any number of sessions of the engine one after the other on the same files, each ended only after the last Flush has returned (documents added, none removed, ids not reused). Then the files hold exactly the documents given in all sessions together, each in the file its id is hashed to. A search in the last session finds exactly the matching documents of all sessions, with the ranking promised for one session.", "quantifier": "for all numbers of sessions, documents, iteration orders, shards, store shards, capacities, hash functions, faithful codecs, schedules and search requests", "why_tests_cant": "an induction over restarts in which every session is concurrent; tests do one restart with one schedule", "anchors": ["engine.go:206-245", "engine.go:330-355", "engine.go:376-463", "engine.go:762-808", "engine.go:812-844", "store_worker.go:33-91"]}
{"id": "C90", "title": "Removals before the first Flush of a session do not reach the index (finding)", "statement": "After a restart with fewer documents in the files than DocCacheSize (300000 by default) all of them wait in the caches of the indexers. If a client then removes documents, with or without force, and calls Flush, every document of the files is in the index after the Flush, those removed included; the files have lost those that were removed. So searches without ranking still list them until the next restart.", "quantifier": "for all file contents, iteration orders, removals and force flags, shards, store shards, capacities, hash functions, schedules", "why_tests_cant": "RemoveDocToCache only looks at documents already indexed; ordinary searches hide the error because the ranker has removed the fields", "anchors": ["core/indexer.go:116-176", "core/indexer.go:259-297", "engine.go:206-245", "engine.go:429-463", "engine.go:812-844"]}
{"id": "C91", "title": "The public counters count calls, not documents", "statement": "In every execution, NumIndexed, NumRemoved and NumTokenAdded never exceed the number of calls of Index, NumShards times the number of calls of RemoveDoc, and the number of keywords of all documents given (calls with id 0 left out). Once the pipeline is at rest they are equal to these numbers. So updates are counted again, and each removal is counted once per shard, also if there was no such document.", "quantifier": "for all programs of all clients, shards, segmenters, capacities, hash functions and schedules", "why_tests_cant": "the counters are increased by different goroutines; a test sees one schedule and, with one shard, not the factor", "anchors": ["counters.go:19-46", "indexer_worker.go:46-73", "engine.go:399-463"]}
{"id": "C92", "title": "Searches beside the writes of a session with storage find the documents of the files and of the calls, and lose nothing", "statement": "An engine with UseStore is started on files that hold documents; then any number of clients call Index, RemoveDoc and Flush while searches run at the same time. A search without deadline returns a page of a sorted answer in which every entry is about a document of the files or of the calls, some version of which was asked for and some version of which is shown. A document that is only in the files, or only in one call, is in the answer if it matches and is in the index and known to the ranker when the search starts; it is in the index and known to the ranker when the search ends if it is in the answer; it is shown with its own fields and never twice. A document found by one search is found by every later search with the same request. If every id has one such source and the scoring rejects no document, the number of documents found never falls.", "quantifier": "for all contents of the files, all executions of searches and writes in any interleaving, all numbers of clients, shards, files and workers, capacities, hash functions, requests and scoring functions that give no NaN for the documents found", "why_tests_cant": "recovery, writing, storing and searching are different goroutines; a test starts its search after Flush in one process and does not see a document that is lost between two searches of a restarted engine", "anchors": ["engine.go:190-260", "engine.go:376-476", "engine.go:557-588", "engine.go:762-844", "store_worker.go:26-91", "indexer_worker.go:46-148", "ranker_worker.go:48-80"]}
{"id": "C93", "title": "No panic ends a session in which no id is indexed twice, and every search in it returns", "statement": "An engine with UseStore is started on files that hold documents; then any number of clients call Index, RemoveDoc and Flush while others search. If no id is given to Index twice, nor although the files have it (removals are free), then at every moment all calls that the workers have made so far on every indexer and every ranker have come back without a panic. If moreover the search requests have a paging that fits in 63 bits, name a token when the index stores locations and the logic is plain, and do not demand that all of nothing matches, then no search panics either, with or without deadlines, and every search returns when every goroutine gets its turns.", "quantifier": "for all contents of the files, all programs of any number of writing and searching clients, all interleavings, all numbers of shards, files and workers, capacities, hash functions, scoring functions, index types and cache sizes", "why_tests_cant": "a panic in a worker goroutine ends the whole process; whether it can happen depends on the order in which the calls of different clients reach the caches of the indexer, of which a test sees one", "anchors": ["engine.go:190-260", "engine.go:376-476", "engine.go:557-588", "engine.go:762-844", "indexer_worker.go:46-148", "ranker_worker.go:48-80", "core/indexer.go:116-370"]}
{"id": "C94", "title": "Searches with deadlines, counts and unordered searches beside running writes", "statement": "While any number of clients call Index, RemoveDoc and Flush, searches run at the same time. A search with a deadline hears from no shard twice, and says that it was late exactly if it has not heard from all shards; without deadline it never does. Its answer is a page of a sorted answer in which every entry stems from an Index call whose words were asked for. A document with one call that is in a shard heard from (index and ranker) when the search starts is in the answer if it matches; a document in the answer is in a shard heard from when the search ends; it is shown with the fields of its call and never twice. A document found by a search, late or not, is found by every later search with the same request that is not late. The same holds of searches that count only or that want no order, for the index alone: no scoring and no ranker can hide a document from them; unordered answers give ids and no payload. If each id has one call, the number counted never falls as long as the later search is not late.", "quantifier": "for all executions of searches and writes in any interleaving, all moments at which deadlines pass, all numbers of clients, shards and workers, capacities, hash functions, scoring functions that give no NaN for the documents found, and requests with keywords only or with a logic expression that has a MUST or SHOULD part", "why_tests_cant": "which answers come before the deadline depends on the scheduler; a test cannot make a shard late at a chosen moment, and a late answer that is silently partial looks like a complete one", "anchors": ["engine.go:376-476", "engine.go:557-630", "engine.go:633-736", "engine.go:762-842", "indexer_worker.go:46-148", "ranker_worker.go:48-80", "core/indexer.go:116-415", "core/ranker.go:66-244"]}
{"id": "C95", "title": "Searches with deadlines, counts and unordered searches beside the writes of a session with storage", "statement": "An engine with UseStore is started on files that hold documents; then any number of clients call Index, RemoveDoc and Flush while searches run. What C94 says of documents with one call holds of documents that are only in the files or only in one call: with a deadline, a matching document that is in a shard heard from when the search starts is in the answer, a document in the answer is in a shard heard from when the search ends, it is shown with its own fields and once; a late answer says that it is late; a later complete search misses nothing that an earlier one found; counts and unordered searches need the index only; and if every id has one such source, the number counted never falls as long as the later search is not late.", "quantifier": "for all contents of the files, all executions of searches and writes in any interleaving, all moments at which deadlines pass, all numbers of clients, shards, files and workers, capacities, hash functions, scoring functions that give no NaN for the documents found, and requests with keywords only or with a logic expression that has a MUST or SHOULD part", "why_tests_cant": "it takes a restart on existing files, a writer and a search whose deadline passes between the answers of two shards", "anchors": ["engine.go:190-260", "engine.go:376-476", "engine.go:557-630", "engine.go:633-736", "engine.go:762-844", "store_worker.go:26-91", "indexer_worker.go:46-148", "ranker_worker.go:48-80"]}
{"id": "C96", "title": "Searches with a logic expression see the writes of the whole engine", "statement": "After the calls of any number of clients (each id once) have been handled and nothing waits in a cache, a ranked search with a logic expression that has a MUST part with words, or a SHOULD part and no MUST part, finds over all shards exactly the documents that carry all MUST words, one of the SHOULD words and none of the NOT words, each once, in the order of the scores, with the content and fields it was indexed with, and counts them; words that a part does not give are taken from the other parts and the keywords as LogicLookup does. The DocIds of the request narrow the answer if there is a MUST part and are ignored otherwise. The scoring function sees the id and the fields of the document only: BM25, token proximity and locations are zero for every document found this way.", "quantifier": "for all programs of all clients, executions, numbers of shards and workers, hash functions, logic expressions with a MUST or SHOULD part, scoring functions that give no NaN for the documents found, pages and arrival orders; also for any number of searches at the same time", "why_tests_cant": "the parts of an expression, the shards and the caches multiply; tests look at one expression on one small index", "anchors": ["engine.go:376-416", "engine.go:633-736", "engine.go:762-808", "indexer_worker.go:115-148", "core/indexer.go:371-415", "core/indexer.go:561-688", "core/indexer.go:817-905", "core/ranker.go:111-260"]}
{"id": "C97", "title": "Updates and removals with any number of segmenter goroutines", "statement": "One client indexes, updates and removes documents and calls Flush between two calls on the same id; no storage; any number of segmenter goroutines. Once its last Flush has returned, every ranked search, with or without a logic expression, finds in each shard only documents whose current version there (the last one that was sent to this shard, with no removal after it) has the words that were asked for: old words and removed documents are never found, whatever the rankers have done so far. Each document is found at most once per shard; the content, the attributes and the fields behind its scores are those of one call that indexed it in this shard (with several segmenters not always the last one, see C81). When all goroutines have come to rest, every current version that was asked for is found, if its document was never removed and the scoring rejects none of its versions. The answer is in the order of the scores, cut into the page, and counts the whole.", "quantifier": "for all phases of calls, executions, numbers of shards and segmenters, hash functions, scoring functions that give no NaN for the documents found, requests with a deadline of zero, pages and arrival orders; also for any number of searches at the same time", "why_tests_cant": "the goroutines take turns in more ways than a test can try, and the default number of segmenters is the number of CPUs", "anchors": ["engine.go:376-416", "engine.go:429-463", "engine.go:762-808", "engine.go:812-844", "segment.go:248-315", "indexer_worker.go:115-148", "ranker_worker.go:48-80", "core/indexer.go:116-368", "core/ranker.go:66-260"]}
{"id": "C98", "title": "Updates and removals in a session on existing files", "statement": "The engine is started on files that hold documents; one client leaves these documents alone until its first Flush, then it may update and remove them, with Flush between two calls on the same id. Once its last Flush has returned, searches find in each shard only current versions: a document of the files counts until a call sends another version of it to the same shard or removes it. When the pipeline has come to rest they find every current version that was asked for, if its document was never removed and the scoring rejects none of its versions, be it from the files or from the calls.", "quantifier": "for all contents of the files, phases of calls, executions (with the recovered documents still on their way to the rankers when the session begins), numbers of shards, segmenters and store files, hash functions, scoring functions that give no NaN for the documents found, pages and arrival orders; also for any number of searches at the same time", "why_tests_cant": "recovered and new documents are handled by the same goroutines at the same time; tests restart an idle engine and search once", "anchors": ["engine.go:185-248", "engine.go:376-416", "engine.go:429-463", "engine.go:762-808", "engine.go:812-844", "store_worker.go:28-91", "segment.go:248-315", "indexer_worker.go:115-148", "core/indexer.go:116-368", "core/ranker.go:66-260"]}
{"id": "C99", "title": "Documents indexed under the reserved id change no answer", "statement": "Index(\"0\", …) is accepted by the engine, with or without the force flag and as often as one likes, but has no effect on searches: after the calls of any number of clients have been handled and nothing waits in a cache, every ranked search, with or without a logic expression, finds exactly what it would find if the calls on \"0\" had not been made. Flush works beside such calls: once it has returned, the indexers show exactly the other documents and nothing waits.", "quantifier": "for all programs of all clients in which every other id is used once (for one client: once between two Flush calls), executions, numbers of shards and workers, hash functions, scoring functions that give no NaN for the documents found, pages and arrival orders; also for any number of searches at the same time", "why_tests_cant": "the id is an ordinary string for the caller, the loss is silent and depends on no other input; a loop over Itoa(i) from 0 hits it (examples/weibo)", "anchors": ["engine.go:376-416", "engine.go:762-808", "engine.go:812-844", "segment.go:248-315", "indexer_worker.go:46-148", "ranker_worker.go:48-80", "examples/weibo/custom_scoring_criteria.go:146-153"]}
{"id": "C100", "title": "The scores of an answer are those of the documents that were indexed", "statement": "After the calls of any number of clients (each id once, \"0\" left aside) have been handled and nothing waits in a cache, a ranked search by keywords finds over all shards the documents asked for, and the scores of each entry are what the scoring function gives for this document: it is told the BM25 value over the documents of the same shard (their number, how many of them carry each token, their average length, the token frequencies and the length of the document itself), and with a location index the places of the tokens, one place for each and their proximity; the entry shows the same places. The length that is averaged is the sum of the lengths of the documents of the shard. With the default criterion RankByBM25, usual parameters and documents, no score is NaN, so the answer is every document asked for in the order of these BM25 values. The values depend on how the documents are spread over shards: the same calls and the same request can give another order with another number of shards.", "quantifier": "for all programs of all clients, executions, numbers of shards and workers, hash functions, index types, scoring functions that give no NaN for these documents, pages and arrival orders; also for any number of searches at the same time", "why_tests_cant": "scores are floats computed from counters of several shards; tests compare them with recorded values of one small index and one shard", "anchors": ["engine.go:376-416", "engine.go:633-736", "engine.go:762-808", "indexer_worker.go:46-148", "ranker_worker.go:48-80", "core/indexer.go:417-559", "core/indexer.go:722-815", "core/ranker.go:111-260", "types/scoring_criteria.go:31-34"]}
{"id": "C101", "title": "The scores of the default ranking are numbers at every moment", "statement": "RankByBM25 makes a number from every BM25 value that is a number. At every moment of every execution, while documents are added, replaced and removed and caches fill and empty, in a fresh engine and in a session on existing files, every score that a ranked search computes is a number, provided that the BM25 parameters are usual, the documents carry token frequencies that are numbers, and the lengths of all documents ever given are whole numbers with a sum below 2^24. The documents made by the segmenter from texts, user tokens and pinyin are of this kind. So the theorems about searches after updates and removals and beside writes hold for the default options without any condition on scores, although RankByBM25 itself hands on a NaN.", "quantifier": "for all programs of all clients, all reachable states of the pipeline (at rest or not), numbers of shards and workers, hash functions, files, requests that keep within the code paths without a panic, and scoring functions that keep numbers", "why_tests_cant": "a NaN needs the division of two counters that are both zero or an infinite sum; whether counters and postings ever disagree in this way depends on the interleaving, tests compare values of one small index at rest", "anchors": ["types/scoring_criteria.go:31-34", "core/indexer.go:179-258", "core/indexer.go:299-369", "core/indexer.go:417-559", "segment.go:75-246", "core/ranker.go:111-260", "engine.go:762-808"]}
{"id": "C102", "title": "examples/weibo prints the weibos that match", "statement": "The program reads the lines of its file up to the first one that does not fit into the buffer of the scanner and takes those with ten fields and a text; numbers that cannot be read count as zero, too large ones as the largest. Two weibos are ordered as the comments promise: by day, then by the whole part of the BM25 value, then by reposts, then by length, for values below 2^24. When the engine has done its work, the search prints for every text asked for, except the first one of the file (it gets the reserved id 0), with words at most 150 bytes apart, the scores and the text of this weibo, each once, in this order, up to the hundredth. At any other time (the program searches right after Flush) it prints only weibos that match, each at most once and with its own text, and never panics; but some may be missing.", "quantifier": "for all files, queries with a token, executions, numbers of shards, segmenters and workers, hash functions, segmentations, index types, results of converting floats out of range, arrival orders", "why_tests_cant": "the program is run by hand on one file; the lost first weibo, the silent end at a long line and the early search leave no trace in its output", "anchors": ["examples/weibo/custom_scoring_criteria.go:56-60", "examples/weibo/custom_scoring_criteria.go:64-96", "examples/weibo/custom_scoring_criteria.go:123-166", "engine.go:376-416", "engine.go:762-808", "engine.go:812-844", "segment.go:248-315", "core/ranker.go:111-260"]}
{"id": "C103", "title": "examples/codelab replies with the weibos that match; examples/pinyin_weibo mixes the tokens of its lines", "statement": "codelab: for each id the table of the server has what the last line of the file with this id says. The scores of its criterion are numbers whenever the BM25 value is one, and a weibo whose words are at most 2 apart ranks above one whose words are farther apart. When the engine has done its work (usual options and documents), the reply to a query has the hundred best of the weibos that carry all tokens (an id 0 left aside), each once, in the order of the scores, with all data of the table; the order in which the map is visited does not matter. While indexing is still under way, the reply has only weibos that match, each at most once. pinyin_weibo: for line number i the program indexes two documents under the ids 2i+1 and 2i+2, one with the line as content and one with the line as fields; both carry the pinyin tokens of all lines read so far, not only of this line.", "quantifier": "for all files, visiting orders of the map, queries with a token, executions, numbers of shards, segmenters and workers, hash functions, segmentations, arrival orders; pinyin_weibo: for all lists of lines and pinyin conversions", "why_tests_cant": "the servers are tried by hand in a browser; float scores, map order and interleaving are not controlled there", "anchors": ["examples/codelab/search_server.go:45-52", "examples/codelab/search_server.go:65-127", "examples/codelab/search_server.go:140-165", "examples/pinyin_weibo/main.go:64-92", "engine.go:376-416", "engine.go:762-808", "segment.go:248-315", "segment.go:317-378", "core/ranker.go:111-260"]}
{"id": "C104", "title": "With the locks of the indexers in view: a Flush between additions and removals keeps the engine right", "statement": "Here a call of AddDocToCache or RemoveDocToCache is not one step: it takes and releases its locks one after the other, while the other worker of the shard and searches run. If nobody removes documents, or one client makes its additions and removals in phases that are separated by Flush, the two workers of a shard are never inside its indexer at the same time, and whenever no call is under way the indexer of every shard is the one that the calls so far make one after the other. So the engine then is one of those that the other theorems speak of, and when Flush has returned, no call is under way, the indexers show exactly the documents that remain and nothing waits; no worker panics. If one phase removes a document and updates another one, Flush can return although the removed document stays in the index for ever.", "quantifier": "for all programs of this kind, all executions (any interleaving of clients, segmenters, workers and searches, step by step between lock operations), numbers of shards and segmenters, hash functions, channel capacities, searches, sort algorithms", "why_tests_cant": "the bad interleavings need a switch between two particular lock operations; tests make their calls one after the other from one goroutine", "anchors": ["engine.go:376-416", "engine.go:429-463", "engine.go:812-844", "segment.go:248-315", "indexer_worker.go:46-73", "indexer_worker.go:115-148", "core/indexer.go:116-177", "core/indexer.go:179-258", "core/indexer.go:260-297", "core/indexer.go:299-369"]}
{"id": "C105", "title": "With the locks of the indexers in view: all calls return", "statement": "If additions and removals are kept apart as in C104, every goroutine keeps getting turns and nobody panics, then all calls of Index, RemoveDoc and Flush return, all requests are handled, no worker stays inside an indexer, all searches have been answered, and nothing moves any more. In a phase that removes a document and updates another one, the two workers of a shard can lock each other out; from then on Flush never returns, whatever else happens.", "quantifier": "for all programs of this kind, all states reached so far, all schedules in which every goroutine keeps getting turns, numbers of shards and segmenters, hash functions, channel capacities of at least 1, searches; the blocked Flush: for all continuations", "why_tests_cant": "a test cannot tell a deadlock from a slow machine, and this one needs a switch between two particular lock operations", "anchors": ["engine.go:376-416", "engine.go:429-463", "engine.go:812-844", "segment.go:248-315", "indexer_worker.go:46-73", "core/indexer.go:116-177", "core/indexer.go:260-297"]}
{"id": "C106", "title": "With the locks of the indexers in view: what a search sees in the middle of a write", "statement": "Additions and removals kept apart as in C104. At every moment, also between any two lock operations of a call under way, the index of a shard shows what the calls made so far give, or what they give together with the call under way, or the former without some documents that this call replaces or removes (those waiting in the add cache and the one it names). A search without a logic expression made at that moment finds exactly the documents shown then that carry all words, each once, ids descending, with their own data, and counts them right; every answer ever given is the answer of such a moment. Searches with a token (or without locations), or with a logic expression that requires something, never panic, so all calls return without any assumption about panics. A document that is the subject of a single call is never missed again once a search could find it; a document that is being updated can be missed in between.", "quantifier": "for all programs of this kind, all executions step by step between lock operations, numbers of shards and segmenters, hash functions, channel capacities, searches, index types, sort algorithms", "why_tests_cant": "the states between two lock operations of a flush last microseconds; a test that searches while it writes sees a handful of them and cannot say which", "anchors": ["engine.go:376-416", "engine.go:429-463", "engine.go:812-844", "indexer_worker.go:46-73", "indexer_worker.go:115-148", "core/indexer.go:101-108", "core/indexer.go:116-177", "core/indexer.go:179-258", "core/indexer.go:260-297", "core/indexer.go:299-369", "core/indexer.go:371-415", "core/indexer.go:417-559"]}
{"id": "C107", "title": "With the locks of the indexers in view: searches of the whole engine beside writes", "statement": "Additions and removals kept apart as in C104. Searches go through all shards and their rankers while documents are written, and may find any shard in the middle of a call, between two lock operations. A search without a deadline still answers with every document that is the subject of a single call, fits the request and was in its shard (indexer and ranker) when the search started, and with nothing that was never given; a later search with the same request misses none of those documents that an earlier one found. With a deadline, or for requests that count or list documents in any order, the same holds for the shards heard from, and the answer says when a shard is missing. If every id is in one call only, the count never falls. A document that is being removed can be gone from the answer before the call that removes it is over.", "quantifier": "for all programs of this kind, all executions of the writes step by step between lock operations, all interleavings with any number of searching clients and workers, numbers of shards, hash functions, channel capacities, requests (also with logic expressions that require or exclude something), scoring criteria whose scores are numbers, sort algorithms", "why_tests_cant": "needs a search that reaches some shards before and others during one particular flush; tests do not search while they write", "anchors": ["engine.go:376-416", "engine.go:429-463", "engine.go:762-808", "engine.go:812-844", "indexer_worker.go:46-73", "indexer_worker.go:75-113", "indexer_worker.go:115-148", "ranker_worker.go:49-73", "core/indexer.go:116-177", "core/indexer.go:260-297", "core/indexer.go:371-415", "core/ranker.go:111-260"]}
{"id": "C108", "title": "The messages of the gRPC service survive encoding and decoding", "statement": "For each message of doc.pb.go: Marshal does not panic, writes exactly the fields of the message as the protocol buffer encoding prescribes, in as many bytes as Size announces, and Unmarshal of these bytes into an empty message gives the same message back, with the unknown fields it carried; for SearchReq whatever the order in which the two loops of Size and MarshalTo visit the map of document ids. Unmarshal also understands any other valid encoding: fields in any order, repeated fields appended, the last of several values, embedded messages merged, packed and unpacked numbers, map entries with their parts in any order or missing, unknown fields of every kind kept as they were.", "quantifier": "for all messages whose numbers fit their Go types and whose encoding is shorter than 2^62 bytes, all orders of map iteration, all valid encodings", "why_tests_cant": "the generated code has no test in the repository; negative numbers, unknown fields, repeated parts and other map orders are not met by trying the service", "anchors": ["net/grpc/riot-pb/doc.pb.go:952-1508", "net/grpc/riot-pb/doc.pb.go:1509-1808", "net/grpc/riot-pb/doc.pb.go:1809-3470", "net/grpc/riot-pb/doc.pb.go:3471-3568"]}
{"id": "C109", "title": "Decoding ends on every input, and which inputs make it panic", "statement": "Unmarshal of each message of doc.pb.go comes to an end for every sequence of bytes, with a message or an error, and does not panic unless the bytes contain four bytes 255 in a row. With such bytes it can panic: a length near the largest int makes the sum of index and length wrap around, the check against the end of the data passes and the slice expression fails; 12 bytes are enough for each of the four requests of the service.", "quantifier": "for all byte sequences shorter than 2^62 (for the absence of panics: shorter than 2^27) and all messages decoded into; the panics: witnesses of 10 and 12 bytes", "why_tests_cant": "the bad inputs are not produced by any encoder; a fuzzer finds some of them but cannot show that no others exist", "anchors": ["net/grpc/riot-pb/doc.pb.go:1809-3470", "net/grpc/riot-pb/doc.pb.go:3471-3568"]}
{"id": "C110", "title": "The calls of the gRPC service end to end on the bytes that travel", "statement": "A document request is encoded, decoded and turned into the call of the engine with the same id, text, tokens, force flag, and the time and timestamp that the client encoded in the attributes; labels, title and author are dropped. Attributes that cannot be decoded do not make the call fail: the document is indexed with whatever was decoded before the error. A search reaches the engine with the same query, logic and document ids, and the page as the server puts it; the answer comes back with the code 0, the number and the time of the server and all texts; removals and heartbeats arrive too. One request of at most 12 bytes ends the server process, for each of the four calls, also through attributes inside a valid document request, and an empty search request suffices. Requests without four bytes 255 in a row never end it, except searches without logic or expression.", "quantifier": "for all documents, attributes, searches, map orders, answers and ids whose numbers fit their Go types and whose encoding is shorter than 2^62 bytes; the crashes: witnesses", "why_tests_cant": "the repository has no test for the service; hostile requests are not sent by its own clients", "anchors": ["net/grpc/grpc.go:35-72", "net/grpc/grpc.go:80-132", "net/grpc/grpcc.go:44-67", "net/grpc/grpcc.go:69-111", "net/grpc/grpcc.go:113-140", "net/grpc/search.go:81-109", "net/grpc/riot-pb/doc.pb.go:952-3568"]}
{"id": "C111", "title": "Data races of the indexers: which variables the locks protect", "statement": "A table of the variables of an indexer read and written between two lock operations is right: a step changes only variables it is listed to write, and what it does depends only on the variables listed. With the workers of a shard running in any interleaving, two goroutines are never inside accesses to the same variable, one of them a write, except the adding and the removing worker for a cell of the removeCache array; so nobody sees the table, docsState, the counters, the addCache or the pointers change while working with them. This holds in every shard of the engine for all programs of its clients, and when additions and removals are kept apart by Flush there is no race at all. The race for the cells exists: the batch of removals is sorted after removeCacheLock has been released. HasDoc reads docsState without a lock and can do so during a write. Two goroutines calling AddDocToCache on one indexer would race for the addCache cells.", "quantifier": "for all indexers, calls, searches, interleavings, numbers of shards and client programs; the races: witnesses", "why_tests_cant": "the race detector reports only races of the schedules it happens to run, and the repository's tests do not run with it", "anchors": ["core/indexer.go:36-51", "core/indexer.go:101-108", "core/indexer.go:116-176", "core/indexer.go:260-296", "core/indexer.go:299-366", "core/indexer.go:371-415", "engine.go:336-344", "riot.go:104-117"]}
{"id": "C112", "title": "The deadline of a search, with the clock in view", "statement": "TimeOut computes its deadline as the time of its start plus 1000000 * Timeout nanoseconds; the product is exact up to 9223372036854 ms and the deadline is too early for every larger int, by the wrap-around of 64-bit integers. An answer is marked Timeout exactly if a round of the loop has brought no reply, and such an answer is not returned before the deadline. The replies taken are those that arrive first, each once and none before it has arrived. If a select ends as soon as one of its cases is ready, the loop ends by the deadline, all replies that are there before the deadline are taken in their order, and if all of them are, the answer is the one of a search without timeout. Refuted: the largest int as a timeout puts the deadline before the start, and a search may return nothing, marked as timed out, though all replies are waiting; and a search with a timeout can wait without limit, since the time is not looked at while the requests are being sent to full channels.", "quantifier": "for all timeouts, arrival times, numbers of shards, replies and requests; the refutations: witnesses", "why_tests_cant": "tests with timeouts depend on the speed of the machine, and nobody tries timeouts of centuries", "anchors": ["engine.go:49-50", "engine.go:591-630", "engine.go:633-683", "engine.go:686-736", "engine.go:796-799"]}
{"id": "C113", "title": "The ranker under concurrent calls, at the level of its lock", "statement": "Any number of goroutines call AddDoc, RemoveDoc and Rank on one ranker; a step is one lock operation or one access of one of the four maps. While a goroutine writes the maps no other reads or writes them. Whenever nobody is inside the write lock, the maps are those that the completed writes leave when made one after the other in the order of the log; each goroutine's writes are in it once each in the order of its program, and each of its Rank calls gets one answer for its documents. Every document of an answer is looked at in a state after some number of whole writes; these numbers rise along the documents and lie between those at the start and at the end of the call, so fields, content, attributes and score of an entry belong together; a call during which no write completes answers as Rank alone. All executions are bounded by the number of calls and documents, none deadlocks, and nothing panics if contents are strings and paging is sane. Refuted: that an answer is that of some single moment (the lock is taken anew for each document).", "quantifier": "for all numbers of goroutines, programs, initial rankers, scoring functions and interleavings; the refutation: a witness schedule", "why_tests_cant": "the interleavings of single map accesses cannot be enumerated by tests, and the race detector only sees executions that happen", "anchors": ["core/ranker.go:28-41", "core/ranker.go:66-109", "core/ranker.go:124-177", "core/ranker.go:179-242", "core/ranker.go:246-261"]}
{"id": "C114", "title": "The scores and the order of an answer are those of the BM25 formula over the real numbers", "statement": "The float32 value that the indexer computes for a document is that of the formula sum of log2(N/n+1)*f*(K1+1)/(f+K1*(1-B+B*len/avg)) over the real numbers, up to a relative error of (12+t)*2^-22 for t tokens; it is finite, and nothing overflows or underflows on the way. N, n and avg are the number of documents of the shard, of those that carry the token, and their average length, taken from the documents that were indexed. So an answer ranked by BM25 lists the documents in the order of their exact scores, up to documents whose exact scores differ by less than (12+t)*2^-21 of them. Refuted: that a document with a larger exact score always has a larger score.", "quantifier": "for all parameters K1 in [2^-20,2^20] and B in {0} or [2^-20,1] (the default ones among them), shards of fewer than 2^24 documents with integer lengths of a sum below 2^24, frequencies 0 or in [2^-20,2^24], up to 2^20 tokens, every math.Log2 with a relative error of 2^-40 from 2 on; for the order: all programs of all clients, executions, shards, hash functions and pages as in C100", "why_tests_cant": "tests compare a few scores with recorded values; a bound on the rounding error needs a proof over all inputs", "anchors": ["docs/en/bm25.md", "core/indexer.go:201-206", "core/indexer.go:445", "core/indexer.go:522-547", "types/scoring_criteria.go:31-34", "types/indexer_init_options.go:46-52", "types/engine_init_options.go:30-42", "core/ranker.go:179-242"]}
{"id": "C115", "title": "BM25 prefers shorter documents, more occurrences and rarer words", "statement": "The documented formula over the real numbers does not decrease with the frequencies and does not increase with the length of the document or with the number of documents that carry a word. The float32 scores follow: of two documents with the same frequencies the longer never gets a larger score, without exception for rounding; with more occurrences or rarer words the score is not smaller up to a relative error of (12+t)*2^-21 for t tokens; a document that has one of the words has a positive score. In the answer of a search by BM25 after concurrent Index calls, also among other searches at the same time, of two documents of one shard with equally many occurrences the longer never stands before the shorter unless their scores are equal. Refuted: that one more occurrence never lowers the float32 score.", "quantifier": "for all parameters, counts, lengths and frequencies in the ranges of C114 and every math.Log2 that is accurate there; the statements on the formula for all real numbers", "why_tests_cant": "an order on all pairs of documents; the exception appears only at millions of occurrences", "anchors": ["docs/en/bm25.md", "core/indexer.go:522-547"]}
{"id": "C116", "title": "Try hands a panic to its handler; the store registered last under a name is opened", "statement": "riot.Try runs the handler once, with the value of the panic and in the state the function left behind, and ends as the handler ends; without a panic it is not run; no other panic leaves Try; nested calls are handled inside first. Refuted: that the handler runs whenever the function does not return (panic(nil) is swallowed). After any calls of RegisterStore, OpenStore opens what was registered last for the name asked for (argument, environment variable, default; the empty string counts as absent), other names as before; a name that is not registered gives an error, a nil function a panic; the empty name can never be opened.", "quantifier": "for all functions, handlers, states, sequences of registrations, arguments and environments", "why_tests_cant": "quantifies over all functions and all sequences of registrations, including overriding the stores of the package", "anchors": ["riot.go:183-190", "store/store.go:22-72"]}
{"id": "C117", "title": "After updates and removals the scores are those of the current documents alone", "statement": "One client adds, updates and removes documents and calls Flush between its updates; once its last Flush has returned, a ranked search by keywords (one, or any number at the same time) gives each entry the scores that the scoring function gives when it is told what it would be told if nothing but the current versions had ever been indexed: the BM25 value over the current documents of the shard (their number, how many of them carry each token, their average length, the token frequencies and the length of the current version), and with a location index the places of the tokens in the current version and their proximity; the fields it is given belong to one version of the document. No removed document and no old version counts anywhere. The length that is averaged is the sum over the current documents: updates and removals take away exactly what was added, as long as the lengths of all versions ever given to the shard are whole numbers with a sum below 2^24. In a session on existing files the documents of the files count as if they had been indexed first. With usual documents and the default criterion no score is NaN. The same with the methods of the indexers at the level of their locks, if each phase either adds and updates or removes. When all goroutines rest, every current document that was asked for is there, unless it was removed at some time or the scoring rejects it.", "quantifier": "for all phases of calls without two calls for one id in a phase, executions, numbers of shards, segmenters and workers, hash functions, index types, stored files, scoring functions that give no NaN for these documents, pages and arrival orders", "why_tests_cant": "what an update leaves behind in counters (number of documents, postings, total length) shows only as a slightly different float; tests look at which documents are found, not at the scores after updates", "anchors": ["engine.go:376-427", "engine.go:429-477", "engine.go:686-738", "engine.go:762-844", "core/indexer.go:116-258", "core/indexer.go:260-367", "core/indexer.go:371-559", "core/ranker.go:55-110", "core/ranker.go:111-260"]}
{"id": "C118", "title": "After updates and removals searches rank the current documents by their true BM25", "statement": "One client adds, updates and removes documents and calls Flush between its updates; once its last Flush has returned, each entry of a search ranked by BM25 (one search, or any number at the same time) is a current document of one shard, no two entries are the same document of the same shard, and its score is the exact real BM25 value among the current documents of this shard up to a relative error of (12 + number of tokens) 2^-22. Of two entries the one in front has no smaller exact score up to nearly equal ones. Of two current documents of one shard in which the tokens occur equally often the longer one never stands in front, unless the scores are equal; a document that is not longer and has no fewer occurrences has no smaller score up to rounding. What the shard has seen before (old versions, removed documents) makes no difference. The same in a session on existing files, and with the methods of the indexers at the level of their locks, if each phase either adds and updates or removes.", "quantifier": "for all phases of calls without two calls for one id in a phase, executions, numbers of shards, segmenters and workers, hash functions, stored files, modest BM25 parameters and documents (lengths of all versions whole with a sum below 2^24), accurate logarithms, pages and arrival orders", "why_tests_cant": "needs the real-number error analysis and the state of the counters after arbitrary sequences of updates at once; a test compares a handful of histories with rounded values", "anchors": ["engine.go:376-427", "engine.go:429-477", "engine.go:686-738", "engine.go:762-844", "core/indexer.go:116-258", "core/indexer.go:260-367", "core/indexer.go:371-559", "core/ranker.go:111-260", "types/scoring_criteria.go:28-33"]}
{"id": "C119", "title": "Scores of searches while documents are being added are right for one moment of each shard", "statement": "Any number of clients add documents, one call for each id, while other clients search. For every answer and every shard there is one moment between the start and the end of the search such that each entry of that shard is a document the shard's index had at that moment, and its score (and positions) is what the scoring function gives for this document described over exactly the documents the index had then: their number, their accumulated length, and for each token the number of them that carry it. Documents still waiting in the cache of additions do not count. The documents that count only become more: the scores count all that the index had when the search began and none that it has not when the search ends. The entry shows the fields, content and attributes given to Index.", "quantifier": "for all programs of clients with one call per id, executions of the write pipeline and of the searches, numbers of shards, segmenters and workers, hash functions, plain ranked requests with or without a deadline, scoring functions, pages", "why_tests_cant": "a test sees a few schedules and cannot tell which of the many intermediate index contents a score was computed from", "anchors": ["engine.go:376-427", "engine.go:686-738", "engine.go:762-844", "core/indexer.go:116-258", "core/indexer.go:371-559", "core/ranker.go:111-260"]}
{"id": "C120", "title": "Scores of searches beside a session on existing files are right for one moment of each shard", "statement": "A session starts on files that hold documents, which come back through the recovery of the store, while clients add further documents with new ids through Index and other clients search. For every answer and every shard there is one moment between the start and the end of the search such that each entry of that shard is what the segmenter makes of the stored or given data of its id, is in the shard's index at that moment, and has the score (and positions) which the scoring function gives for it over exactly the documents of files and calls that the index had then: their number, their accumulated length, and for each token the number of them that carry it. The documents that count only become more.", "quantifier": "for all contents of the files, programs of clients with new ids, executions of recovery, pipeline and searches, numbers of shards, store shards, segmenters and workers, hash functions, codecs, plain ranked requests with or without a deadline, scoring functions, pages", "why_tests_cant": "a test sees a few schedules and cannot tell which of the many intermediate index contents a score was computed from, nor whether recovered and new documents are counted alike", "anchors": ["engine.go:185-247", "engine.go:376-427", "engine.go:686-738", "engine.go:762-844", "store_worker.go:26-91", "core/indexer.go:116-258", "core/indexer.go:371-559"]}
{"id": "C121", "title": "While documents are being added searches rank by the true BM25 of one moment of each shard", "statement": "Any number of clients add documents, one call for each id, while other clients search by BM25. For every answer there is for every shard one moment between the start and the end of the search such that the score of each entry is the exact real BM25 value of its document among the documents which its shard had at that moment, up to a relative error of (12 + number of tokens) 2^-22, and of two entries, of any shards, the one in front has no smaller exact score up to nearly equal ones (the other way round when the order is reversed). Of two documents of one shard in which the tokens occur equally often the longer one never stands in front, unless the scores are equal; a document that is not longer and has no fewer occurrences has no smaller score up to rounding. The same when a search may see a shard in the middle of a call that adds documents.", "quantifier": "for all programs of clients with one call per id, executions of the write pipeline and of the searches, numbers of shards, segmenters and workers, hash functions, modest BM25 parameters and documents, accurate logarithms, plain requests with or without a deadline, pages", "why_tests_cant": "needs the real-number error analysis for every intermediate content of the index; a test sees a few schedules and compares rounded values", "anchors": ["engine.go:376-427", "engine.go:686-738", "engine.go:762-844", "core/indexer.go:116-258", "core/indexer.go:371-559", "core/ranker.go:111-260", "types/scoring_criteria.go:28-33"]}
{"id": "C122", "title": "Beside a session on existing files searches rank by the true BM25 of one moment of each shard", "statement": "A session starts on files that hold documents, which come back through the recovery of the store, while clients add further documents with new ids through Index and other clients search by BM25. For every answer there is for every shard one moment between the start and the end of the search such that the score of each entry is the exact real BM25 value of what the segmenter makes of the data of its id, among the documents of files and calls which its shard had at that moment, up to a relative error of (12 + number of tokens) 2^-22, and of two entries, of any shards, the one in front has no smaller exact score up to nearly equal ones. Of two documents of one shard in which the tokens occur equally often, whether from the files or from calls, the longer one never stands in front, unless the scores are equal; a document that is not longer and has no fewer occurrences has no smaller score up to rounding.", "quantifier": "for all contents of the files, programs of clients with new ids, executions of recovery, pipeline and searches, numbers of shards, store shards, segmenters and workers, hash functions, codecs, modest BM25 parameters and documents, accurate logarithms, plain requests with or without a deadline, pages", "why_tests_cant": "needs the real-number error analysis for every intermediate content of the index during a recovery; a test sees a few schedules and compares rounded values", "anchors": ["engine.go:185-247", "engine.go:376-427", "engine.go:686-738", "engine.go:762-844", "store_worker.go:26-91", "core/indexer.go:116-258", "core/indexer.go:371-559", "core/ranker.go:111-260", "types/scoring_criteria.go:28-33"]}
