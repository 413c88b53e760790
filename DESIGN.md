# Formal model of go-ego/riot in Rocq (Coq 8.16.1)

The source is read as text from /repo (pinned commit); nothing of it is built or run.
All Coq files are in rocq/theories (logical prefix `Verif`). `properties.jsonl` holds the claims in English,
`MANIFEST.json` maps them to theorems, `seeded/LOG.jsonl` records the wrong programs the theorems were tried on.

## 1. Encoding decisions

* Go `string` = Coq `string` (sequence of 8-bit bytes); Go `<`,`==`,`>` on strings = byte-wise
  lexicographic comparison.
* Go `int` used as index = `Z`; array accesses are checked: an out-of-range access makes the function
  return `None` ("panic"). Where Go integer arithmetic can wrap around and this matters (paging, counters,
  hashes, memory statistics), explicit `int64`/`u64`/`u32`/`int32` reductions are used.
* float32 = `SpecFloat.spec_float` with `prec = 24, emax = 128` (executable IEEE-754 of the standard
  library, no axioms, one NaN). float64 inside BM25: `prec = 53, emax = 1024`. `math.Log2` is a parameter.
* Go maps = `gmap` of std++. Where the code ranges over a map, the visiting order is a parameter
  (any permutation of the entries).
* `sort.Sort` is not stable: it is a parameter, constrained only to return a permutation that is ordered if
  `Less` is a strict weak order on the elements. Examples and refutations instantiate it with a stable sort.
* A run-time panic is `None`; `log.Fatal` is `None` or the constructor `Fatal`, as the comment of the definition says.
* Goroutines and channels: transition systems, one rule per atomic step; theorems quantify over all
  finite schedules (reflexive transitive closure of the step relation).
* Loops whose termination is not structural carry fuel; the theorems show that the fuel supplied suffices
  (or exclude the out-of-fuel value explicitly).
* Pointers matter in three places only, and are modelled there: shared option objects (ModelStart.v), the array
  behind `removeCache` (ModelLocks.v), the array behind `engine.indexers` (ModelHasDoc.v).

## 2. Files

| file | content |
|---|---|
| ProofReal.v, ProofReal32.v, ProofReal64.v | float operations as rounded operations on real numbers, error bounds |
| GoBase.v | strings, integers, slices with checked access, floats, sorted lists |
| Model*.v | executable model or transition system, function by function, each definition citing file and lines |
| Spec*.v | vocabulary of the theorems, defined without the model's helpers |
| Proof*.v | lemmas |
| Prop*.v | the theorems of the manifest, each followed by `Print Assumptions`, and concrete cases meeting their hypotheses |
| ExampleTools.v | computing with concrete histories |

Theorems named `..._refuted` are negative results: the natural claim is false of the faithful model, shown by a
witness. The findings are collected in section 5.

## 3. What is modelled

| model file | source | level |
|---|---|---|
| ModelIndexer.v | core/indexer.go: Init, HasDoc, AddDocToCache, AddDocs, RemoveDocToCache, RemoveDocs, searchIndex; types/index.go sort orders; types/indexer_init_options.go | sequential calls |
| ModelLookup.v | core/indexer.go: Lookup, internalLookup, LogicLookup, the find…/union helpers, computeTokenProximity, BM25 | sequential calls |
| ModelLocks.v | the same calls under the concurrent workers of one shard (add worker, remove worker, searches), from lock operation to lock operation, with the aliasing of the removal array | transition system |
| ModelRanker.v | core/ranker.go (all functions), types/search_response.go orders, utils.MinInt | sequential calls |
| ModelEngine.v | engine.go Search, Ranks, RankID, NotTimeOut, TimeOut, maxRankOutput, getShard; indexer_worker.go indexerLookup, orderLess; ranker_worker.go rankerRank; the reply channel; riot.go HasDoc | functions; arrival order as parameter |
| ModelRoute.v | which shard gets which call (Index, RemoveDoc, Flush, segmenterWorker, workers) | sequential calls |
| ModelPipe.v | engine.go Index, RemoveDoc, Flush; segment.go segmenterWorker; indexer and ranker workers; channels, counters | transition system |
| ModelFine.v | ModelPipe.v with the calls of AddDocToCache and RemoveDocToCache carried out step by step in ModelLocks.v, searches of any number of goroutines among them | transition system |
| ModelSegment.v | segment.go (all), stop_tokens.go, engine.go Segment and Tokens, PinYin | functions; segmenter as parameter |
| ModelStore.v | store/*.go Set, Get, Delete, Has, ForEach, OpenStore choice; store_worker.go; engine.go Index/RemoveDoc/Flush/Store parts; riot.go HasDocDB, GetDBAllIds | functions and a transition system for removals |
| ModelWhole.v | engine.go Index, RemoveDoc, Flush with UseStore: pipeline and store in one system | transition system that contains those of ModelPipe.v and ModelStore.v |
| ModelSession.v | engine.go Store and the end of Init: recovery from existing files, then clients and store workers on them | transition system: a run of ModelPipe.v, then one of ModelWhole.v |
| ModelCounters.v | counters.go (all getters) | functions of the log of ModelPipe.v |
| ModelClose.v | engine.go Close beside clients, store workers and removal goroutines | transition system on top of ModelStore.v |
| ModelSort.v | core/uint64.go (all functions, both copies) | array functions |
| ModelMisc.v | info.go UsedMem and unit conversion, core/data.go, net/heartb/heart.go heart loop | functions |
| ModelStart.v | types/engine_init_options.go, engine.go Init, initDef, InitStore, CheckMem, WithGse, riot.go New, NewEngine, store/store.go OpenStore, SearchDoc, SearchID, FlushIndex | functions over a small heap of option objects |
| ModelHasDoc.v | riot.go HasDoc growing `engine.indexers` next to running workers | transition system |
| ModelNet.v | net/com/search.go, net/http/http.go and search.go and dist.go, net/grpc/grpc.go, search.go, grpcc.go and Search of etcd.go | functions |
| ModelFlight.v | engine.go Search, NotTimeOut, TimeOut; indexer_worker.go indexerLookup; ranker_worker.go rankerRank: clients, lookup and rank workers, their channels, beside writers | transition system |
| ModelServer.v | net/http/http.go Search, AddIndex, DelIndex from the decoded request on, net/grpc/grpc.go DocInx, HeartBeat, net/com/search.go AddDocInx, Delete; strconv.Atoi | functions from requests to calls of the engine of ModelWhole.v |
| ModelScoring.v | types/scoring_criteria.go RankByBM25 | functions |
| ModelExamples.v | examples/weibo/custom_scoring_criteria.go, examples/codelab/search_server.go, examples/pinyin_weibo/main.go (the loop that indexes): reading the file, scoring, the calls and requests, what is shown; strings.Split, bufio.Scanner, strconv.ParseUint | functions; the calls are programs of ModelWhole.v |
| ModelWire.v | net/grpc/riot-pb/doc.pb.go: Marshal, MarshalTo, Size, Unmarshal of the eleven messages, encodeVarintDoc, sovDoc, skipDoc | functions on lists of bytes, with explicit panic and error results |
| ModelWireNet.v | net/grpc/grpc.go DocInx, Delete, HeartBeat, Search, net/grpc/search.go rpcSearch, net/grpc/grpcc.go on the encoded messages | functions from bytes to calls of the engine |
| ModelRace.v | which variables of core/indexer.go each stretch of code between two lock operations reads and writes (on the program counters of ModelLocks.v); HasDoc as a reader without lock | table of accesses, checked against the steps by C111 |
| ModelClock.v | engine.go TimeOut with arrival times of the replies, the deadline in 64-bit arithmetic, and the time at which each select ends | relation over rounds; prompt scheduling is a hypothesis where it is needed |
| ModelRankLocks.v | core/ranker.go AddDoc, RemoveDoc, Rank with the RWMutex and each access of a map as a step; any number of goroutines | transition system |
| ModelHelpers.v | riot.go Try with panics, returns and runtime.Goexit; store/store.go RegisterStore and OpenStore on the map of stores | functions |
| ModelGather.v | WgDist/WgPost (net/http/dist.go) and WgRpc/wgGrpc (net/grpc/search.go): shared reply slice and wait group | transition system |

Not modelled: the CPU, disk, platform readers of info.go, the Open, Len and
WALName methods of the stores (Close: the files do not change any more), GetAllDocIds and GetDBAllDocs beyond the iteration of
ForEach, transport, routing and JSON encoding in net/, getters, stubs and registration in doc.pb.go, net/rpcx (no code), the shell commands of
net/heartb (restart, kill), the mains under data/, testdata/ and the other examples, test helpers, logging, garbage collection, disk errors.

### Simplifications stated in the model files

* ModelIndexer/ModelLookup: rows of the index are held by value (no two keys share a row).
* ModelLocks: a step runs a goroutine from one lock operation to the next; the sort of a removal batch is one step;
  read locks are shared, a waiting writer does not block new readers (so more schedules than Go admits are covered).
* ModelPipe: a call of an indexer or ranker method is one step. C60 (one shard) and C104 (the whole pipeline, ModelFine.v) prove
  for which programs this is faithful: nobody removes, or one client keeps additions and removals apart by Flush; C106 says what searches
  see in the middle of a call of one indexer then, C107 what the searches of the whole engine answer (ModelFlight.v takes the moments
  that searches see from the pipeline: states between calls in C84 and C94, states between two lock operations in C107). For other
  programs C42, C43, C58, C104_mixed_phase_refuted and C105_mixed_phase_refuted show what can happen; there the theorems about
  the engine (C39, C73, C78, C97, C98 and so on) hold for calls that are one step. Counters do not wrap, channel capacities are at least 1.
* ModelSegment: token counts are unbounded integers; client location slices are copied.
* ModelSort: index arithmetic is unbounded (no value computed reaches 2^62).
* ModelStore: the database libraries are finite maps with a refusal predicate; no disk errors.
* ModelStore, ModelWhole: Go leaves open which operand of line 820 is read first; both orders are covered (MAlt moves, reqsFirst2).
* ModelSession: closing and reopening the files (engine.go:228-239) does not change them; a session ends after the last Flush, what is
  still on its way to the files then is covered by C82 and C74.
* ModelClose: operations on a closed database fail and change nothing; db.Close is one step.
* ModelHasDoc: one lock and one field per indexer; append-and-assign is one step.
* ModelFlight: a Lookup is one step, each document of Ranker.Rank is one step (the lock is taken per document; C113 proves from the single accesses of the maps that this loses nothing); writers replace a shard
  by an arbitrary one in one step; a deadline may pass in any round; searches and moments are numbered.
* C84 (SpecDuring.v): the shards that searches read change as the pipeline of ModelPipe.v writes them (`written_by`); a document
  counts as there when index and ranker both have it; what is said of single documents is said of ids with one call.
* C92 (SpecSessionDuring.v): the same for the sessions of ModelSession.v (`written_in`), for ids that have one source: the files or one
  call.
* C93 (SpecSurvive.v): a panic is None in the model of a call on a shard and `fCrash` in the model of the searches.
* C94, C95 (SpecDuring.v, SpecDeadline.v): the shards a search has heard from are those whose replies its run has taken (`heardOf`).
* C94, C95, C96 (SpecFits.v): `answerable` requests are plain ones and those whose logic expression has a MUST part with a word, or a
  SHOULD part and no MUST part.
* C97, C98 (SpecRevise.v): a `Revision` says which version of a document a shard should show, which versions it has been given and
  which documents were removed; `called` and `in_session` build it from the calls of the client and the files. One client, Flush between
  two calls on the same id; the first phase of a session leaves the documents of the files alone.
* C99 (SpecPipe.v `ordinary`): the calls other than those that index a document under "0". The phases of the Flush proofs
  (`loose_phase` in ProofBlocks.v) allow such calls; ProofReserved.v replaces them by nothing or by a bare flush.
* C100 (SpecScored.v): `describes` says what the scoring function is told about a document, from the documents of the calls alone;
  only the accumulated token length is taken from the shard (`shard_total`), and C100_lengths_add_up says what it is.
* C117, C118 (SpecRescored.v, SpecReranked.v): `current_docs` lists the documents that a shard should show after the calls of the client;
  everything the scoring is told is stated from this list, the accumulated token length by C117_lengths_add_up_after_revisions. A call of an
  indexer method is one step; C117_scores_with_locks and C118_order_with_locks do without this (phases that either add or remove).
* C119 (SpecGrowing.v): `scored_during` says that the scores of each shard in an answer belong to one moment between the start and the end of the search;
  `held` picks the documents HasDoc says yes to at that moment. It reuses `describes` (C100) and `total_now` (C117). A call of an indexer method is one step.
* C119 with locks (ProofFineGrowing.v): the same over `written_fine`, where the worlds of the searches are states of the model at the level of the indexer locks (ModelFine.v);
  one proof serves both levels (`scored_mo` in ProofGrowing.v).
* C121 (SpecGrowingOrder.v): `ranked_during` names for each shard the documents `held` by its index at one moment of the search and compares the scores and
  the order of the answer with the exact real BM25 among them (`exact_score` of SpecAccuracy.v); `modest_additions` bounds what the calls give to a shard.
* C120 (SpecGrowingSession.v): `scored_meanwhile` says the same for a session on existing files, with `documents_of` listing what the segmenter makes of the
  stored and given data of a shard; `new_ids` is the condition on the calls.
* C122 (SpecSessionOrder.v): `ranked_meanwhile` says what `ranked_during` (C121) says, with the documents that the segmenter makes of stored or given data.
* C78, C79, C96, C97, C99, C100, C114, C115 with locks (PropFineRest.v, PropFineFlights.v, PropFineMore.v): the state is one of the lock-level model (section 3) in which all goroutines of the pipeline are at rest (C97: the last Flush has returned); `shards_now` are the indexers of that very state, with the rankers that the logged calls made.
* C114 (SpecAccuracy.v): the formula is stated over the real numbers, with sums of real lengths and counts of documents; `value` is the
  number that a float stands for. ProofReal.v ties the float operations to rounded real ones (Flocq's correctness theorems).
* C101 (SpecScored.v): `usual_history` is the condition of C100's `usual_calls` for calls that may repeat ids; `scores_numbers`
  (SpecEnd.v) is the hypothesis on scores that all theorems on answers of the engine (C78-C99) have. C101 discharges it for RankByBM25.
* ModelExamples: files are given by their contents; flags, logging, HTTP and JSON are left out. codelab reads its map without a lock
  while indexWeibo fills it; here the map is complete when a reply is made. In C102 and C103 the documents that the segmenter makes
  from the texts are the documents of the calls (`weibo_doc`, `codelab_doc`, see C47-C50 and C88 for what these are).
* ModelServer: a request is its decoded parameters; responses and clock are left out.
* ModelGather: an append is a read and a write of the slice; starting all goroutines of a request is one step.

## 4. Trusted base

* The Coq kernel (also re-checked with coqchk), the reading of Go semantics in section 1, and the faithfulness of the model
  files to the cited lines.
* Parameters standing for code outside the repository or for unspecified behaviour. Theorems are proved for all
  values of them, under the stated constraint where one is given:

| parameter | stands for | constraint |
|---|---|---|
| `log2` | math.Log2 | none (C72: `usual_log2`; C114: `accurate_log2`, relative error 2^-40 from 2 on) |
| `sortDocs`, `sortBy`, `sortTexts` | sort.Sort | `valid_sort`, `valid_sortBy`: sorted permutation |
| `murmur` | murmur.Sum32 | none, or value in uint32 range |
| `ScoringCriteria` | user scoring function | none, or no NaN among the scores occurring |
| `Ext` (ModelSegment) | gse segmentation, strings.ToLower, Split by characters, pinyin, map order | `valid_range` for the map order; C50 states what it needs |
| `Env` (ModelStart) | number of CPUs, stop word file, dictionary loading, memory reading, environment variables, opening stores | none |
| `accepts`, `iter`, `encode`, `decode` (ModelStore) | database libraries, gob | `valid_iter`; decode of encode where stated |
| `asAttri`, `unmarshal`, `hosts`, `replies` (ModelNet, ModelGather) | type assertion on stored attributes, JSON, remote hosts | none |
| `rs`, `rm` (ModelWire) | order in which a map is ranged over, once in Size, once in MarshalTo | permutations of the entries |
| `box`, `registered` (ModelServer, SpecServer) | conversion of types.Attri to an interface value; types known to gob | `attri_unknown`, `gob_rule` (C85 only) |
| `cvt`, `boxW`, `asWSF`, `boxC`, `asCSF` (ModelExamples) | int(x) of floats out of range; scoring fields as interface values and the type assertion | assertion after conversion gives the fields back; fields asserted have reposts in uint64 |
| `grow` (ModelHasDoc) | growth of slices by append | none |
| `cap` (ModelPipe, ModelFlight) | channel capacities | at least 1 where stated |

* ModelWireNet.v: the transport (google.golang.org/grpc) delivers the bytes of one message unchanged, answers with an error if decoding
  fails and does not recover from panics; proto.Marshal and proto.Unmarshal reset the message and call the generated methods.
* Axioms. For all theorems but those of C114, C115, C118, C121 and C122: none; `Print Assumptions` answers "Closed under the global context". The theorems of
  C114, C115, C118, C121 and C122 speak of real numbers and rest on the axioms of the standard library's reals, which `Print Assumptions` lists for each of them:
  `ClassicalDedekindReals.sig_not_dec`, `ClassicalDedekindReals.sig_forall_dec`, `FunctionalExtensionality.functional_extensionality_dep`,
  `Classical_Prop.classic`. Flocq is used for their proofs and adds no axiom.
* Floats: each float32 operation of the source is rounded by itself, as Go does on amd64; on platforms where the compiler fuses a product
  and a sum (the Go specification allows it) the last bits of BM25 may differ.

## 5. Findings

Behaviour of the code that contradicts its documentation or a natural expectation; each is a theorem (or a part of one).

Index of one shard
* C12: with a full cache of waiting documents, unforced re-adds can overflow `addCache` and panic.
* C13: several waiting versions of one document: which one wins depends on an unstable sort; "last wins" is refuted.
* C14, C07: removing a document that is only waiting is ignored; a waiting version reappears after a removal.
* C15: a document with id "0" is never indexed.
* C16: a search by labels only panics for index type LocsIndex.
* C18: token proximity is not the minimum when occurrences overlap.
* C20, C72: the float32 sum of lengths drifts once lengths ever added exceed 2^24; it can become negative, and default BM25
  scores are then negative or infinite.
* C22-C26: logic search: `should` ignores the DocIds filter; `not in` alone returns the excluded documents; query words are
  ignored beside a logic expression; must flag with only `Expr.Should` panics; removals that are pending are still found.
* C41: AddDocToCache and RemoveDocToCache take two locks in opposite order (lines 129/146, 265/267): deadlock, reachable.
* C42: state 2 can be set back to 1 for ever: the document can neither be found nor removed.
* C43: the removal batch aliases the array that the next removals write to.
* C58, C59: an update is not atomic for searches; a batch can be stolen; postings can be duplicated.

Ranker and search
* C27: re-adding a document without content keeps the old content.
* C30, C71: negative or overflowing offset/limit panics; a remote client can end the process this way.
* C31: NaN scores break the order.
* C33: a timed-out search is marked but may return an arbitrary part of the shards.
* C77: an answer mixes moments: a document found by a word of its old version is returned with its new content.

Engine
* C36: documents are routed by hash(id + content): an update can leave the old version in another shard.
* C40: Flush does not wait for the rankers. C57: with concurrent clients Flush can return early.
* C81: with several segmenter threads (the default) Index, Flush, Index, Flush for one document can leave the ranker with the old
  data for ever; with one segmenter thread this cannot happen.
* C65: HasDoc appends an indexer per iteration; the copy can contain held locks: a shard is dead for ever, updates are lost.
  HasDoc also reads the state table without a lock.
* C66: negative thread numbers are accepted and searches hang; negative sizes panic; HasDocDB panics without a store.
* C67: SearchDoc/SearchID panic for count-only requests.
* C52: default option objects are shared by reference between engines.
* C63: recovered documents are not searchable until a flush, and New does not flush.

Store
* C46: removals run in unordered goroutines; Flush and Close do not wait for them: a removed document can come back.
* C45: Bolt's Has is false for empty values; Badger's Has returns an error for missing keys; errors of encoder and Set are ignored.
* C91: NumRemoved counts each removal once per shard, whether or not there was such a document; NumIndexed counts updates again.
* C90: after a restart, RemoveDoc before the first Flush does not reach the index: the recovered documents still wait in the caches, where
  RemoveDocToCache does not look. After the Flush the removed documents are in the index (searches without ranking list them, HasDoc
  reports them) though ranker and files have lost them; nothing but the next restart repairs this.
* C82: Flush does not wait for removals in the store: after RemoveDoc and Flush the document can still be in the file.
* C80: an Index after Close is silently not stored; Close beside another client loses an Index that has returned; a RemoveDoc just
  before Close can be undone by the restart.
* C62: after a change of StoreShards documents are duplicated or lost.

Segmentation
* C47: stop words are not loaded in NotUseGse mode. C49: double spaces give an empty search word.
* C48: Using=1 with content ignores user tokens; PinYin overwrites locations.

Servers and others
* C53: fan-out over hosts is off by one and crashes on the first request; offsets are applied per host; scores are ignored in merging.
* C68: servers re-sort the page by time; a configured limit of 0 gives an empty answer.
* C69: replies of the hosts get lost, or leak into answers of other requests.
* C70: gRPC Delete works on an uninitialised engine copy (log.Fatal); fields are dropped; int32 truncation; a missing logic part panics.
* C109, C110: one request of 10 to 12 bytes ends the gRPC server: lengths close to 2^63 make `iNdEx + length` wrap around, the check
  `postIndex > l` passes and the slice expression panics; in HeartReq, which has no string, unknown fields do the same in skipDoc.
  The transport does not recover from panics. An empty SearchReq (no logic) is enough as well, and so are attributes inside a valid
  DocReq. Attributes that cannot be decoded are only logged: the document is indexed with the fields decoded before the error.
* C85: types.Attri is never registered with gob, and both servers put one into every document: the encoder fails, storeIndexDoc
  skips the write, counts the document as stored, and all documents added through the servers are lost by a restart.
* C86: DelIndex takes the id from the URL only, AddIndex from the posted form first: posting the same form to DelIndex removes
  the document "" and leaves the one meant. Errors of strconv.Atoi are ignored: huge numbers become the largest int and, with an
  offset, kill a worker.
* C87: over HTTP nothing is forced, so nothing is found before DocCacheSize documents have been added; posting one form
  2 * DocCacheSize + 1 times crashes the indexer.
* C102: examples/weibo indexes its first weibo under the reserved id "0" and never finds it; a line of 65536 bytes silently ends the
  reading; its search right after Flush may miss weibos that the rankers have not got yet; from 2^24 reposts on the order is lost.
* C103: examples/pinyin_weibo never resets `tokenDatas`: every document carries the pinyin of all lines before it. examples/codelab
  reads and writes its map without a lock (data race), and distances from 2^24 on can be ranked in the wrong order.
* C54: the failure counter of the heartbeat is never reset and is shared. C55: used memory wraps around.
* C56: the float row counter of core/data.go stops at 2^24. C51: the comparison in the descending merge is the
  odd one out but harmless (equal numbers are indistinguishable).
* C104, C105: RemoveDoc(b) and an update of another document a in the same phase, on the same shard: Flush may return with b still
  searchable for ever (the race of C43 reached from the API), or never return (the lock cycle of C41 reached from the API), though
  each of the two calls uses an id of its own. With a Flush between additions and removals neither happens. C106: also then, a search
  during an update can miss the document, because the old version is hidden before the new one is there.

* **Data races (C111).** The batch of removals is a slice of the array removeCache and is sorted and read after removeCacheLock has been
  released (core/indexer.go:286-290), while the adding worker may write to the same cells. `HasDoc` (core/indexer.go:101-108, called by
  riot.go:104-117) reads the map docsState without tableLock; Go ends the program with a fatal error when it notices a map read during a map write.
  AddDocToCache sorts a slice of addCache after addCacheLock has been released (core/indexer.go:167-172), which is safe only because the engine has one
  adding goroutine for each shard. Outside the model, seen while reading: Flush (engine.go:816-835) and engine.go:219-220 read numIndexingReqs,
  numRemovingReqs and numForceUpdatingReqs without atomic operations while other goroutines add to them atomically.

* **Deadlines (C112).** `NumNanosecondsInAMillisecond*request.Timeout` wraps around for timeouts above 9223372036854 ms: the largest int gives a
  deadline one millisecond before the start. The deadline is set after the requests have been sent, so the time spent waiting for full channels
  is neither limited nor counted.

* **Answers of no single moment (C113).** Rank takes the read lock anew for each document, so an answer may hold a document added late and miss
  one added before it, though neither was ever removed. Each entry by itself is consistent.

* **Rounding of BM25 (C114).** Scores are float32: a document that is better by less than about one part in 2^20 may get an equal score
  (C114_strict_order_refuted: one more occurrence among a million), and one more occurrence can even lower the score
  (C115_one_more_occurrence_refuted). A longer document never gains by rounding (C115).
* **Try and RegisterStore (C116).** Try swallows `panic(nil)` without calling its handler (Go version of go.mod), so the caller takes an aborted
  function for a finished one. RegisterStore accepts the empty name, which OpenStore can never be asked for, nil functions, which panic when
  opened, and the names of the stores of the package, which it replaces silently.

## 6. Theorems

Every theorem outside C114, C115, C118, C121 and C122: `Print Assumptions` = "Closed under the global context". C114, C115, C118, C121, C122: the axioms of the real numbers (section 4).

| property | theorems |
|---|---|
| C01 Posting lists stay well formed (proved) | C01_rows_well_formed |
| C02 Binary search inside a posting list is exact (proved) | C02_position_search |
| C03 AND search is sound and complete (proved) | C03_search_sound_complete |
| C04 Search results come once each, newest id first, and counting agrees (proved) | C04_results_sorted_and_counted |
| C05 Forced updates make the indexer a plain map (proved) | C05_forced_calls_are_a_map |
| C06 Batching is transparent after a flush (proved) | C06_batching_is_transparent, C06_distinct_ids |
| C07 A removed document is invisible to plain search at once (proved) | C07_removed_invisible_at_once, C07_removed_stays_invisible, C07_waiting_version_returns_refuted |
| C08 Removing documents leaves all others untouched (proved) | C08_removal_is_local |
| C09 Re-indexing replaces the old version (proved) | C09_reindexing_replaces |
| C10 The live document counter is exact (proved) | C10_live_counter |
| C11 Cache arrays never overflow while waiting ids are distinct (proved) | C11_remove_never_crashes, C11_no_readd_no_crash |
| C12 Repeated unforced updates of one document crash the indexer (boundary of C11) (proved) | C12_add_crashes_iff_full, C12_crash_reachable |
| C13 Duplicate adds in one batch: exactly one version survives, not necessarily the last (proved) | C13_one_version_survives, C13_last_wins_refuted, C13_sort_is_stable |
| C14 Removing a document that is only waiting to be added has no effect (proved) | C14_remove_of_waiting_is_noop, C14_index_remove_flush_refuted |
| C15 The reserved document id 0 (proved) | C15_zero_not_removable, C15_zero_never_indexed, C15_zero_never_indexed_concurrently |
| C16 Exactly which plain searches crash (proved) | C16_which_searches_crash |
| C17 Token proximity is realisable (proved) | C17_proximity_realisable, C17_snippets_are_locations |
| C18 Token proximity is minimal when occurrences do not overlap (proved) | C18_proximity_minimal, C18_overlap_refuted |
| C19 Every field of a returned document comes from that document (proved) | C19_fields_of_the_hit |
| C20 Accumulated token length is exact below 2^24 and drifts above (proved) | C20_total_is_the_sum, C20_small_additions, C20_forced_histories, C20_drift_refuted |
| C21 MUST logic search is exact on a flushed index (proved) | C21_must_search_exact |
| C22 SHOULD logic search is exact except for the DocIds filter (proved) | C22_should_search, C22_filter_respected_refuted |
| C23 NOT-only logic search returns the excluded documents (proved) | C23_not_only_returns_the_excluded |
| C24 Which words each logic part uses (proved) | C24_only_the_parts_matter, C24_query_words_ignored, C24_otherwise_plain |
| C25 Exactly which logic searches crash (proved) | C25_which_logic_searches_crash |
| C26 Logic search sees documents whose removal is pending (proved) | C26_must_search_sees_pending, C26_should_search_sees_pending, C26_removal_unnoticed, C26_flushed_agrees |
| C27 The ranker is a last-write-wins map (proved) | C27_last_write_wins, C27_with_optional_content, C27_stale_content_refuted |
| C28 Ranking keeps exactly the scorable documents, sorted (proved) | C28_ranking_exact |
| C29 Paging is slicing (proved) | C29_paging_is_slicing, C29_pages_tile |
| C30 Exactly which paging parameters crash (proved) | C30_engine_paging_crashes, C30_ranker_paging_crashes |
| C31 The result order is a strict weak order unless a score is NaN (proved) | C31_strict_weak_order, C31_nan_breaks_the_order |
| C32 Sharded search equals unsharded search (proved) | C32_sharded_search |
| C33 NumDocs of a ranked search (proved) | C33_ranked_total, C33_count_only_total, C33_orderless_returns_all |
| C34 A timeout only loses whole shards (proved) | C34_timeout_loses_whole_shards, C34_answers_never_block |
| C35 Shard choice is total and in range (proved) | C35_shard_in_range |
| C36 Updating a document with other content can leave the old version searchable (proved) | C36_each_shard_keeps_its_last_version, C36_old_version_stays, C36_same_shard_is_replaced |
| C37 RemoveDoc reaches every shard (proved) | C37_remove_reaches_every_shard |
| C38 Request counters account for every in-flight request (proved) | C38_counters_account_for_requests, C38_equal_counters_mean_drained, C38_equal_counters_mean_no_removals |
| C39 After Flush everything indexed before is in the inverted index (proved) | C39_flushed_writes_are_visible, C39_no_indexer_panics |
| C40 Flush does not wait for the rankers (proved) | C40_flush_ignores_rankers, C40_late_removal_wins, C40_rankers_catch_up |
| C41 Adding and removing concurrently can deadlock a shard (proved) | C41_deadlock_reachable, C41_deadlock_is_final, C41_only_deadlock, C41_no_removals_no_deadlock, C41_new_documents_no_deadlock, C41_executions_end |
| C42 A document removed in the middle of its flush can never be indexed again (proved) | C42_ghost_reachable, C42_ghost_is_permanent, C42_ghosts_stay |
| C43 A removal can be lost while another removal batch is being processed (proved) | C43_removal_lost |
| C44 HasDoc asks exactly the shards and changes no answer (proved) | C44_HasDoc_asks_the_shards |
| C45 Persistent store behaves as a map and recovery reloads exactly it (proved) | C45_get_after_set, C45_refused_set_changes_nothing, C45_get_after_delete, C45_has, C45_foreach_visits_all, C45_foreach_stops_at_an_error, C45_recovery_is_exact, C45_every_key_stays_in_its_shard, C45_all_ids, C45_all_docs, C45_open_store |
| C46 Store removal is not ordered with indexing (proved) | C46_outcomes, C46_every_removal_can_win, C46_removed_document_comes_back, C46_flush_does_not_wait_for_removals, C46_removal_after_flush_is_final, C46_ordered_requests_give_the_map |
| C47 Stop words are never indexed (proved) | C47_stop_words_never_indexed, C47_stop_words_never_searched, C47_only_stop_words_are_dropped, C47_no_stop_words_without_segmenter |
| C48 User tokens and labels all become keywords with the right locations (proved) | C48_user_tokens_are_keywords, C48_user_token_locations, C48_mode_1_ignores_user_tokens, C48_labels_only_add, C48_token_length, C48_entry_well_formed, C48_pinyin_overwrites_locations |
| C49 Whitespace queries in no-segmenter mode (proved) | C49_query_is_split_into_words, C49_words_exist_and_are_unique, C49_empty_word_iff_stray_space, C49_stray_space_finds_nothing |
| C50 Whole-word split indexes every word (proved) | C50_split_is_exact, C50_split_crashes_iff, C50_every_word_is_indexed, C50_text_document |
| C51 uint64 sorting functions (proved) | C51_asc, C51_desc, C51_stable_asc, C51_stable_desc, C51_is_sorted_asc, C51_is_sorted_desc, C51_stable_agrees, C51_desc_is_reverse |
| C52 Option defaults (proved) | C52_fields, C52_total, C52_objects, C52_nothing_nil, C52_idempotent, C52_later_engines, C52_defaults_are_shared, C52_indexer_options, C52_search_options |
| C53 Distributed search truncation is off by one (proved) | C53_merge, C53_limit_is_met_refuted, C53_one_host, C53_first_request_crashes, C53_later_requests, C53_offset_is_per_host, C53_pages_reach_everything_refuted |
| C54 Heartbeat restarts on accumulated, not consecutive, failures (proved) | C54_monitor_counts_all_failures, C54_restart_without_consecutive_failures, C54_check_restarts_iff, C54_monitors_share_counter_refuted |
| C55 Memory statistics (proved) | C55_units, C55_used_wraps |
| C56 Document-info group counters (proved) | C56_exists_iff_added, C56_last_info, C56_counter, C56_row_counter_saturates |
| C57 With two clients Flush can return although its own writes are not applied (proved) | C57_flush_returns_early_refuted |
| C58 Updating a document is not atomic for concurrent searches (proved) | C58_search_misses_updated_document, C58_forced_update_delayed |
| C59 Concurrent workers can make a search return a document twice (proved) | C59_duplicate_results |
| C60 Without interference a shard under concurrent searches behaves sequentially (proved) | C60_adder_alone, C60_remover_alone, C60_new_documents |
| C61 Index then search finds the document in no-segmenter mode (proved) | C61_indexed_text_is_found |
| C62 A changed number of store shards resurrects and loses documents (proved) | C62_stale_copy_is_recovered_for_ever, C62_two_versions_are_recovered, C62_dropped_shards_are_not_read, C62_hasdocdb_misses_stale_copies |
| C63 Recovered documents are not searchable until something flushes the cache (proved) | C63_recovered_documents_are_not_found |
| C64 Restart restores exactly the stored documents (proved) | C64_stored_documents_are_shown_after_flush |
| C65 HasDoc next to running workers (proved) | C65_hasdoc_kills_shard, C65_hasdoc_is_safe_refuted, C65_append_by_itself, C65_calm_schedules_are_safe |
| C66 Engine start-up: exactly when Init succeeds and what it sets up (proved) | C66_starts_iff, C66_setup, C66_negative_threads_refuted, C66_second_init_fatal, C66_with_gse, C66_hasdocdb_needs_store, C66_store_files_distinct |
| C67 Arguments of New and NewEngine, crashes of SearchDoc and SearchID (proved) | C67_new_panics_iff, C67_new_engine, C67_new_toml, C67_new_no_toml, C67_search_doc_panics |
| C68 What one server answers (proved) | C68_http_answer, C68_grpc_answer, C68_http_crashes_iff |
| C69 Gathering the replies of other hosts (proved) | C69_one_at_a_time_no_strangers, C69_complete_without_overlap, C69_all_replies_arrive_refuted, C69_answers_are_own_refuted, C69_reset_loses_reply_refuted |
| C70 The gRPC server and its clients (proved) | C70_grpc_delete_is_fatal, C70_init_engine, C70_client_drops_id, C70_search_needs_logic, C70_dist_search_needs_expr, C70_dist_search, C70_labels_are_ignored |
| C71 Clients can end the process through paging parameters (proved) | C71_worker_dies_iff |
| C72 Scores of the default ranking are numbers (proved) | C72_scores_are_numbers, C72_small_indexes, C72_default_search, C72_scores_are_scores_refuted |
| C73 The write pipeline always comes to rest (proved) | C73_everything_returns |
| C74 Each request is carried out exactly once (proved) | C74_each_request_once |
| C75 Every search returns (proved) | C75_every_search_returns, C75_searches_survive, C75_every_search_returns_if_calm |
| C76 Concurrent searches do not disturb each other (proved) | C76_as_if_alone, C76_global_page |
| C77 What a search beside writers can return (proved) | C77_answers_from_the_window, C77_unchanged_shard, C77_mixed_versions_refuted |
| C78 A search sees exactly what was written (proved) | C78_search_sees_the_writes, C78_searches_see_the_writes, C78_forced_writes_do_not_wait, C78_flushed_writes_do_not_wait, C78_nothing_waits_after_a_last_flush, C78_nothing_waits_after_a_last_flush_with_locks, C78_flushed_writes_do_not_wait_with_locks, C78_searches_see_the_writes_with_locks, C78_forced_writes_do_not_wait_with_locks, C78_search_sees_the_writes_with_locks |
| C79 Indexed documents survive a restart and are found again (proved) | C79_search_sees_the_stored_documents_with_locks, C79_search_sees_the_stored_documents, C79_indexed_documents_survive_a_restart |
| C80 Close keeps what was indexed before and freezes the files (proved) | C80_files_after_close, C80_closed_files_are_final, C80_search_after_close_and_restart, C80_index_after_close_is_stored_refuted, C80_close_beside_a_client_refuted, C80_removal_before_close_refuted |
| C81 Updates: the indexer and the ranker of a shard see new versions in the same order (proved) | C81_additions_have_one_order, C81_additions_so_far, C81_search_sees_the_updates, C81_search_sees_forced_updates, C81_old_data_wins_refuted |
| C82 With storage on, Flush means indexed and stored, and a restart changes no answer (proved) | C82_pipeline_view, C82_store_view, C82_requests_are_counted_once, C82_flush_means_indexed_and_stored, C82_restart_changes_no_answer, C82_flushed_removal_is_still_stored |
| C83 With storage on, all work is done in the end, each request once (proved) | C83_everything_returns, C83_each_document_is_indexed_once, C83_each_document_is_stored_once |
| C84 Searches beside running writes find what is there and lose nothing (proved) | C84_settled_documents_are_found, C84_nothing_disappears, C84_count_never_falls |
| C85 Documents added through the servers are never stored (proved) | C85_nothing_is_stored, C85_all_count_as_stored, C85_a_restart_loses_everything |
| C86 The parameters of HTTP requests: numbers, and the id to delete (proved) | C86_numbers, C86_other_text, C86_deadly_requests, C86_posted_delete_deletes_nothing, C86_url_delete_deletes |
| C87 Over HTTP nothing is forced: documents wait, and one repeated form kills the server (proved) | C87_documents_wait, C87_updates_fill_the_cache, C87_one_form_kills_the_server |
| C88 A session on files that already hold documents (proved) | C88_init_ends, C88_init_hands_over_every_document, C88_flush_in_a_session, C88_every_call_returns |
| C89 Any number of sessions: nothing is lost and nothing is made up (proved) | C89_files_hold_all_sessions, C89_search_finds_all_sessions |
| C90 Removals before the first Flush of a session do not reach the index (finding) (proved) | C90_removals_are_lost_in_the_index |
| C91 The public counters count calls, not documents (proved) | C91_counters_never_exceed_the_calls, C91_counters_count_calls |
| C92 Searches beside the writes of a session with storage find the documents of the files and of the calls, and lose nothing (proved) | C92_documents_of_files_and_calls_are_found, C92_nothing_disappears, C92_count_never_falls |
| C93 No panic ends a session in which no id is indexed twice, and every search in it returns (proved) | C93_no_shard_panics, C93_no_search_panics, C93_every_search_returns |
| C94 Searches with deadlines, counts and unordered searches beside running writes (proved) | C94_answers_in_time, C94_complete_answers_keep_all, C94_counts_and_lists, C94_count_never_falls |
| C95 Searches with deadlines, counts and unordered searches beside the writes of a session with storage (proved) | C95_answers_in_time, C95_complete_answers_keep_all, C95_counts_and_lists, C95_count_never_falls |
| C96 Searches with a logic expression see the writes of the whole engine (proved) | C96_logic_searches_see_the_writes_with_locks, C96_logic_search_sees_the_writes_with_locks, C96_logic_search_sees_the_writes, C96_logic_searches_see_the_writes |
| C97 Updates and removals with any number of segmenter goroutines (proved) | C97_search_sees_the_revisions_with_locks, C97_searches_see_the_revisions_with_locks, C97_search_sees_the_revisions, C97_searches_see_the_revisions |
| C98 Updates and removals in a session on existing files (proved) | C98_search_in_a_session_sees_the_revisions, C98_searches_in_a_session_see_the_revisions |
| C99 Documents indexed under the reserved id change no answer (proved) | C99_search_ignores_reserved_with_locks, C99_searches_ignore_reserved_with_locks, C99_search_ignores_reserved, C99_searches_ignore_reserved, C99_flush_with_reserved, C99_nothing_waits_with_reserved |
| C100 The scores of an answer are those of the documents that were indexed (proved) | C100_scores_of_searches_with_locks, C100_default_search_with_locks, C100_default_searches_with_locks, C100_scores_of_a_search_with_locks, C100_scores_of_a_search, C100_scores_of_searches, C100_lengths_add_up, C100_default_search, C100_default_searches, C100_order_without_shards_refuted |
| C101 The scores of the default ranking are numbers at every moment (proved) | C101_default_is_sane, C101_scores_are_numbers, C101_scores_are_numbers_meanwhile, C101_scores_are_numbers_in_a_session, C101_scores_are_numbers_meanwhile_in_a_session, C101_segmented_documents_are_usual, C101_default_search_after_updates, C101_default_search_meanwhile |
| C102 examples/weibo prints the weibos that match (proved) | C102_fields_of_a_line, C102_scans_the_lines, C102_reads_the_lines, C102_order, C102_prints_the_matches, C102_prints_only_matches_at_any_time, C102_first_weibo_printed_refuted, C102_complete_after_flush_refuted, C102_reads_every_weibo_refuted, C102_order_of_large_numbers_refuted |
| C103 examples/codelab replies with the weibos that match; examples/pinyin_weibo mixes the tokens of its lines (proved) | C103_table, C103_scores_are_numbers, C103_adjacent_first, C103_replies_with_the_matches, C103_replies_only_matches_at_any_time, C103_closer_first_refuted, C103_pinyin_documents, C103_pinyin_own_tokens_refuted |
| C104 With the locks of the indexers in view: a Flush between additions and removals keeps the engine right (proved) | C104_one_worker_at_a_time, C104_index_is_the_sequential_one, C104_pipeline_unchanged, C104_shards_of_the_engine, C104_flushed_writes_are_visible, C104_no_worker_panics, C104_mixed_phase_refuted |
| C105 With the locks of the indexers in view: all calls return (proved) | C105_everything_returns, C105_phases_return, C105_rest_is_final, C105_lock_cycle_blocks_flush, C105_mixed_phase_refuted |
| C106 With the locks of the indexers in view: what a search sees in the middle of a write (proved) | C106_index_at_any_moment, C106_search_at_any_moment, C106_answers_are_of_a_moment, C106_no_search_panics, C106_nothing_disappears, C106_everything_returns |
| C107 With the locks of the indexers in view: searches of the whole engine beside writes (proved) | C107_settled_documents_are_found, C107_nothing_disappears, C107_answers_in_time, C107_counts_and_lists, C107_count_never_falls |
| C108 The messages of the gRPC service survive encoding and decoding (proved) | C108_heartbeat, C108_token, C108_document, C108_delete, C108_reply, C108_expression, C108_logic, C108_attributes, C108_text, C108_answer, C108_search, C108_any_heartbeat, C108_any_token, C108_any_document, C108_any_delete, C108_any_reply, C108_any_expression, C108_any_logic, C108_any_attributes, C108_any_text, C108_any_answer, C108_any_search |
| C109 Decoding ends on every input, and which inputs make it panic (proved) | C109_decoding_ends, C109_calm_input_is_safe, C109_no_panic_refuted |
| C110 The calls of the gRPC service end to end on the bytes that travel (proved) | C110_document_arrives, C110_attributes_can_be_sent, C110_bad_attributes_are_not_refused, C110_search_arrives, C110_answer_arrives, C110_delete_arrives, C110_heartbeat_is_echoed, C110_server_survives_refuted, C110_calm_requests_are_survived |
| C111 Data races of the indexers: which variables the locks protect (proved) | C111_steps_write_what_they_touch, C111_steps_read_what_they_touch, C111_races_only_for_removal_cells, C111_others_do_not_interfere, C111_races_in_the_engine, C111_no_race_when_kept_apart, C111_removal_cells_are_raced_for, C111_has_doc_races, C111_two_adders_race |
| C112 The deadline of a search, with the clock in view (proved) | C112_deadline, C112_large_timeouts_end_early, C112_marked_iff_incomplete, C112_not_before_the_deadline, C112_first_replies_are_taken, C112_ends_by_the_deadline, C112_replies_in_time_are_taken, C112_in_time_as_without_timeout, C112_largest_timeout_refuted, C112_sending_is_not_timed_refuted |
| C113 The ranker under concurrent calls, at the level of its lock (proved) | C113_writes_are_serial, C113_calls_of_a_goroutine, C113_no_race, C113_documents_are_read_whole, C113_entries_are_not_torn, C113_undisturbed, C113_executions_are_bounded, C113_no_deadlock, C113_no_panic, C113_answers_of_one_moment_refuted |
| C114 The scores and the order of an answer are those of the BM25 formula over the real numbers (proved) | C114_value_is_bm25, C114_lookup_is_bm25, C114_search_ranks_by_bm25, C114_searches_rank_by_bm25, C114_strict_order_refuted, C114_searches_rank_by_bm25_with_locks, C114_search_ranks_by_bm25_with_locks |
| C115 BM25 prefers shorter documents, more occurrences and rarer words (proved) | C115_searches_put_shorter_first_with_locks, C115_search_puts_shorter_first_with_locks, C115_more_occurrences, C115_rarer_words, C115_shorter_documents, C115_longer_is_never_better, C115_more_occurrences_rounded, C115_rarer_words_rounded, C115_scores_are_positive, C115_one_more_occurrence_refuted, C115_search_puts_shorter_first, C115_searches_put_shorter_first |
| C116 Try hands a panic to its handler; the store registered last under a name is opened (proved) | C116_try, C116_try_stops_panics, C116_try_nested, C116_try_always_handles_refuted, C116_last_registration_wins, C116_nil_registration_panics, C116_others_open_as_before, C116_package_stores, C116_empty_name_is_never_asked_for |
| C117 After updates and removals the scores are those of the current documents alone (proved) | C117_scores_with_locks, C117_scores_after_revisions, C117_scores_of_searches_after_revisions, C117_lengths_add_up_after_revisions, C117_usual_scores_after_revisions, C117_usual_scores_of_searches_after_revisions, C117_scores_in_a_session, C117_usual_scores_in_a_session, C117_scores_of_searches_in_a_session |
| C118 After updates and removals searches rank the current documents by their true BM25 (proved) | C118_order_with_locks, C118_order_after_revisions, C118_order_of_searches_after_revisions, C118_order_in_a_session, C118_order_of_searches_in_a_session |
| C119 Scores of searches while documents are being added are right for one moment of each shard (proved) | C119_scores_with_locks, C119_usual_scores_with_locks, C119_scores_while_adding, C119_usual_scores_while_adding, C119_counted_documents_stay, C119_counted_documents_stay_with_locks |
| C120 Scores of searches beside a session on existing files are right for one moment of each shard (proved) | C120_scores_beside_a_session, C120_usual_scores_beside_a_session, C120_counted_documents_stay |
| C121 While documents are being added searches rank by the true BM25 of one moment of each shard (proved) | C121_order_while_adding, C121_order_with_locks |
| C122 Beside a session on existing files searches rank by the true BM25 of one moment of each shard (proved) | C122_order_beside_a_session |
