(** Which shared variables of an indexer the goroutines of a shard read and write between
    two lock operations (core/indexer.go), for the program counters of ModelLocks.v.

    A program counter stands for the stretch of code in the comment beside it in
    ModelLocks.v; the accesses of the whole stretch are listed.  Where the code only
    waits for a lock nothing is listed.  HasDoc (core/indexer.go:101-108) takes no lock. *)
From Verif Require Export ModelFine.

(** The variables: addCachePointer, the cells of addCache, removeCachePointer, each cell of
    removeCache, and the rest (table with its rows, docsState, numDocs, totalTokenLen,
    docTokenLens; core/indexer.go:33-66) *)
Inductive place := AddPtr | AddCells | RemPtr | RemCell (i : nat) | Table.
Inductive mode := Rd | Wr.

(** removeCachePointer *)
Definition remPtr (s : shard) : nat := length (removeCache (shIx s)).

Definition touches (p : pc) (s : shard) (l : place) : option mode :=
  match p, l with
  (* core/indexer.go:122-128 *)
  | AddPush _ _, AddPtr => Some Wr
  | AddPush _ _, AddCells => Some Wr
  (* core/indexer.go:132-144, 156-161: the loop bound, the cells and their exchange, docsState *)
  | AddScan _ _ _, AddPtr => Some Rd
  | AddScan _ _ _, AddCells => Some Wr
  | AddScan _ _ _, Table => Some Wr
  (* core/indexer.go:139-155: loop bound (to be read next), exchange, entry in the queue of removals, docsState, numDocs *)
  | AddRemPush _ _ _, AddPtr => Some Rd
  | AddRemPush _ _ _, AddCells => Some Wr
  | AddRemPush _ _ _, RemPtr => Some Wr
  | AddRemPush _ _ _, RemCell i => if decide (i = remPtr s) then Some Wr else None
  | AddRemPush _ _ _, Table => Some Wr
  (* core/indexer.go:268-280 *)
  | RemMark _ _ _, RemPtr => Some Wr
  | RemMark _ _ _, RemCell i => if decide (i = remPtr s) then Some Wr else None
  | RemMark _ _ _, Table => Some Wr
  (* core/indexer.go:283-287: the slice is made, no cell is read *)
  | RemTake _ _, RemPtr => Some Wr
  (* core/indexer.go:289: removeCacheLock has been released *)
  | RemSort n _, RemCell i => if decide (i < n)%nat then Some Wr else None
  (* core/indexer.go:308-365: the batch is still a part of the array *)
  | RemDocsRun n _, RemCell i => if decide (i < n)%nat then Some Rd else None
  | RemDocsRun _ _, Table => Some Wr
  (* core/indexer.go:167-168; the cells are only read later (line 171), the model copies them here *)
  | AddTake _, AddPtr => Some Wr
  | AddTake _, AddCells => Some Rd
  (* core/indexer.go:171: addCacheLock has been released, the batch is a part of the array *)
  | AddDocsLock _, AddCells => Some Wr
  (* core/indexer.go:186-255 *)
  | AddDocsRun _, AddCells => Some Rd
  | AddDocsRun _, Table => Some Wr
  (* core/indexer.go:382-415 *)
  | LookRun _, Table => Some Rd
  | _, _ => None
  end.
