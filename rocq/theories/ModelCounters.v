(** counters.go: the counters that users of the engine can read.

    Simplifications: the counters do not wrap around (as in ModelPipe.v); numTokenIndexAdded,
    which nothing but its getters reads, is increased in the same step as the call of
    AddDocToCache before it (indexer_worker.go:49-52). *)
From Verif Require Export ModelPipe.

(** indexer_worker.go:51-52: numTokenIndexAdded after the calls of a log *)
Definition tokensOf (e : event) : Z :=
  match e with EvIx _ (OpAdd (Some d) _) => zlen (Keywords d) | _ => 0 end.
Definition numTokenIndexAdded (log : list event) : Z := foldr (λ e z, tokensOf e + z) 0 log.

(** counters.go:19-21 NumTokenAdded, and 34-36 NumTokenIndexAdded *)
Definition NumTokenAdded (s : pstate) : Z := numTokenIndexAdded (sLog s).
(** counters.go:24-26 NumIndexed, and 39-41 NumDocsIndexed *)
Definition NumIndexed (s : pstate) : Z := value (sLog s) NumDocsIndexed.
(** counters.go:29-31 NumRemoved, and 44-46 NumDocsRemoved *)
Definition NumRemoved (s : pstate) : Z := value (sLog s) NumDocsRemoved.
