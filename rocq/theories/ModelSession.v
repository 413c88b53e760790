(** The engine with UseStore, started on files that are not empty (engine.go:330-355): first
    the documents in the files are indexed by the goroutines of Store, then the clients of
    this session start.

    Simplifications: those of ModelPipe.v, ModelStore.v and ModelWhole.v; opening, closing and
    reopening the files (lines 192-203, 229-239) does not change their content and does not
    fail (log.Fatal). *)
From Verif Require Export ModelWhole.

Section Session.
  Variable storeShards : Z.

  (** engine.go:206-226: the [nrec] goroutines storeInit (store_worker.go:73-91), which are
      clients of the pipeline, have ended, and the loop of lines 216-226 has seen equal
      counters.  (No other goroutine increments numIndexingReqs during Init; so once equal,
      the counters stay equal.) *)
  Definition recovered (nrec : nat) (p : pstate) : Prop :=
    Forall (λ c, pActs c = [] ∧ pCalls c = []) (take nrec (sProcs p)) ∧
    value (sLog p) NumIndexingReqs = value (sLog p) NumDocsIndexed.

  (** engine.go:241-243, 355: the store workers start; the documents counted so far in
      numIndexingReqs are added to numDocsStored.  In the log of the store they appear as
      counted requests and counted writes, with no effect on the files. *)
  Definition sessionInit (nrec : nat) (p : pstate) (programs : list (list wcall)) : wstate :=
    let k := Z.to_nat (value (sLog p) NumIndexingReqs) in
    mkWS ((λ cs, mkWC cs [] 0 true 0 true) <$> programs)
      (drop nrec (sProcs p)) (sNet p) (sLog p)
      (replicate (Z.to_nat storeShards) WIdle) [] (replicate k EvReq ++ replicate k EvStored).
End Session.
