(** The concurrent write pipeline: clients calling Index / RemoveDoc / Flush
    (engine.go:376-463, 812-842), segmenter workers (segment.go:248-314), indexer and
    ranker workers (indexer_worker.go:46-73, ranker_worker.go:48-80), with their
    channels and request counters.

    A goroutine is a list of remaining atomic actions.  An execution is a sequence of
    steps; in each step one goroutine performs its next action.  What an action does
    to counters, indexers and rankers is recorded in a log: the value of a counter
    is the number of increments in the log, the state of an indexer or ranker is the
    result of the logged calls in order.

    Simplifications: each call of a core.Indexer or core.Ranker method is one atomic
    step (ModelLocks.v looks inside); all channels have capacity at least 1; counters do
    not wrap around; the persistent store is not used here (ModelStore.v; both together: ModelWhole.v). *)
From Verif Require Export ModelRoute.

Inductive counter :=
  | NumIndexingReqs | NumRemovingReqs | NumForceUpdatingReqs
  | NumDocsIndexed | NumDocsRemoved | NumDocsForceUpdated.
Global Instance counter_eq_dec : EqDecision counter.
Proof. solve_decision. Defined.

(** engine.go:91-101: the channels; [i] is a shard *)
Inductive chan := CSeg | CIxAdd (i : Z) | CIxRem (i : Z) | CRkAdd (i : Z) | CRkRem (i : Z).
Global Instance chan_eq_dec : EqDecision chan.
Proof. solve_decision. Defined.

(** Atomic effects: counter + 1, a call on an indexer, a call on a ranker *)
Inductive event :=
  | EvInc (c : counter)
  | EvIx (i : Z) (o : op)
  | EvRk (i : Z) (o : rop).

(** segment.go:31-36, indexer_worker.go:25-45, ranker_worker.go:22-46: the requests *)
Inductive msg :=
  | MSeg (c : ecall)
  | MAdd (i : Z) (doc : option DocIndex) (force : bool)
  | MRem (i : Z) (docId : string) (force : bool)
  | MRank (i : Z) (o : rop).

(** Actions.  Flush uses a register and a flag: [FReset]: flag := true; [FRead c]:
    register := the counter [c] (times NumShards for removal and forced update
    requests); [FCmp c]: flag := flag and register = the counter [c]; [FLoop1], [FLoop2]:
    start the waiting loop again unless the flag is set. *)
Inductive act :=
  | ADo (e : event)
  | ASend (ch : chan) (m : msg)
  | FReset | FRead (c : counter) | FCmp (c : counter) | FLoop1 | FLoop2.

Record proc := mkProc {
  pChan : option chan;       (* the channel a worker serves; None for a client *)
  pCalls : list ecall;       (* calls a client has still to make *)
  pActs : list act; pReg : Z; pOk : bool }.
Record pstate := mkPState { sProcs : list proc; sNet : list (chan * msg); sLog : list event }.

Section Pipe.
  Variable murmur : string → Z.
  Variable numShards : Z.
  Variable only : bool.
  Variable reqsFirst : bool.
  Variable cap : chan → nat.   (* engine.go:106-149, 312-314 *)

  Definition shards : list Z := seqZ 0 numShards.

  (** engine.go:406-411, 439-445 *)
  Definition incs (docId : string) (force : bool) (c : counter) : list act :=
    (if seqb docId "0" then [] else [ADo (EvInc c)]) ++
    (if force then [ADo (EvInc NumForceUpdatingReqs)] else []).

  (** engine.go:399-416 internalIndexDoc *)
  Definition indexActs (c : ecall) (docId : string) (force : bool) : list act :=
    incs docId force NumIndexingReqs ++ [ASend CSeg (MSeg c)].

  (** engine.go:812-842 Flush: the two waiting loops.  Each counter is read on its own.
      Line 816 compares a variable with the result of a call; Go leaves open which is
      evaluated first, hence the parameter [reqsFirst]. *)
  Definition flushLoop1 : list act :=
    [FReset] ++ (if reqsFirst then [FRead NumIndexingReqs; FCmp NumDocsIndexed]
                 else [FRead NumDocsIndexed; FCmp NumIndexingReqs]) ++
    [FRead NumRemovingReqs; FCmp NumDocsRemoved; FLoop1].
  Definition flushLoop2 : list act := [FReset; FRead NumForceUpdatingReqs; FCmp NumDocsForceUpdated; FLoop2].
  Definition zeroCall : ecall := EIndex (mkDoc "0" f_zero []) INil "" INil true.

  (** engine.go:376-463, 812-842 *)
  Definition callActs (c : ecall) : list act :=
    match c with
    | EIndex d _ _ _ force => indexActs c (DocId d) force
    | ERemove id force =>
      incs id force NumRemovingReqs ++
      mjoin ((λ i, ASend (CIxRem i) (MRem i id force) ::
                   (if seqb id "0" then [] else [ASend (CRkRem i) (MRank i (RORemove id))])) <$> shards)
    | EFlush => flushLoop1 ++ indexActs zeroCall "0" true ++ flushLoop2
    end.

  (** segment.go:248-314 segmenterWorker: what follows the receipt of a request *)
  Definition segActs (c : ecall) : list act :=
    match c with
    | EIndex d f ct a force =>
      if seqb (DocId d) "0" then
        if force then (λ i, ASend (CIxAdd i) (MAdd i None true)) <$> shards else []
      else
        let shard := shardOf murmur numShards (DocId d) ct in
        [ASend (CIxAdd shard) (MAdd shard (Some d) force)] ++
        (if force then (λ i, ASend (CIxAdd i) (MAdd i None true)) <$> filter (λ i, i ≠ shard) shards
         else []) ++
        [ASend (CRkAdd shard) (MRank shard (ROAdd (DocId d) f (if only then [] else [IStr ct; a])))]
    | _ => []
    end.

  (** indexer_worker.go:46-73, ranker_worker.go:48-58, 75-80: the worker loops *)
  Definition handler (m : msg) : list act :=
    match m with
    | MSeg c => segActs c
    | MAdd i doc force =>
      [ADo (EvIx i (OpAdd doc force))] ++
      (match doc with Some _ => [ADo (EvInc NumDocsIndexed)] | None => [] end) ++
      (if force then [ADo (EvInc NumDocsForceUpdated)] else [])
    | MRem i id force =>
      [ADo (EvIx i (OpRemove id force))] ++
      (if seqb id "0" then [] else [ADo (EvInc NumDocsRemoved)]) ++
      (if force then [ADo (EvInc NumDocsForceUpdated)] else [])
    | MRank i o => [ADo (EvRk i o)]
    end.

  (** Values of counters; indexer and ranker calls in order *)
  Definition isInc (c : counter) (e : event) : bool :=
    match e with EvInc c' => bool_decide (c' = c) | _ => false end.
  Definition value (log : list event) (c : counter) : Z :=
    zlen (filter (λ e, isInc c e = true) log).
  Definition ixCalls (i : Z) (log : list event) : list op :=
    omap (λ e, match e with EvIx j o => if j =? i then Some o else None | _ => None end) log.
  Definition rkCalls (i : Z) (log : list event) : list rop :=
    omap (λ e, match e with EvRk j o => if j =? i then Some o else None | _ => None end) log.

  (** What Flush reads (engine.go:816-818, 834-835) *)
  Definition readVal (log : list event) (c : counter) : Z :=
    match c with
    | NumRemovingReqs | NumForceUpdatingReqs => value log c * numShards
    | _ => value log c
    end.

  (** The first request waiting in channel [ch] *)
  Fixpoint takeFirst (ch : chan) (net : list (chan * msg)) : option (msg * list (chan * msg)) :=
    match net with
    | [] => None
    | (c, m) :: net' =>
      if decide (c = ch) then Some (m, net')
      else '(m', rest) ← takeFirst ch net'; Some (m', (c, m) :: rest)
    end.
  Definition queued (ch : chan) (net : list (chan * msg)) : nat :=
    length (filter (λ p, p.1 = ch) net).

  (** One goroutine moves: the new goroutine, channels and log *)
  Definition procStep (p : proc) (net : list (chan * msg)) (log : list event)
      : option (proc * list (chan * msg) * list event) :=
    match pActs p with
    | [] =>
      match pChan p with
      | Some ch =>                                   (* receive the next request *)
        '(m, net') ← takeFirst ch net;
        Some (mkProc (Some ch) (pCalls p) (handler m) 0 true, net', log)
      | None =>                                      (* make the next call *)
        match pCalls p with
        | [] => None
        | c :: cs => Some (mkProc None cs (callActs c) 0 true, net, log)
        end
      end
    | a :: rest =>
      let next l r ok := mkProc (pChan p) (pCalls p) l r ok in
      match a with
      | ADo e => Some (next rest (pReg p) (pOk p), net, log ++ [e])
      | ASend ch m =>
        if decide (queued ch net < cap ch)%nat
        then Some (next rest (pReg p) (pOk p), net ++ [(ch, m)], log) else None
      | FReset => Some (next rest (pReg p) true, net, log)
      | FRead c => Some (next rest (readVal log c) (pOk p), net, log)
      | FCmp c => Some (next rest (pReg p) (pOk p && (pReg p =? value log c)), net, log)
      | FLoop1 => Some (next (if pOk p then rest else flushLoop1 ++ rest) (pReg p) true, net, log)
      | FLoop2 => Some (next (if pOk p then rest else flushLoop2 ++ rest) (pReg p) true, net, log)
      end
    end.

  Definition pstep (k : nat) (s : pstate) : option pstate :=
    p ← sProcs s !! k;
    '(p', net', log') ← procStep p (sNet s) (sLog s);
    Some (mkPState (<[k := p']> (sProcs s)) net' log').
  Definition pipeStep (s s' : pstate) : Prop := ∃ k, pstep k s = Some s'.

  (** A schedule: the goroutine that moves in each step *)
  Definition psched (ks : list nat) (s : pstate) : option pstate := foldlM (λ s k, pstep k s) ks s.

  (** engine.go:330-348: the goroutines after Init, plus the clients *)
  Definition worker (ch : chan) : proc := mkProc (Some ch) [] [] 0 true.
  Definition client (cs : list ecall) : proc := mkProc None cs [] 0 true.
  Definition pipeInit (numGseThreads : nat) (programs : list (list ecall)) : pstate :=
    mkPState ((client <$> programs) ++ replicate numGseThreads (worker CSeg) ++
              mjoin ((λ i, [worker (CIxAdd i); worker (CIxRem i); worker (CRkAdd i); worker (CRkRem i)]) <$> shards))
      [] [].
End Pipe.
