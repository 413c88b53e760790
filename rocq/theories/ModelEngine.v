(** Executable model of the search path of the engine: engine.go Search, Ranks,
    RankID, NotTimeOut, TimeOut; indexer_worker.go indexerLookup; ranker_worker.go
    rankerRank.  Each shard answers exactly once; the order in which the answers
    arrive is a parameter of the functions that collect them. *)
From Verif Require Export ModelRanker.

(** types/search_request.go:18-54 SearchReq after tokenisation (engine.Tokens is
    modelled in ModelSegment.v); rqOpts is the result of the defaulting in
    engine.go:769-778. *)
Record SearchReq := mkReq {
  rqTokens : list string; rqLabels : list string; rqLogic : Logic;
  rqDocIds : option (gset string); rqOpts : RankOpts; rqTimeout : Z;
  rqCountOnly : bool; rqOrderless : bool }.

(** ranker_worker.go:38-42 rankerReturnReq; docs is nil or a list. *)
Record Reply := mkReply { rpDocs : option (list ScoredDoc); rpNum : Z }.

(** types/search_response.go:23-46; a nil Docs is None. *)
Record SearchResp := mkResp {
  rsTokens : list string; rsTimeout : bool; rsNumDocs : Z; rsDocs : option (list ScoredDoc) }.

(** A shard: its indexer and its ranker. *)
Record Shard := mkShard { shIx : Indexer; shRk : Ranker }.

Section Search.
  Variable log2 : F → F.
  Variable sortBy : (ScoredDoc → ScoredDoc → bool) → list ScoredDoc → list ScoredDoc.

  (** indexer_worker.go:75-113 orderLess: entries without scores and payload *)
  Definition bareEntry (d : IndexedDoc) : ScoredDoc :=
    mkScored (ixDocId d) [] (TokenSnippetLocs d) (TokenLocs d) "" INil INil.

  (** ranker_worker.go:63-66: the options the ranker gets *)
  Definition shardOpts (o : RankOpts) : RankOpts :=
    mkRankOpts (ScoringCriteria o) (ReverseOrder o) 0
      (if negb (MaxOutputs o =? 0) then int64 (MaxOutputs o + OutputOffset o) else MaxOutputs o).

  (** ranker_worker.go:60-73 rankerRank *)
  Definition rankerRank (r : Ranker) (docs : list IndexedDoc) (o : RankOpts) (countOnly : bool)
      : option Reply :=
    '(out, num) ← Rank sortBy r docs (shardOpts o) countOnly;
    Some (mkReply (Some out) num).

  (** indexer_worker.go:115-148 indexerLookup: the answer of one shard *)
  Definition shardReply (req : SearchReq) (sh : Shard) : option Reply :=
    '(docs, num) ← Lookup log2 (shIx sh) (rqTokens req) (rqLabels req) (rqDocIds req)
                     (rqCountOnly req) (Some (rqLogic req));
    if rqCountOnly req then Some (mkReply None num)
    else if zlen docs =? 0 then Some (mkReply None 0)
    else if rqOrderless req then Some (mkReply (Some (bareEntry <$> docs)) (zlen docs))
    else rankerRank (shRk sh) docs (rqOpts req) (rqCountOnly req).

  (** engine.go:569-578 and 607-616: one answer is collected *)
  Definition collect (countOnly : bool) (st : list ScoredDoc * Z) (rp : Reply)
      : list ScoredDoc * Z :=
    let '(out, num) := st in
    ((if countOnly then out else match rpDocs rp with Some ds => out ++ ds | None => out end),
     num + rpNum rp).

  (** engine.go:557-588 NotTimeOut; [arrived]: the answers in order of arrival *)
  Definition NotTimeOut (countOnly : bool) (arrived : list Reply) : list ScoredDoc * Z :=
    foldl (collect countOnly) ([], 0) arrived.

  (** engine.go:591-630 TimeOut.  Each of the NumShards iterations either receives an
      answer or runs into the deadline ([None]); the [break] only leaves the select. *)
  Definition TimeOut (countOnly : bool) (events : list (option Reply))
      : list ScoredDoc * Z * bool :=
    foldl (λ st e,
      match e with
      | Some rp => (collect countOnly st.1 rp, st.2)
      | None => (st.1, true)
      end) ([], 0, false) events.

  (** engine.go:527-538 maxRankOutput *)
  Definition maxRankOutput (o : RankOpts) (rankLen : Z) : Z * Z :=
    if MaxOutputs o =? 0 then (MinInt (OutputOffset o) rankLen, rankLen)
    else
      let start := MinInt (OutputOffset o) rankLen in
      (start, MinInt (int64 (start + MaxOutputs o)) rankLen).

  (** engine.go:655-682 and 708-735: sort again, cut the page *)
  Definition finish (req : SearchReq) (rankOutput : list ScoredDoc) (numDocs : Z)
      (isTimeout : bool) : option SearchResp :=
    let o := rqOpts req in
    if rqCountOnly req then Some (mkResp (rqTokens req) isTimeout numDocs None)
    else if rqOrderless req then
      Some (mkResp (rqTokens req) isTimeout numDocs (Some rankOutput))
    else
      let sorted := sortScored sortBy (ReverseOrder o) rankOutput in
      let '(start, end_) := maxRankOutput o (zlen sorted) in
      page ← zslice sorted start end_;
      Some (mkResp (rqTokens req) isTimeout numDocs (Some page)).

  (** engine.go:633-683 RankID, 686-736 Ranks.  Without a timeout [events] holds
      answers only. *)
  Definition Ranks (req : SearchReq) (events : list (option Reply)) : option SearchResp :=
    if rqTimeout req <=? 0 then
      let '(out, num) := NotTimeOut (rqCountOnly req) (omap id events) in
      finish req out num false
    else
      let '(out, num, tmo) := TimeOut (rqCountOnly req) events in
      finish req out num tmo.

  (** engine.go:762-808 Search: every shard computes its answer (a panic in a worker
      takes the process down), then the answers are collected.  [order] lists the
      shards whose answers arrive in time, [None] standing for a deadline. *)
  Definition Search (req : SearchReq) (shards : list Shard) (order : list (option nat))
      : option SearchResp :=
    replies ← mapM (shardReply req) shards;
    events ← mapM (λ e : option nat,
               match e with
               | Some i => rp ← replies !! i; Some (Some rp)
               | None => Some None
               end) order;
    Ranks req events.
End Search.

(** engine.go:862-865 getShard, in uint32 arithmetic *)
Definition getShard (numShards hash : Z) : Z :=
  u32 (hash - u32 (hash `div` u32 numShards * u32 numShards)).

(** riot.go:106-118 HasDoc: appends an empty indexer per iteration, then asks the
    indexer at position [shard].  Returns the answer and the indexers afterwards.
    An uninitialised indexer has nil maps; HasDoc on it ends the process (log.Fatal),
    but positions below NumShards are always initialised ones. *)
Definition blankIndexer : Indexer := mkIndexer ∅ ∅ [] [] (mkOpts 0 0 None) 0 f_zero ∅.
Fixpoint hasDocLoop (n : nat) (shard : Z) (docId : string) (ixs : list Indexer)
    : option (bool * list Indexer) :=
  match n with
  | O => Some (false, ixs)
  | S n' =>
    let ixs' := ixs ++ [blankIndexer] in
    ix ← zget ixs' shard;
    if HasDoc ix docId then Some (true, ixs') else hasDocLoop n' (shard + 1) docId ixs'
  end.
Definition engineHasDoc (numShards : nat) (docId : string) (ixs : list Indexer)
    : option (bool * list Indexer) := hasDocLoop numShards 0 docId ixs.

(** The reply channel of one search (engine.go:781-782): made with room for NumShards
    answers.  [chPending]: shards that have not sent yet; each shard sends exactly
    once (indexer_worker.go:88-146, ranker_worker.go:70-71).  A send needs room, a
    receive needs an answer; the caller may stop receiving at any time. *)
Record ChanState := mkChan { chPending : list nat; chBuffer : list nat }.
Inductive chanStep (cap : nat) : ChanState → ChanState → Prop :=
  | chan_send p1 i p2 b : (length b < cap)%nat →
      chanStep cap (mkChan (p1 ++ i :: p2) b) (mkChan (p1 ++ p2) (b ++ [i]))
  | chan_recv p i b : chanStep cap (mkChan p (i :: b)) (mkChan p b).
Definition chanInit (numShards : nat) : ChanState := mkChan (seq 0 numShards) [].

(** Several HasDoc calls in a row. *)
Fixpoint hasDocCalls (numShards : nat) (ids : list string) (ixs : list Indexer)
    : option (list bool * list Indexer) :=
  match ids with
  | [] => Some ([], ixs)
  | id :: ids' =>
    '(b, ixs1) ← engineHasDoc numShards id ixs;
    '(bs, ixs2) ← hasDocCalls numShards ids' ixs1;
    Some (b :: bs, ixs2)
  end.
