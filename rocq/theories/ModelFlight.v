(** The concurrent search path: clients calling Search (engine.go:762-808), the lookup
    workers (indexer_worker.go:115-148) and the rank workers (ranker_worker.go:60-73) of
    every shard, with their channels, while other goroutines write to the shards.

    A goroutine is a state of [spc]; an execution is a sequence of steps, each by one
    goroutine or by the surroundings.  Channels are kept in one list of messages, each
    with its channel; the order of the messages of one channel is the order of sending.

    Simplifications: one call of core.Indexer.Lookup is one step (it holds the read
    lock of the table throughout, see ModelLocks.v); Ranker.Rank takes its lock once per
    document, so each document is one step; the writes of other goroutines are steps
    that replace a shard by an arbitrary one ([LWrite]); all channels have capacity at
    least 1 (Init replaces 0 by the number of CPUs); a deadline may pass in any round of
    the loop of TimeOut, also when a reply is waiting; searches are numbered in the
    order in which they start. *)
From Verif Require Export ModelEngine.

(** engine.go:91-101: indexerLookupChans[i], rankerRankChans[i], and the channel
    rankerReturnChan of search [c] (engine.go:781-782) *)
Inductive schan := KLook (i : nat) | KRank (i : nat) | KReply (c : nat).
Global Instance schan_eq_dec : EqDecision schan.
Proof. solve_decision. Defined.

(** indexer_worker.go:33-45 indexerLookupReq, ranker_worker.go:28-42 rankerRankReq and
    rankerReturnReq.  A reply carries the shard it comes from; the code does not, and no
    goroutine looks at it. *)
Inductive smsg :=
  | MLook (c : nat) (req : SearchReq)
  | MDocs (c : nat) (req : SearchReq) (docs : list IndexedDoc)
  | MReply (i : nat) (rp : Reply).

Inductive spc :=
  (** a client between two searches; [todo]: the searches it has still to make *)
  | PIdle (todo : list SearchReq)
  (** in the loop engine.go:797-799, next shard [i] *)
  | PSend (c : nat) (req : SearchReq) (i : nat) (todo : list SearchReq)
  (** in the loop of NotTimeOut or TimeOut: what the rounds so far have brought *)
  | PGather (c : nat) (req : SearchReq) (got : list (option (nat * Reply))) (todo : list SearchReq)
  (** lookup worker of shard [i]: waiting; with a request; with a reply; with documents
      for the ranker *)
  | WLook (i : nat)
  | WLookGot (i c : nat) (req : SearchReq)
  | WLookReply (i c : nat) (rp : Reply)
  | WLookDocs (i c : nat) (req : SearchReq) (docs : list IndexedDoc)
  (** rank worker of shard [i]: waiting; in the loop of rankOutDocs or rankOutIDs; with
      a reply *)
  | WRank (i : nat)
  | WRankScan (i c : nat) (req : SearchReq) (rest : list IndexedDoc) (acc : list ScoredDoc * Z)
  | WRankReply (i c : nat) (rp : Reply).

(** A finished search: its number, what was gathered, the response, and the moment
    (index into [fWorlds]) *)
Record fanswer := mkFAns { faSearch : nat; faGot : list (option (nat * Reply)); faResp : SearchResp; faEnd : nat }.

Record fstate := mkF {
  fProcs : list spc;
  fNet : list (schan * smsg);
  fReqs : list (SearchReq * nat);   (* the searches so far, with the moment of their start *)
  fWorlds : list (list Shard);      (* contents of the shards over time; the last is current *)
  fAnswers : list fanswer;
  fCrash : bool }.                  (* a panic has ended the process *)

(** The shard [i] now *)
Definition nowAt (ws : list (list Shard)) (i : nat) : option Shard := last ws ≫= λ w, w !! i.
Definition moment (ws : list (list Shard)) : nat := (length ws - 1)%nat.

(** The replies without their origin *)
Definition heard (got : list (option (nat * Reply))) : list (option Reply) :=
  (λ e : option (nat * Reply), match e with Some (_, rp) => Some rp | None => None end) <$> got.

Section Flight.
  Variable log2 : F → F.
  Variable sortBy : (ScoredDoc → ScoredDoc → bool) → list ScoredDoc → list ScoredDoc.
  Variable n : nat.                 (* NumShards *)
  Variable cap : schan → nat.       (* capacities of the lookup and rank channels *)

  (** engine.go:106-149, 781-782 *)
  Definition room (ch : schan) (net : list (schan * smsg)) : bool :=
    bool_decide (length (filter (λ p, p.1 = ch) net) <
      match ch with KReply _ => n | _ => cap ch end)%nat.

  Fixpoint firstOf (ch : schan) (net : list (schan * smsg)) : option (smsg * list (schan * smsg)) :=
    match net with
    | [] => None
    | (c, m) :: net' =>
      if decide (c = ch) then Some (m, net')
      else '(m', rest) ← firstOf ch net'; Some (m', (c, m) :: rest)
    end.

  (** indexer_worker.go:119-147: after the lookup *)
  Definition afterLookup (i c : nat) (req : SearchReq) (docs : list IndexedDoc) (num : Z) : spc :=
    if rqCountOnly req then WLookReply i c (mkReply None num)
    else if zlen docs =? 0 then WLookReply i c (mkReply None 0)
    else if rqOrderless req then WLookReply i c (mkReply (Some (bareEntry <$> docs)) (zlen docs))
    else WLookDocs i c req docs.

  (** core/ranker.go:157-177, 222-242 after the loop, with the options of
      ranker_worker.go:63-66 *)
  Definition rankPage (req : SearchReq) (acc : list ScoredDoc * Z) : option Reply :=
    let o := shardOpts (rqOpts req) in
    let '(outputDocs, numDocs) := acc in
    if rqCountOnly req then Some (mkReply (Some outputDocs) numDocs)
    else
      let outputDocs := sortScored sortBy (ReverseOrder o) outputDocs in
      let '(start, end_) := maxOutput o (zlen outputDocs) in
      page ← zslice outputDocs start end_;
      Some (mkReply (Some page) numDocs).

  (** What a step of a goroutine does; [SCrash]: it panics *)
  Inductive sres :=
    | SStep (p : spc) (net : list (schan * smsg)) (reqs : list (SearchReq * nat)) (ans : list fanswer)
    | SCrash.

  (** One step of a goroutine; [None]: it has to wait.  [late]: the deadline passes
      (looked at in the loop of TimeOut only). *)
  Definition fproc (late : bool) (p : spc) (s : fstate) : option sres :=
    let net := fNet s in
    let keep p' net' := Some (SStep p' net' (fReqs s) (fAnswers s)) in
    match p with
    | PIdle [] => None
    | PIdle (req :: todo) =>
      Some (SStep (PSend (length (fReqs s)) req 0 todo) net
              (fReqs s ++ [(req, moment (fWorlds s))]) (fAnswers s))
    | PSend c req i todo =>
      if decide (i < n)%nat then
        if room (KLook i) net then keep (PSend c req (S i) todo) (net ++ [(KLook i, MLook c req)]) else None
      else keep (PGather c req [] todo) net
    | PGather c req got todo =>
      if decide (length got < n)%nat then
        if late && (0 <? rqTimeout req) then keep (PGather c req (got ++ [None]) todo) net
        else match firstOf (KReply c) net with
             | Some (MReply i rp, net') => keep (PGather c req (got ++ [Some (i, rp)]) todo) net'
             | _ => None
             end
      else match Ranks sortBy req (heard got) with
           | Some resp =>
             Some (SStep (PIdle todo) net (fReqs s)
                     (fAnswers s ++ [mkFAns c got resp (moment (fWorlds s))]))
           | None => Some SCrash
           end
    | WLook i =>
      match firstOf (KLook i) net with
      | Some (MLook c req, net') => keep (WLookGot i c req) net'
      | _ => None
      end
    | WLookGot i c req =>
      match nowAt (fWorlds s) i with
      | Some sh =>
        match Lookup log2 (shIx sh) (rqTokens req) (rqLabels req) (rqDocIds req)
                (rqCountOnly req) (Some (rqLogic req)) with
        | Some (docs, num) => keep (afterLookup i c req docs num) net
        | None => Some SCrash
        end
      | None => Some SCrash
      end
    | WLookReply i c rp =>
      if room (KReply c) net then keep (WLook i) (net ++ [(KReply c, MReply i rp)]) else None
    | WLookDocs i c req docs =>
      if room (KRank i) net then keep (WLook i) (net ++ [(KRank i, MDocs c req docs)]) else None
    | WRank i =>
      match firstOf (KRank i) net with
      | Some (MDocs c req docs, net') => keep (WRankScan i c req docs ([], 0)) net'
      | _ => None
      end
    | WRankScan i c req (d :: rest) acc =>
      match nowAt (fWorlds s) i with
      | Some sh => keep (WRankScan i c req rest (rankStep (shRk sh) (shardOpts (rqOpts req)) (rqCountOnly req) acc d)) net
      | None => Some SCrash
      end
    | WRankScan i c req [] acc =>
      match rankPage req acc with
      | Some rp => keep (WRankReply i c rp) net
      | None => Some SCrash
      end
    | WRankReply i c rp =>
      if room (KReply c) net then keep (WRank i) (net ++ [(KReply c, MReply i rp)]) else None
    end.

  Inductive flabel :=
    | LProc (k : nat) (late : bool)      (* goroutine k moves *)
    | LWrite (i : nat) (sh : Shard).     (* another goroutine changes shard i *)

  Definition fstep (l : flabel) (s : fstate) : option fstate :=
    if fCrash s then None else
    match l with
    | LProc k late =>
      p ← fProcs s !! k;
      r ← fproc late p s;
      Some (match r with
            | SStep p' net reqs ans => mkF (<[k := p']> (fProcs s)) net reqs (fWorlds s) ans false
            | SCrash => mkF (fProcs s) (fNet s) (fReqs s) (fWorlds s) (fAnswers s) true
            end)
    | LWrite i sh =>
      w ← last (fWorlds s);
      Some (mkF (fProcs s) (fNet s) (fReqs s) (fWorlds s ++ [<[i := sh]> w]) (fAnswers s) false)
    end.

  (** A sequence of steps *)
  Fixpoint frun (ls : list flabel) (s : fstate) : option fstate :=
    match ls with
    | [] => Some s
    | l :: ls' => s' ← fstep l s; frun ls' s'
    end.

  (** engine.go:330-348: [tl] lookup workers and [tr] rank workers per shard, next to the
      clients *)
  Definition fInit (programs : list (list SearchReq)) (tl tr : nat) (shards : list Shard) : fstate :=
    mkF ((PIdle <$> programs) ++
         mjoin ((λ i, replicate tl (WLook i) ++ replicate tr (WRank i)) <$> seq 0 n))
      [] [] [shards] [] false.
End Flight.
