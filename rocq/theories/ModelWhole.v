(** The engine with UseStore: the write pipeline of ModelPipe.v and the persistent store
    of ModelStore.v in one system (engine.go:376-463, 812-842).  The clients go through
    both, and the first waiting loop of Flush looks at the counters of both.

    Simplifications: those of ModelPipe.v and ModelStore.v, except that the store is used
    here. *)
From Verif Require Export ModelPipe ModelStore.

(** Calls: the document built by the segmenter worker is given with the data (indexCall in
    ModelStore.v computes it); its id is the docId of the call. *)
Inductive wcall :=
  | WIndex (d : DocIndex) (data : DocData) (force : bool)
  | WRemove (docId : string) (force : bool)
  | WFlush.
(** What the pipeline, resp. the store, has to do with a call *)
Definition pipeCall (c : wcall) : ecall :=
  match c with
  | WIndex d data force => EIndex d (ddFields data) (ddContent data) (ddAttri data) force
  | WRemove id force => ERemove id force
  | WFlush => EFlush
  end.
Definition storeCall (c : wcall) : scall :=
  match c with
  | WIndex d data _ => SIndex (DocId d) data
  | WRemove id _ => SRemove id
  | WFlush => SFlush
  end.

(** Actions of a client: one of ModelPipe.v; hand-over to a store worker; start of a
    removal goroutine; Flush: reading and comparing the counters of line 820, and line 823. *)
Inductive wact :=
  | WPipe (a : act)
  | WSend (docId : string) (data : DocData) | WSpawn (docId : string)
  | WRead | WCmp | WLoop.
Record wclient := mkWC {
  wCalls : list wcall; wActs : list wact;
  wReg : Z; wOk : bool;        (* inxd && rmd *)
  wReg2 : Z; wOk2 : bool }.    (* stored *)
Record wstate := mkWS {
  wClients : list wclient;
  wProcs : list proc; wNet : list (chan * msg); wLog : list event;     (* pipeline *)
  wWork : list sworker; wDels : list string; wSLog : list sevent }.    (* store *)

Section Whole.
  Variable murmur : string → Z.
  Variable numShards : Z.
  Variable only : bool.
  Variable reqsFirst : bool.     (* line 816, see ModelPipe.v *)
  Variable cap : chan → nat.
  Variable accepts : string → string → bool.
  Variable encode : DocData → option string.
  Variable storeShards : Z.
  Variable reqsFirst2 : bool.    (* line 820, likewise *)

  (** engine.go:813-821: one round of the first waiting loop, before the decision *)
  Definition waitActs : list act :=
    [FReset] ++ (if reqsFirst then [FRead NumIndexingReqs; FCmp NumDocsIndexed]
                 else [FRead NumDocsIndexed; FCmp NumIndexingReqs]) ++
    [FRead NumRemovingReqs; FCmp NumDocsRemoved].
  Definition wLoop1 : list wact := (WPipe <$> waitActs) ++ [WRead; WCmp; WLoop].

  (** engine.go:376-397, 431-463, 812-842 *)
  Definition wcallActs (c : wcall) : list wact :=
    match c with
    | WIndex d data _ =>
      (WPipe <$> callActs numShards reqsFirst (pipeCall c)) ++ (if seqb (DocId d) "0" then [] else [WSend (DocId d) data])
    | WRemove id _ =>
      (WPipe <$> callActs numShards reqsFirst (pipeCall c)) ++ (if seqb id "0" then [] else [WSpawn id])
    | WFlush => wLoop1 ++ (WPipe <$> indexActs zeroCall "0" true ++ flushLoop2)
    end.

  (** The store side only sees that numIndexingReqs has been incremented. *)
  Definition reqEvent (a : act) : list sevent :=
    match a with ADo (EvInc NumIndexingReqs) => [EvReq] | _ => [] end.

  (** Client [k] moves.  numIndexingReqs is the counter of the pipeline, numDocsStored that
      of the store. *)
  Definition wclientStep (k : nat) (s : wstate) : option wstate :=
    c ← wClients s !! k;
    let upd c' := mkWS (<[k := c']> (wClients s)) (wProcs s) in
    match wActs c with
    | [] =>
      match wCalls c with
      | [] => None
      | call :: cs => Some (upd (mkWC cs (wcallActs call) 0 true 0 true) (wNet s) (wLog s) (wWork s) (wDels s) (wSLog s))
      end
    | WPipe a :: acts =>
      '(p, net, log) ← procStep murmur numShards only reqsFirst cap (mkProc None [] [a] (wReg c) (wOk c)) (wNet s) (wLog s);
      Some (upd (mkWC (wCalls c) ((WPipe <$> pActs p) ++ acts) (pReg p) (pOk p) (wReg2 c) (wOk2 c)) net log
                (wWork s) (wDels s) (wSLog s ++ reqEvent a))
    | a :: acts =>
      let next acts reg2 ok2 := mkWC (wCalls c) acts (wReg c) (wOk c) reg2 ok2 in
      match a with
      | WSend id data =>
        let j := Z.to_nat (storeShard murmur storeShards id) in
        match wWork s !! j with
        | Some WIdle => Some (upd (next acts (wReg2 c) (wOk2 c)) (wNet s) (wLog s)
                                  (<[j := WHold id data]> (wWork s)) (wDels s) (wSLog s ++ [EvSent id data]))
        | _ => None
        end
      | WSpawn id => Some (upd (next acts (wReg2 c) (wOk2 c)) (wNet s) (wLog s)
                               (wWork s) (wDels s ++ [id]) (wSLog s ++ [EvSpawn id]))
      | WRead => Some (upd (next acts (if reqsFirst2 then value (wLog s) NumIndexingReqs else numStored (wSLog s)) (wOk2 c))
                           (wNet s) (wLog s) (wWork s) (wDels s) (wSLog s))
      | WCmp => Some (upd (next acts (wReg2 c) (wReg2 c =? if reqsFirst2 then numStored (wSLog s) else value (wLog s) NumIndexingReqs))
                          (wNet s) (wLog s) (wWork s) (wDels s) (wSLog s))
      | _ =>    (* WLoop, line 823 *)
        Some (upd (mkWC (wCalls c) (if wOk c && wOk2 c then acts else wLoop1 ++ acts) (wReg c) true (wReg2 c) true)
                  (wNet s) (wLog s) (wWork s) (wDels s) (wSLog s))
      end
    end.

  (** A segmenter, indexer or ranker worker moves (ModelPipe.v) *)
  Definition wprocStep (k : nat) (s : wstate) : option wstate :=
    p ← wProcs s !! k;
    '(p', net, log) ← procStep murmur numShards only reqsFirst cap p (wNet s) (wLog s);
    Some (mkWS (wClients s) (<[k := p']> (wProcs s)) net log (wWork s) (wDels s) (wSLog s)).
  (** A store worker or a removal goroutine moves (ModelStore.v) *)
  Definition wstoreStep (m : sstate → option sstate) (s : wstate) : option wstate :=
    t ← m (mkSS [] (wWork s) (wDels s) (wSLog s));
    Some (mkWS (wClients s) (wProcs s) (wNet s) (wLog s) (ssWork t) (ssDels t) (ssLog t)).

  Inductive wmove := WMClient (k : nat) | WMProc (k : nat) | WMWorker (j : nat) | WMDel (k : nat).
  Definition wmoveStep (m : wmove) (s : wstate) : option wstate :=
    match m with
    | WMClient k => wclientStep k s
    | WMProc k => wprocStep k s
    | WMWorker j => wstoreStep (workerStep accepts encode j) s
    | WMDel k => wstoreStep (delStep k) s
    end.
  Definition wholeStep (s s' : wstate) : Prop := ∃ m, wmoveStep m s = Some s'.
  Definition wsched (ms : list wmove) (s : wstate) : option wstate := foldlM (λ s m, wmoveStep m s) ms s.

  (** engine.go:330-355: the goroutines after Init with empty database files, plus the clients *)
  Definition wholeInit (numGseThreads : nat) (programs : list (list wcall)) : wstate :=
    mkWS ((λ cs, mkWC cs [] 0 true 0 true) <$> programs)
      (sProcs (pipeInit numShards numGseThreads [])) [] []
      (replicate (Z.to_nat storeShards) WIdle) [] [].
End Whole.
