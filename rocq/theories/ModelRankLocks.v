(** The ranker under concurrent calls, at the level of its lock (core/ranker.go:29-37 RWMutex)
    and of single accesses to its four maps: any number of goroutines call AddDoc, RemoveDoc
    (ranker_worker.go:44-58, 75-81) and Rank (ranker_worker.go:60-73).

    A goroutine has a program counter [kpc]; one step is one lock operation or one access
    to a map.  Simplifications: the lock is granted to any waiting goroutine when it is
    free (no preference for writers, no fairness); Score is a function (it gets the
    document and the scoring fields, after RUnlock); sorting and cutting the page at the end of Rank
    is one step with the last document. *)
From Verif Require Export ModelRanker.

Inductive kcall :=
  | KWrite (o : rop)
  | KRank (docs : list IndexedDoc) (opts : RankOpts) (countOnly : bool).

(** What a call of Rank knows about the documents looked at: for the theorems, each document comes
    with the number of writes completed when it was looked at. *)
Record ktrace := mkTrace { ktDone : list (IndexedDoc * nat); ktFrom : nat }.

Inductive kpc :=
  | KIdle
  | KLock (o : rop)                          (* at line 73 or 98 *)
  | KAssign (o : rop) (k : nat)              (* lines 74-87, 99-106: [k] assignments made *)
  (* Rank: [rest] are the documents of the loop still to come, [acc] outputDocs and numDocs *)
  | KLoop (opts : RankOpts) (cnt : bool) (rest : list IndexedDoc) (acc : list ScoredDoc * Z) (tr : ktrace)   (* at line 127, 182 *)
  | KHas (opts : RankOpts) (cnt : bool) (d : IndexedDoc) (rest : list IndexedDoc) (acc : list ScoredDoc * Z) (tr : ktrace) (m : nat) (* line 129, 184 *)
  | KFields (opts : RankOpts) (cnt : bool) (d : IndexedDoc) (rest : list IndexedDoc) (acc : list ScoredDoc * Z) (tr : ktrace) (m : nat) (* line 131, 186 *)
  | KContent (opts : RankOpts) (cnt : bool) (d : IndexedDoc) (rest : list IndexedDoc) (acc : list ScoredDoc * Z) (tr : ktrace) (m : nat) (fs : Iface) (* line 187 *)
  | KAttri (opts : RankOpts) (cnt : bool) (d : IndexedDoc) (rest : list IndexedDoc) (acc : list ScoredDoc * Z) (tr : ktrace) (m : nat) (fs : Iface) (content : string) (* line 188 *)
  | KScore (opts : RankOpts) (cnt : bool) (d : IndexedDoc) (rest : list IndexedDoc) (acc : list ScoredDoc * Z) (tr : ktrace) (m : nat) (fs : Iface) (content : string) (attri : Iface) (* lines 132-146, 189-211 *)
  | KMiss (opts : RankOpts) (cnt : bool) (d : IndexedDoc) (rest : list IndexedDoc) (acc : list ScoredDoc * Z) (tr : ktrace) (m : nat) (* line 148, 213 *)
  | KCrash.

(** An answer of Rank, with the documents looked at, and the numbers of writes completed
    before its start and before its end *)
Record kanswer := mkKAns {
  kaThread : nat; kaOpts : RankOpts; kaCount : bool; kaDone : list (IndexedDoc * nat); kaFrom : nat; kaTo : nat; kaResult : list ScoredDoc * Z }.

(** The maps, who is inside the lock, the writes completed (with the goroutine), the answers *)
Record krank := mkKRank {
  kRanker : Ranker; kWriter : option nat; kReaders : list nat; kLog : list (nat * rop); kAnswers : list kanswer }.

Definition setFields (m : gmap string Iface) (r : Ranker) : Ranker := mkRanker m (rDocs r) (rContent r) (rAttri r) (idOnly r).
Definition setDocs (m : gmap string bool) (r : Ranker) : Ranker := mkRanker (rFields r) m (rContent r) (rAttri r) (idOnly r).
Definition setContent (m : gmap string string) (r : Ranker) : Ranker := mkRanker (rFields r) (rDocs r) m (rAttri r) (idOnly r).
Definition setAttri (m : gmap string Iface) (r : Ranker) : Ranker := mkRanker (rFields r) (rDocs r) (rContent r) m (idOnly r).

(** core/ranker.go:74-87 and 99-106: the assignment number [k]; [None]: the type assertion panics *)
Definition assign (o : rop) (k : nat) (r : Ranker) : option Ranker :=
  match o, k with
  | ROAdd id f _, 0%nat => Some (setFields (<[id := f]> (rFields r)) r)
  | ROAdd id _ _, 1%nat => Some (setDocs (<[id := true]> (rDocs r)) r)
  | ROAdd id _ c, 2%nat =>
    if idOnly r then Some r else
    match c with [] => Some r | IStr s :: _ => Some (setContent (<[id := s]> (rContent r)) r) | _ :: _ => None end
  | ROAdd id _ c, 3%nat =>
    if idOnly r then Some r else
    match c with _ :: x :: _ => Some (setAttri (<[id := x]> (rAttri r)) r) | _ => Some r end
  | RORemove id, 0%nat => Some (setFields (delete id (rFields r)) r)
  | RORemove id, 1%nat => Some (setDocs (delete id (rDocs r)) r)
  | RORemove id, 2%nat => Some (if idOnly r then r else setContent (delete id (rContent r)) r)
  | RORemove id, 3%nat => Some (if idOnly r then r else setAttri (delete id (rAttri r)) r)
  | _, _ => Some r
  end.

(** core/ranker.go:134-146, 191-211: what a document adds *)
Definition addEntry (only : bool) (opts : RankOpts) (cnt : bool) (d : IndexedDoc) (fs : Iface) (content : string) (attri : Iface)
    (acc : list ScoredDoc * Z) : list ScoredDoc * Z :=
  let scores := ScoringCriteria opts d fs in
  if 0 <? zlen scores then
    (if cnt then acc.1 else acc.1 ++ [
       if only then mkScored (ixDocId d) scores (TokenSnippetLocs d) (TokenLocs d) "" INil INil
       else mkScored (ixDocId d) scores (TokenSnippetLocs d) (TokenLocs d) content attri fs], acc.2 + 1)
  else acc.

Section RankLocks.
  Variable sortBy : (ScoredDoc → ScoredDoc → bool) → list ScoredDoc → list ScoredDoc.

  (** core/ranker.go:162-176, 227-241 *)
  Definition rankEnd (opts : RankOpts) (cnt : bool) (acc : list ScoredDoc * Z) : option (list ScoredDoc * Z) :=
    if cnt then Some acc
    else
      let outputDocs := sortScored sortBy (ReverseOrder opts) acc.1 in
      let '(start, end_) := maxOutput opts (zlen outputDocs) in
      page ← zslice outputDocs start end_;
      Some (page, acc.2).

  Definition kRelease (t : nat) (s : krank) : krank :=
    mkKRank (kRanker s) (kWriter s) (filter (λ u, u ≠ t) (kReaders s)) (kLog s) (kAnswers s).

  (** One step of goroutine [t]; [None]: it has to wait *)
  Definition kstep (t : nat) (p : kpc) (s : krank) : option (kpc * krank) :=
    match p with
    | KIdle | KCrash => None
    | KLock o =>
      match kWriter s, kReaders s with
      | None, [] => Some (KAssign o 0, mkKRank (kRanker s) (Some t) [] (kLog s) (kAnswers s))
      | _, _ => None
      end
    | KAssign o k =>
      if decide (k < 4)%nat then
        match assign o k (kRanker s) with
        | Some r => Some (KAssign o (S k), mkKRank r (kWriter s) (kReaders s) (kLog s) (kAnswers s))
        | None => Some (KCrash, s)
        end
      else Some (KIdle, mkKRank (kRanker s) None (kReaders s) (kLog s ++ [(t, o)]) (kAnswers s))
    | KLoop opts cnt [] acc tr =>
      match rankEnd opts cnt acc with
      | Some res => Some (KIdle, mkKRank (kRanker s) (kWriter s) (kReaders s) (kLog s)
          (kAnswers s ++ [mkKAns t opts cnt (ktDone tr) (ktFrom tr) (length (kLog s)) res]))
      | None => Some (KCrash, s)
      end
    | KLoop opts cnt (d :: rest) acc tr =>
      match kWriter s with
      | None => Some (KHas opts cnt d rest acc tr (length (kLog s)), mkKRank (kRanker s) None (t :: kReaders s) (kLog s) (kAnswers s))
      | Some _ => None
      end
    | KHas opts cnt d rest acc tr m =>
      Some (match rDocs (kRanker s) !! ixDocId d with
            | Some _ => KFields opts cnt d rest acc tr m
            | None => KMiss opts cnt d rest acc tr m
            end, s)
    | KFields opts cnt d rest acc tr m =>
      let fs := default INil (rFields (kRanker s) !! ixDocId d) in
      Some (if idOnly (kRanker s) then KScore opts cnt d rest acc tr m fs "" INil else KContent opts cnt d rest acc tr m fs, s)
    | KContent opts cnt d rest acc tr m fs =>
      Some (KAttri opts cnt d rest acc tr m fs (default "" (rContent (kRanker s) !! ixDocId d)), s)
    | KAttri opts cnt d rest acc tr m fs content =>
      Some (KScore opts cnt d rest acc tr m fs content (default INil (rAttri (kRanker s) !! ixDocId d)), s)
    | KScore opts cnt d rest acc tr m fs content attri =>
      Some (KLoop opts cnt rest (addEntry (idOnly (kRanker s)) opts cnt d fs content attri acc) (mkTrace (ktDone tr ++ [(d, m)]) (ktFrom tr)),
            kRelease t s)
    | KMiss opts cnt d rest acc tr m =>
      Some (KLoop opts cnt rest acc (mkTrace (ktDone tr ++ [(d, m)]) (ktFrom tr)), kRelease t s)
    end.

  Record kthread := mkKThread { kCalls : list kcall; kPc : kpc }.
  Record kstate := mkKState { kThreads : list kthread; kShared : krank }.

  Definition kenter (c : kcall) (s : krank) : kpc :=
    match c with
    | KWrite o => KLock o
    | KRank docs opts cnt => KLoop opts cnt docs ([], 0) (mkTrace [] (length (kLog s)))
    end.

  (** Goroutine [t] starts its next call or makes a step of the current one. *)
  Definition kdo (t : nat) (s : kstate) : option kstate :=
    th ← kThreads s !! t;
    match kPc th, kCalls th with
    | KIdle, [] => None
    | KIdle, c :: cs => Some (mkKState (<[t := mkKThread cs (kenter c (kShared s))]> (kThreads s)) (kShared s))
    | p, cs => '(p', sh) ← kstep t p (kShared s);
               Some (mkKState (<[t := mkKThread cs p']> (kThreads s)) sh)
    end.
  Definition kconc (s s' : kstate) : Prop := ∃ t, kdo t s = Some s'.
  Definition ksched (ts : list nat) (s : kstate) : option kstate := foldlM (λ s t, kdo t s) ts s.

  Definition kInit (r : Ranker) (programs : list (list kcall)) : kstate :=
    mkKState ((λ cs, mkKThread cs KIdle) <$> programs) (mkKRank r None [] [] []).
End RankLocks.
