(** One shard's indexer under its concurrent workers, at the level of its locks
    (core/indexer.go:36-51): the goroutine of indexer_worker.go:46-60 calls AddDocToCache,
    the one of indexer_worker.go:62-73 calls RemoveDocToCache, those of
    indexer_worker.go:117-148 call Lookup (engine.go:336-344).

    A goroutine has a program counter [pc]; one step runs it from one lock operation to
    the next (the lock operation included).  Inside such a step the shared data it touches is
    protected by a lock it holds, with one exception: the batch of removals is a slice
    of the removeCache array (line 286), and it is sorted (line 289) and read after
    removeCacheLock has been released.  Therefore the array is modelled with its aliasing:
    the cells below removeCachePointer are [removeCache], the cells above are [shStale].

    Simplifications: the sort of line 289 is one step; the add worker's batch
    (line 167) is copied, since only this worker writes to addCache; a sync.RWMutex
    is granted to any waiting goroutine when it is free (no preference for writers,
    no fairness); HasDoc (lines 101-108, which takes no lock) is left out. *)
From Verif Require Export ModelLookup.

(** Arguments of Lookup (core/indexer.go:371-373) *)
Record query := mkQuery {
  qTokens : list string; qLabels : list string; qFilter : option (gset string);
  qCountOnly : bool; qLogic : option Logic }.

Inductive tcall :=
  | TAdd (doc : option DocIndex) (force : bool)
  | TRem (docId : string) (force : bool)
  | TLook (q : query).

(** Program counters, with the local variables.  RemoveDocToCache is also called by
    AddDocToCache (line 162); then [k] is [Some position]. *)
Inductive pc :=
  | Idle
  | AddLock (doc : option DocIndex) (force : bool)            (* at line 121 *)
  | AddPush (doc : option DocIndex) (force : bool)            (* lines 122-128 *)
  | AddTabLock (force : bool)                                 (* at line 129 *)
  | AddScan (force : bool) (i : nat) (position : Z)           (* lines 132-161 *)
  | AddRemLock (force : bool) (i : nat) (position : Z)        (* at line 146 *)
  | AddRemPush (force : bool) (i : nat) (position : Z)        (* lines 147-155 *)
  | RemLock (docId : string) (force : bool) (k : option Z)    (* at line 265 *)
  | RemTabLock (docId : string) (force : bool) (k : option Z) (* at line 267 *)
  | RemMark (docId : string) (force : bool) (k : option Z)    (* lines 268-280 *)
  | RemTake (force : bool) (k : option Z)                     (* lines 283-288, 294 *)
  | RemSort (n : nat) (k : option Z)                          (* line 289 *)
  | RemDocsLock (n : nat) (k : option Z)                      (* at line 304 *)
  | RemDocsRun (n : nat) (k : option Z)                       (* lines 308-365 *)
  | AddTake (position : Z)                                    (* lines 162-170 *)
  | AddDocsLock (docs : list DocIndex)                        (* lines 171, 184 *)
  | AddDocsRun (docs : list DocIndex)                         (* lines 186-255 *)
  | LookLock (q : query)                                      (* at line 379 *)
  | LookRun (q : query)                                       (* lines 382-415 *)
  | Crash.                                                    (* a run-time panic *)

(** Shared state: the indexer, the removeCache cells above removeCachePointer, who
    holds which lock, and the answers given so far. *)
Record shard := mkShard {
  shIx : Indexer; shStale : list string;
  shAdd : option nat; shRem : option nat; shTab : option nat; shReaders : list nat;
  shLog : list (query * option (list IndexedDoc * Z)) }.

Definition shSetIx (x : Indexer) (s : shard) : shard :=
  mkShard x (shStale s) (shAdd s) (shRem s) (shTab s) (shReaders s) (shLog s).
Definition shSetAdd (x : option nat) (s : shard) : shard :=
  mkShard (shIx s) (shStale s) x (shRem s) (shTab s) (shReaders s) (shLog s).
Definition shSetRem (x : option nat) (s : shard) : shard :=
  mkShard (shIx s) (shStale s) (shAdd s) x (shTab s) (shReaders s) (shLog s).
Definition shSetTab (x : option nat) (s : shard) : shard :=
  mkShard (shIx s) (shStale s) (shAdd s) (shRem s) x (shReaders s) (shLog s).
Definition shSetReaders (x : list nat) (s : shard) : shard :=
  mkShard (shIx s) (shStale s) (shAdd s) (shRem s) (shTab s) x (shLog s).
Definition shAnswer (a : query * option (list IndexedDoc * Z)) (s : shard) : shard :=
  mkShard (shIx s) (shStale s) (shAdd s) (shRem s) (shTab s) (shReaders s) (shLog s ++ [a]).

(** The removeCache array, and replacing its contents (removeCachePointer unchanged) *)
Definition shArray (s : shard) : list string := removeCache (shIx s) ++ shStale s.
Definition shSetArray (a : list string) (s : shard) : shard :=
  let k := length (removeCache (shIx s)) in
  mkShard (setRemoveCache (take k a) (shIx s)) (drop k a)
    (shAdd s) (shRem s) (shTab s) (shReaders s) (shLog s).
(** After the indexer has become [x] by appending to its remove queue: the new entries
    have overwritten cells above the pointer. *)
Definition shPushed (x : Indexer) (s : shard) : shard :=
  mkShard x (drop (length (removeCache x) - length (removeCache (shIx s))) (shStale s))
    (shAdd s) (shRem s) (shTab s) (shReaders s) (shLog s).
(** Lines 286-287: the batch is the first [length (removeCache ..)] cells, the pointer
    becomes 0 *)
Definition shTaken (s : shard) : shard :=
  mkShard (setRemoveCache [] (shIx s)) (shArray s)
    (shAdd s) (shRem s) (shTab s) (shReaders s) (shLog s).

Section Locks.
  Variable log2 : F → F.
  Variable sortDocs : list DocIndex → list DocIndex.

  Definition isFree (l : option nat) : bool := match l with None => true | Some _ => false end.
  Definition tabFree (s : shard) : bool :=
    isFree (shTab s) && match shReaders s with [] => true | _ => false end.

  (** One step of goroutine [t]; [None]: it has to wait for a lock.  On a panic the
      goroutine stops in [Crash] (in Go the whole program stops). *)
  Definition tstep (t : nat) (p : pc) (s : shard) : option (pc * shard) :=
    match p with
    | Idle | Crash => None
    | AddLock d f => if isFree (shAdd s) then Some (AddPush d f, shSetAdd (Some t) s) else None
    | AddPush d f =>
      match pushAdd d (shIx s) with
      | None => Some (Crash, s)
      | Some x =>
        if (DocCacheSize (initOptions x) <=? zlen (addCache x)) || f
        then Some (AddTabLock f, shSetIx x s)
        else Some (Idle, shSetAdd None (shSetIx x s))
      end
    | AddTabLock f => if tabFree s then Some (AddScan f 0 0, shSetTab (Some t) s) else None
    | AddScan f i pos =>
      match addCache (shIx s) !! i with
      | None => Some (RemLock "0" f (Some pos), shSetTab None s)
      | Some d =>
        if (match docsState (shIx s) !! DocId d with Some 0 => true | _ => false end)
        then Some (AddRemLock f i pos, s)
        else match scanStep (shIx s, pos) i with
             | None => Some (Crash, s)
             | Some (x, pos') => Some (AddScan f (S i) pos', shSetIx x s)
             end
      end
    | AddRemLock f i pos =>
      if isFree (shRem s) then Some (AddRemPush f i pos, shSetRem (Some t) s) else None
    | AddRemPush f i pos =>
      match scanStep (shIx s, pos) i with
      | None => Some (Crash, s)
      | Some (x, pos') => Some (AddScan f (S i) pos', shSetRem None (shPushed x s))
      end
    | RemLock id f k =>
      if isFree (shRem s)
      then Some ((if seqb id "0" then RemTake f k else RemTabLock id f k), shSetRem (Some t) s)
      else None
    | RemTabLock id f k => if tabFree s then Some (RemMark id f k, shSetTab (Some t) s) else None
    | RemMark id f k =>
      match markRemove id (shIx s) with
      | None => Some (Crash, s)
      | Some x => Some (RemTake f k, shSetTab None (shPushed x s))
      end
    | RemTake f k =>
      let n := length (removeCache (shIx s)) in
      if (0 <? Z.of_nat n) && ((DocCacheSize (initOptions (shIx s)) <=? Z.of_nat n) || f)
      then Some (RemSort n k, shSetRem None (shTaken s))
      else Some (match k with None => Idle | Some pos => AddTake pos end, shSetRem None s)
    | RemSort n k =>
      Some (RemDocsLock n k, shSetArray (sortIds (take n (shArray s)) ++ drop n (shArray s)) s)
    | RemDocsLock n k => if tabFree s then Some (RemDocsRun n k, shSetTab (Some t) s) else None
    | RemDocsRun n k =>
      match RemoveDocs (take n (shArray s)) (shIx s) with
      | None => Some (Crash, s)
      | Some x => Some (match k with None => Idle | Some _ => AddTake 0 end, shSetTab None (shSetIx x s))
      end
    | AddTake pos =>
      match zslice (addCache (shIx s)) pos (zlen (addCache (shIx s))),
            zslice (addCache (shIx s)) 0 pos with
      | Some docs, Some kept => Some (AddDocsLock docs, shSetAdd None (shSetIx (setAddCache kept (shIx s)) s))
      | _, _ => Some (Crash, s)
      end
    | AddDocsLock docs => if tabFree s then Some (AddDocsRun docs, shSetTab (Some t) s) else None
    | AddDocsRun docs =>
      match AddDocs (sortDocs docs) (shIx s) with
      | None => Some (Crash, s)
      | Some x => Some (Idle, shSetTab None (shSetIx x s))
      end
    | LookLock q =>
      if isFree (shTab s) then Some (LookRun q, shSetReaders (t :: shReaders s) s) else None
    | LookRun q =>
      let r := Lookup log2 (shIx s) (qTokens q) (qLabels q) (qFilter q) (qCountOnly q) (qLogic q) in
      Some (match r with None => Crash | Some _ => Idle end,
            shAnswer (q, r) (shSetReaders (filter (λ u, u ≠ t) (shReaders s)) s))
    end.

  (** A goroutine: the calls it has still to make, and where it is *)
  Record thread := mkThread { tCalls : list tcall; tPc : pc }.
  Record cstate := mkCState { cThreads : list thread; cShard : shard }.

  Definition enter (c : tcall) : pc :=
    match c with TAdd d f => AddLock d f | TRem id f => RemLock id f None | TLook q => LookLock q end.

  (** Goroutine [t] starts its next call or makes a step of the current one. *)
  Definition cstep (t : nat) (s : cstate) : option cstate :=
    th ← cThreads s !! t;
    match tPc th, tCalls th with
    | Idle, [] => None
    | Idle, c :: cs => Some (mkCState (<[t := mkThread cs (enter c)]> (cThreads s)) (cShard s))
    | p, cs => '(p', sh) ← tstep t p (cShard s);
               Some (mkCState (<[t := mkThread cs p']> (cThreads s)) sh)
    end.
  Definition conc (s s' : cstate) : Prop := ∃ t, cstep t s = Some s'.
  Fixpoint csched (ts : list nat) (s : cstate) : option cstate :=
    match ts with [] => Some s | t :: ts => s' ← cstep t s; csched ts s' end.

  (** The workers of a shard: goroutine 0 adds, goroutine 1 removes, the others search.
      The indexer [x] is in a state between two calls; [stale] are the cells of its
      array above removeCachePointer. *)
  Definition shardStart (x : Indexer) (stale : list string) (adds : list (option DocIndex * bool))
      (rems : list (string * bool)) (looks : list (list query)) : cstate :=
    mkCState
      (mkThread ((λ a, TAdd a.1 a.2) <$> adds) Idle ::
       mkThread ((λ r, TRem r.1 r.2) <$> rems) Idle ::
       ((λ qs, mkThread (TLook <$> qs) Idle) <$> looks))
      (mkShard x stale None None None [] []).
End Locks.
