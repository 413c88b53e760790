(** Persistent storage: store/store.go and its three engines, store_worker.go, and the
    store parts of engine.go (Index, RemoveDoc, Flush, Store). *)
From Verif Require Export ModelSegment.

(** The database inside an engine: keys and values are byte strings.  The libraries
    themselves (goleveldb, badger, bbolt) are not modelled: a database is a finite map;
    [accepts]: whether the library takes this key and value (badger and bbolt refuse the
    empty key, bbolt refuses keys above 32 KB, ...); an iteration visits every entry
    once, in some order [iter].  Disk errors are not modelled. *)
Notation kv := (gmap string string).
Inductive storeEngine := Ldb | Bg | Bolt.

(** store/store.go:22-35, 55-72 OpenStore: the engine opened for the argument [arg] ("" =
    none given) and the environment variable Riot_Store_Engine; None = error *)
Definition supportedStore (name : string) : option storeEngine :=
  if seqb name "ldb" then Some Ldb else if seqb name "bg" then Some Bg
  else if seqb name "bolt" then Some Bolt else None.
Definition OpenStore (arg storeEnv : string) : option storeEngine :=
  supportedStore (if negb (seqb arg "") then arg else if negb (seqb storeEnv "") then storeEnv else "ldb").

Section Engine.
  Variable accepts : string → string → bool.
  Variable iter : kv → list (string * string).

  (** store/ldb_store.go:47-49, store/badger_store.go:57-64, store/bolt_store.go:58-62: the new database and
      whether an error is returned *)
  Definition Set_ (k v : string) (db : kv) : kv * bool :=
    if accepts k v then (<[k := v]> db, false) else (db, true).
  (** store/ldb_store.go:57-59, store/badger_store.go:68-81, store/bolt_store.go:66-72: value (nil = "") and
      whether an error is returned; leveldb and badger report missing keys as errors *)
  Definition Get (e : storeEngine) (k : string) (db : kv) : string * bool :=
    match db !! k with
    | Some v => (v, false)
    | None => ("", match e with Bolt => false | _ => true end)
    end.
  (** store/ldb_store.go:67-69, store/badger_store.go:86-92, store/bolt_store.go:76-80 *)
  Definition Delete (k : string) (db : kv) : kv := delete k db.
  (** store/ldb_store.go:73-75; store/badger_store.go:95-103; store/bolt_store.go:83-97 *)
  Definition Has (e : storeEngine) (k : string) (db : kv) : bool * bool :=
    match e with
    | Ldb => (bool_decide (is_Some (db !! k)), false)
    | Bg => let '(val, err) := Get Bg k db in
            if seqb val "" && err then (false, err) else (true, err)
    | Bolt => let '(b, _) := Get Bolt k db in (negb (seqb b ""), false)
    end.
  (** store/ldb_store.go:88-101, store/badger_store.go:112-134, store/bolt_store.go:100-111: [fn] returns the
      new state and whether an error is returned; the first error ends the iteration *)
  Fixpoint forEach {A} (fn : A → string → string → A * bool) (l : list (string * string)) (a : A) : A * bool :=
    match l with
    | [] => (a, false)
    | (k, v) :: l' => let '(a', err) := fn a k v in if err then (a', true) else forEach fn l' a'
    end.
  Definition ForEach {A} (fn : A → string → string → A * bool) (db : kv) (a : A) : A * bool :=
    forEach fn (iter db) a.

  (** encoding/gob on types.DocData.  [encode]: None = error (for example an attribute of
      an unregistered type).  [decode]: what the decoder leaves in the variable, and
      whether it returns an error. *)
  Variable encode : DocData → option string.
  Variable decode : string → DocData * bool.

  (** store_worker.go:73-91 storeInit: the internalIndexDoc calls made for one store shard
      (with forceUpdate = false) *)
  Definition storeInit (db : kv) : list (string * DocData) :=
    (ForEach (λ calls docId value,
       let '(data, err) := decode value in
       (if negb err then calls ++ [(docId, data)] else calls, false)) db []).1.

  (** engine.go:206-209: the goroutines of the store shards run concurrently *)
  Inductive merges {A} : list (list A) → list A → Prop :=
    | merges_nil ls : Forall (eq []) ls → merges ls []
    | merges_take ls k x l cs : ls !! k = Some (x :: l) → merges (<[k := l]> ls) cs → merges ls (x :: cs).
  (** engine.go:185-214 Store: the calls made by a start with [storeShards] store shards; [dbs
      j] is what the files of shard [j] contain *)
  Definition restart (storeShards : Z) (dbs : Z → kv) (cs : list (string * DocData)) : Prop :=
    merges ((λ j, storeInit (dbs j)) <$> seqZ 0 storeShards) cs.

  (** store_worker.go:84 with engine.go:376-416: the engine calls of these goroutines, one
      program per store shard; None = a call panics while segmenting (see ModelSegment.v) *)
  Definition recoverProgs (X : Ext) (stop : gset string) (o : SegOpts) (storeShards : Z) (dbs : Z → kv)
      : option (list (list ecall)) :=
    mapM (λ j, mapM (λ p, indexCall X stop o p.1 p.2 false) (storeInit (dbs j))) (seqZ 0 storeShards).

  (** riot.go:136-148 GetDBAllIds, 151-174 GetDBAllDocs, over the open databases *)
  Definition GetDBAllIds (dbs : list kv) : list string :=
    foldl (λ docsId db, (ForEach (λ docsId k v, (docsId ++ [k], false)) db docsId).1) [] dbs.
  Definition GetDBAllDocs (dbs : list kv) : list string * list DocData :=
    foldl (λ acc db, (ForEach (λ '(docsId, docsData) key val,
                        ((docsId ++ [key], docsData ++ [(decode val).1]), false)) db acc).1) ([], []) dbs.

  (** * The store side of a running engine *)

  Variable murmur : string → Z.
  Variable storeShards : Z.
  (** engine.go:391, 459 *)
  Definition storeShard (docId : string) : Z := u32 (murmur docId) `mod` storeShards.
  (** riot.go:122-131 HasDocDB *)
  Definition HasDocDB (e : storeEngine) (dbs : Z → kv) (docId : string) : bool :=
    (Has e docId (dbs (storeShard docId))).1.

  Inductive scall := SIndex (docId : string) (data : DocData) | SRemove (docId : string) | SFlush.

  (** What happens, in order: a counted indexing request; a request handed to a worker;
      a removal goroutine started; a write attempt (None: refused by encoder or
      database); a counted write; a deletion. *)
  Inductive sevent :=
    | EvReq | EvSent (docId : string) (data : DocData) | EvSpawn (docId : string)
    | EvWrite (docId : string) (v : option string) | EvStored | EvDel (docId : string).

  Inductive sact := SReq | SSend (docId : string) (data : DocData) | SSpawn (docId : string) | SRead | SLoop | SLoopReqs.
  Record sclient := mkSC { scCalls : list scall; scActs : list sact; scReg : Z }.
  Inductive sworker := WIdle | WHold (docId : string) (data : DocData) | WWritten.
  Record sstate := mkSS { ssClients : list sclient; ssWork : list sworker; ssDels : list string; ssLog : list sevent }.

  (** engine.go:376-397, 406-408 (Index), 456-462 (RemoveDoc), 813-827 (Flush: reads
      numIndexingReqs, then compares with numDocsStored, line 820, or the other way round, see
      [altRead]; the conditions on the other counters, which can only make it wait longer, are
      left out, as is everything else that does not touch the store) *)
  Definition scallActs (c : scall) : list sact :=
    match c with
    | SIndex id d => if seqb id "0" then [] else [SReq; SSend id d]
    | SRemove id => if seqb id "0" then [] else [SSpawn id]
    | SFlush => [SRead; SLoop]
    end.

  Definition isReq (e : sevent) : bool := match e with EvReq => true | _ => false end.
  Definition isStored (e : sevent) : bool := match e with EvStored => true | _ => false end.
  (** engine.go:355: documents found at the start count on both sides, hence are left out *)
  Definition numReqs (log : list sevent) : Z := zlen (filter (λ e, isReq e = true) log).
  Definition numStored (log : list sevent) : Z := zlen (filter (λ e, isStored e = true) log).

  (** store_worker.go:41-59: the value written *)
  Definition written (docId : string) (data : DocData) : option string :=
    match encode data with
    | Some v => if accepts docId v then Some v else None
    | None => None
    end.

  (** Client [k] moves.  engine.go:157-158: the channels have no buffer, a send waits for the
      worker. *)
  Definition clientStep (k : nat) (s : sstate) : option sstate :=
    c ← ssClients s !! k;
    let upd c' w d l := Some (mkSS (<[k := c']> (ssClients s)) w d l) in
    match scActs c with
    | [] =>
      match scCalls c with
      | [] => None
      | call :: cs => upd (mkSC cs (scallActs call) 0) (ssWork s) (ssDels s) (ssLog s)
      end
    | a :: acts =>
      let c' := mkSC (scCalls c) acts (scReg c) in
      match a with
      | SReq => upd c' (ssWork s) (ssDels s) (ssLog s ++ [EvReq])
      | SSend id d =>
        let j := Z.to_nat (storeShard id) in
        match ssWork s !! j with
        | Some WIdle => upd c' (<[j := WHold id d]> (ssWork s)) (ssDels s) (ssLog s ++ [EvSent id d])
        | _ => None
        end
      | SSpawn id => upd c' (ssWork s) (ssDels s ++ [id]) (ssLog s ++ [EvSpawn id])
      | SRead => upd (mkSC (scCalls c) acts (numReqs (ssLog s))) (ssWork s) (ssDels s) (ssLog s)
      | SLoop =>
        upd (mkSC (scCalls c) (if scReg c =? numStored (ssLog s) then acts else SRead :: SLoop :: acts) (scReg c))
            (ssWork s) (ssDels s) (ssLog s)
      | SLoopReqs =>
        upd (mkSC (scCalls c) (if scReg c =? numReqs (ssLog s) then acts else SRead :: SLoop :: acts) (scReg c))
            (ssWork s) (ssDels s) (ssLog s)
      end
    end.
  (** engine.go:820 compares a variable with the result of a call; Go leaves open which is
      evaluated first: client [k] may also read numDocsStored first and compare it with
      numIndexingReqs later. *)
  Definition altRead (k : nat) (s : sstate) : option sstate :=
    c ← ssClients s !! k;
    match scActs c with
    | SRead :: SLoop :: acts =>
      Some (mkSS (<[k := mkSC (scCalls c) (SLoopReqs :: acts) (numStored (ssLog s))]> (ssClients s)) (ssWork s) (ssDels s) (ssLog s))
    | _ => None
    end.
  (** store_worker.go:33-63 storeIndexDoc: worker [j] moves *)
  Definition workerStep (j : nat) (s : sstate) : option sstate :=
    w ← ssWork s !! j;
    match w with
    | WIdle => None
    | WHold id d => Some (mkSS (ssClients s) (<[j := WWritten]> (ssWork s)) (ssDels s) (ssLog s ++ [EvWrite id (written id d)]))
    | WWritten => Some (mkSS (ssClients s) (<[j := WIdle]> (ssWork s)) (ssDels s) (ssLog s ++ [EvStored]))
    end.
  (** store_worker.go:65-70 storeRemoveDoc: removal goroutine [k] of those started and not yet
      finished deletes its key *)
  Definition delStep (k : nat) (s : sstate) : option sstate :=
    id ← ssDels s !! k;
    Some (mkSS (ssClients s) (ssWork s) (delete k (ssDels s)) (ssLog s ++ [EvDel id])).

  Inductive smove := MClient (k : nat) | MAlt (k : nat) | MWorker (j : nat) | MDel (k : nat).
  Definition smoveStep (m : smove) (s : sstate) : option sstate :=
    match m with MClient k => clientStep k s | MAlt k => altRead k s | MWorker j => workerStep j s | MDel k => delStep k s end.
  Definition storeStep (s s' : sstate) : Prop := ∃ m, smoveStep m s = Some s'.
  Definition ssched (ms : list smove) (s : sstate) : option sstate := foldlM (λ s m, smoveStep m s) ms s.

  (** engine.go:241-243: one worker per store shard *)
  Definition storeStart (programs : list (list scall)) : sstate :=
    mkSS ((λ cs, mkSC cs [] 0) <$> programs) (replicate (Z.to_nat storeShards) WIdle) [] [].

  (** The database of shard [j] after these events, starting from [db] *)
  Definition dbEvent (j : Z) (db : kv) (e : sevent) : kv :=
    match e with
    | EvWrite id (Some v) => if storeShard id =? j then <[id := v]> db else db
    | EvDel id => if storeShard id =? j then Delete id db else db
    | _ => db
    end.
  Definition dbAfter (dbs : Z → kv) (log : list sevent) (j : Z) : kv := foldl (dbEvent j) (dbs j) log.
End Engine.
