(** Executable model of option defaults and of the start of an engine:
    types/engine_init_options.go, types/indexer_init_options.go, engine.go Init and
    what it calls, riot.go New and NewEngine, store/store.go OpenStore, and of the
    thin entry points SearchDoc and SearchID.

    Pointers in the options are addresses in a small heap, so that sharing and
    writes through pointers are visible. *)
From stdpp Require Export pretty.
From Verif Require Export ModelEngine.

(** How a call ends: normally, with log.Fatal (the process exits), or with a
    run-time panic. *)
Inductive res (A : Type) := Ok (a : A) | Fatal | Panic.
Arguments Ok {A} a.
Arguments Fatal {A}.
Arguments Panic {A}.
Definition rbind {A B} (r : res A) (k : A → res B) : res B :=
  match r with Ok a => k a | Fatal => Fatal | Panic => Panic end.

(** * Options *)

Notation addr := nat (only parsing).

(** types/indexer_init_options.go:35-44; BM25Parameters is a pointer *)
Record IxObj := mkIx { oType : Z; oCache : Z; oBM : option addr }.
(** types/search_request.go:57-69; a scoring criterion is an interface value: nil or
    one of the criteria, which are numbered. *)
Record RkObj := mkRk { oCrit : option Z; oReverse : bool; oOffset : Z; oMax : Z }.
(** The objects that options point to. *)
Record Heap := mkHeap { hIx : gmap addr IxObj; hBM : gmap addr BM25Params; hRk : gmap addr RkObj }.

(** types/engine_init_options.go:32-42: the package variables defaultIndexerOpts,
    defaultBM25Parameters and defaultRankOpts are the objects at address 0; the
    criterion RankByBM25 has number 0. *)
Definition defAddr : addr := 0%nat.
Definition f32_2 : F := f32_of_Z 2.
Definition f32_075 : F := f32_div (f32_of_Z 3) (f32_of_Z 4).
Definition initHeap : Heap :=
  mkHeap {[defAddr := mkIx FrequenciesIndex 0 (Some defAddr)]}
         {[defAddr := mkBM25 f32_2 f32_075]}
         {[defAddr := mkRk (Some 0) false 0 0]}.

(** types/engine_init_options.go:47-107 *)
Record EngineOpts := mkEO {
  NotUseGse : bool; Using : Z; GseDict : string; PinYin : bool; UsePhrase : bool;
  StopTokenFile : string; GseMode : bool; Hmm : bool; Model : string;
  NumGseThreads : Z; NumShards : Z; IndexerBufLen : Z; NumIndexerThreads : Z;
  RankerBufLen : Z; NumRankerThreads : Z;
  IndexerOptsP : option addr; DefRankOptsP : option addr;
  StoreOnly : bool; UseStore : bool; StoreFolder : string; StoreShards : Z;
  StoreEngine : string; IDOnly : bool }.

(** EngineOpts{} *)
Definition zeroOpts : EngineOpts :=
  mkEO false 0 "" false false "" false false "" 0 0 0 0 0 0 None None false false "" 0 "" false.

Definition orDef (def v : Z) : Z := if v =? 0 then def else v.

(** types/engine_init_options.go:111-160 Init; [cpu] is runtime.NumCPU().  A pointer
    without object ([None]) does not occur in Go.  The numeric fields do not depend on
    the pointers, so they are set at the end. *)
Definition OptsInit (cpu : Z) (o : EngineOpts) (h : Heap) : option (EngineOpts * Heap) :=
  let ixp := match IndexerOptsP o with None => defAddr | Some a => a end in
  ix ← hIx h !! ixp;
  let h1 := match oBM ix with
            | None => mkHeap (<[ixp := mkIx (oType ix) (oCache ix) (Some defAddr)]> (hIx h)) (hBM h) (hRk h)
            | Some _ => h
            end in
  let rkp := match DefRankOptsP o with None => defAddr | Some a => a end in
  rk ← hRk h1 !! rkp;
  drk ← hRk h1 !! defAddr;
  let h2 := match oCrit rk with
            | None => mkHeap (hIx h1) (hBM h1)
                        (<[rkp := mkRk (oCrit drk) (oReverse rk) (oOffset rk) (oMax rk)]> (hRk h1))
            | Some _ => h1
            end in
  Some (mkEO (NotUseGse o) (Using o) (GseDict o) (PinYin o) (UsePhrase o)
          (StopTokenFile o) (GseMode o) (Hmm o) (Model o)
          (orDef cpu (NumGseThreads o)) (orDef 8 (NumShards o)) (orDef cpu (IndexerBufLen o))
          (orDef cpu (NumIndexerThreads o)) (orDef cpu (RankerBufLen o))
          (orDef cpu (NumRankerThreads o)) (Some ixp) (Some rkp)
          (StoreOnly o) (UseStore o) (StoreFolder o) (orDef 8 (StoreShards o))
          (StoreEngine o) (IDOnly o), h2).

(** types/indexer_init_options.go:54-58 Init *)
Definition IxInit (o : IxObj) : IxObj := mkIx (oType o) (orDef 300000 (oCache o)) (oBM o).

(** The options the user keeps may be written at any time through their pointers. *)
Inductive huse :=
  | HInit (o : EngineOpts)                 (* some engine is initialised with o *)
  | HSetIx (a : addr) (v : IxObj)          (* *p = v *)
  | HSetRk (a : addr) (v : RkObj).
Definition hstep (cpu : Z) (h : Heap) (u : huse) : Heap :=
  match u with
  | HInit o => match OptsInit cpu o h with Some (_, h') => h' | None => h end
  | HSetIx a v => mkHeap (<[a := v]> (hIx h)) (hBM h) (hRk h)
  | HSetRk a v => mkHeap (hIx h) (hBM h) (<[a := v]> (hRk h))
  end.

(** engine.go:769-778: the options of one search; [None]: request.RankOpts is nil *)
Definition searchOpts (o : EngineOpts) (h : Heap) (req : option RkObj) : option RkObj :=
  d ← DefRankOptsP o ≫= λ a, hRk h !! a;
  let r := match req with None => d | Some r => r end in
  Some (match oCrit r with
        | None => mkRk (oCrit d) (oReverse r) (oOffset r) (oMax r)
        | Some _ => r
        end).

(** * The engine as it is set up *)

(** What the surroundings answer. *)
Record Env := mkEnv {
  cpus : Z;                              (* runtime.NumCPU() *)
  stopOpens : string → bool;             (* os.Open of the stop token file *)
  memUsed : option string;               (* UsedPercent with two digits; None: no reading (nil) *)
  mkdirOk : string → bool;               (* os.MkdirAll *)
  getenv : string;                       (* environment variable Riot_Store_Engine *)
  stores : string → option (nat → string → bool)  (* registered stores; opening a path, at the
                                                     first or second time, succeeds *) }.

(** Goroutines started by Init. *)
Inductive goro :=
  | GSegment | GAddDoc (s : nat) | GRemoveDoc (s : nat) | GRankAdd (s : nat) | GRankRemove (s : nat)
  | GLookup (s : nat) | GRank (s : nat) | GStoreInit (s : nat) | GStoreIndex (s : nat).
Global Instance goro_eq_dec : EqDecision goro.
Proof. solve_decision. Defined.

(** engine.go:64-103, as far as Init sets it: the options, the dictionary and stop
    file that were loaded, the indexers' options and caches, the capacities of the
    channels, the opened stores, the goroutines. *)
Record Eng := mkEng {
  initialized : bool; loaded : bool; initOptions : EngineOpts;
  dict : option string; stopFile : option string;
  indexers : list (IxObj * Z * Z);        (* options, len addCache, len removeCache *)
  rankers : list bool;                    (* idOnly *)
  segChan : Z; addChans : list Z; removeChans : list Z; lookupChans : list Z;
  rkAddChans : list Z; rkRankChans : list Z; rkRemoveChans : list Z;
  storeChans : list Z; storeInitChan : Z; dbs : list (string * string);
  goros : list goro }.
(** Engine{} *)
Definition zeroEng : Eng :=
  mkEng false false zeroOpts None None [] [] 0 [] [] [] [] [] [] [] 0 [] [].

(** make([]T, n), make(chan T, n): a negative size panics (sizes that exceed the
    address space do, too; not modelled) *)
Definition makeLen (n : Z) : res nat := if n <? 0 then Panic else Ok (Z.to_nat n).

(** engine.go:261-274 initDef *)
Definition initDef (e : Eng) (o : EngineOpts) : EngineOpts :=
  let o1 := if seqb (GseDict o) "" && negb (NotUseGse o) && negb (loaded e) then
      mkEO (NotUseGse o) (Using o) "zh" (PinYin o) (UsePhrase o) (StopTokenFile o) (GseMode o) (Hmm o)
        (Model o) (NumGseThreads o) (NumShards o) (IndexerBufLen o) (NumIndexerThreads o)
        (RankerBufLen o) (NumRankerThreads o) (IndexerOptsP o) (DefRankOptsP o) (StoreOnly o)
        (UseStore o) (StoreFolder o) (StoreShards o) (StoreEngine o) (IDOnly o)
    else o in
  if UseStore o1 && seqb (StoreFolder o1) "" then
      mkEO (NotUseGse o1) (Using o1) (GseDict o1) (PinYin o1) (UsePhrase o1) (StopTokenFile o1)
        (GseMode o1) (Hmm o1) (Model o1) (NumGseThreads o1) (NumShards o1) (IndexerBufLen o1)
        (NumIndexerThreads o1) (RankerBufLen o1) (NumRankerThreads o1) (IndexerOptsP o1)
        (DefRankOptsP o1) (StoreOnly o1) (UseStore o1) "./riot-index" (StoreShards o1)
        (StoreEngine o1) (IDOnly o1)
  else o1.

(** core/indexer.go:77-93 Init of a fresh indexer, as far as sizes go *)
Definition newIndexer (ix : IxObj) : res (IxObj * Z * Z) :=
  let ix' := IxInit ix in
  rbind (makeLen (oCache ix')) (λ _,
  rbind (makeLen (oCache ix' * 2)) (λ _, Ok (ix', oCache ix', oCache ix' * 2))).

(** engine.go:304-310: n fresh indexers and rankers *)
Fixpoint newIndexers (n : nat) (ix : IxObj) : res (list (IxObj * Z * Z)) :=
  match n with
  | O => Ok []
  | S n' => rbind (newIndexer ix) (λ i, rbind (newIndexers n' ix) (λ l, Ok (i :: l)))
  end.

(** engine.go:106-126 Indexer, 129-149 Ranker: a slice of n channels of capacity
    [buf], n times *)
Definition makeChans (n buf : Z) : res (list Z) :=
  rbind (makeLen n) (λ k,
    if (0 <? n) && (buf <? 0) then Panic else Ok (replicate k buf)).

(** engine.go:166-182 CheckMem: the options afterwards *)
Definition CheckMem (env : Env) (o : EngineOpts) : res EngineOpts :=
  if UseStore o then Ok o
  else match memUsed env with
  | None => Panic
  | Some u =>
    if seqb u "99.99" then
      Ok (mkEO (NotUseGse o) (Using o) (GseDict o) (PinYin o) (UsePhrase o) (StopTokenFile o)
        (GseMode o) (Hmm o) (Model o) (NumGseThreads o) (NumShards o) (IndexerBufLen o)
        (NumIndexerThreads o) (RankerBufLen o) (NumRankerThreads o) (IndexerOptsP o)
        (DefRankOptsP o) (StoreOnly o) true "./riot-index" (StoreShards o)
        (StoreEngine o) (IDOnly o))
    else Ok o
  end.

(** store/store.go:55-72 OpenStore: which store is used for a name given in the
    options, and whether it opens the path; None stands for an error *)
Definition storeName (env : Env) (name : string) : string :=
  if negb (seqb name "") then name
  else if negb (seqb (getenv env) "") then getenv env else "ldb".
Definition OpenStore (env : Env) (time : nat) (path name : string) : option (string * string) :=
  match stores env (storeName env name) with
  | Some opens => if opens time path then Some (storeName env name, path) else None
  | None => None
  end.

(** engine.go:196-197 *)
Definition dbPath (folder : string) (shard : nat) : string :=
  (folder +:+ "/" +:+ "riot" +:+ "." +:+ pretty shard)%string.

(** engine.go:185-245 Store: create the folder, open every shard, (recover: ModelStore.v,)
    close and open again; an error is fatal *)
Definition openAll (env : Env) (time : nat) (o : EngineOpts) : res (list (string * string)) :=
  match mapM (λ s, OpenStore env time (dbPath (StoreFolder o) s) (StoreEngine o))
             (seq 0 (Z.to_nat (StoreShards o))) with
  | Some l => Ok l
  | None => Fatal
  end.
Definition Store (env : Env) (o : EngineOpts) : res (list (string * string)) :=
  if negb (mkdirOk env (StoreFolder o)) then Fatal
  else rbind (makeLen (StoreShards o)) (λ _,
       rbind (openAll env 0 o) (λ _, openAll env 1 o)).

(** the shards of a loop [for shard := 0; shard < n; shard++] *)
Definition shardsOf (n : Z) : list nat := seq 0 (Z.to_nat n).

(** engine.go:330-348 *)
Definition startWorkers (o : EngineOpts) : list goro :=
  replicate (Z.to_nat (NumGseThreads o)) GSegment ++
  mjoin ((λ s, [GAddDoc s; GRemoveDoc s; GRankAdd s; GRankRemove s] ++
               replicate (Z.to_nat (NumIndexerThreads o)) (GLookup s) ++
               replicate (Z.to_nat (NumRankerThreads o)) (GRank s)) <$> shardsOf (NumShards o)).

(** engine.go:277-356 Init.  LoadDict's error is dropped by the code; the recovery of
    stored documents is in ModelStore.v. *)
Definition EngInit (env : Env) (e : Eng) (opts : EngineOpts) (h : Heap) : res (Eng * Heap) :=
  if initialized e then Fatal
  else match OptsInit (cpus env) (initDef e opts) h with
  | None => Panic
  | Some (o, h') =>
    match IndexerOptsP o ≫= λ a, hIx h' !! a with
    | None => Panic
    | Some ix =>
      let useGse := negb (NotUseGse o) in
      let dict' := if useGse && negb (loaded e) then Some (GseDict o) else dict e in
      if useGse && negb (seqb (StopTokenFile o) "") && negb (stopOpens env (StopTokenFile o)) then Fatal
      else
      let stop' := if useGse then Some (StopTokenFile o) else stopFile e in
      rbind (newIndexers (Z.to_nat (NumShards o)) ix) (λ ixs,
      rbind (makeLen (NumGseThreads o)) (λ _,
      rbind (makeChans (NumShards o) (IndexerBufLen o)) (λ ci,
      rbind (makeChans (NumShards o) (RankerBufLen o)) (λ cr,
      rbind (CheckMem env o) (λ o',
      let started cs si ds gs :=
        Ok (mkEng true (loaded e || useGse) o' dict' stop' (indexers e ++ ixs)
              (rankers e ++ replicate (Z.to_nat (NumShards o)) (IDOnly o))
              (NumGseThreads o) ci ci ci cr cr cr cs si ds
              (goros e ++ startWorkers o ++ gs), h') in
      if UseStore o' then
        rbind (makeLen (StoreShards o')) (λ n,
        rbind (Store env o') (λ ds,
        started (replicate n 0) (StoreShards o') ds
          ((GStoreInit <$> shardsOf (StoreShards o')) ++ (GStoreIndex <$> shardsOf (StoreShards o')))))
      else started (storeChans e) (storeInitChan e) (dbs e) []
      )))))
    end
  end.

(** engine.go:250-259 WithGse *)
Definition WithGse (e : Eng) : res Eng :=
  if initialized e then Fatal
  else Ok (mkEng (initialized e) true (initOptions e) (dict e) (stopFile e) (indexers e) (rankers e)
         (segChan e) (addChans e) (removeChans e) (lookupChans e) (rkAddChans e) (rkRankChans e)
         (rkRemoveChans e) (storeChans e) (storeInitChan e) (dbs e) (goros e)).

(** The calls of the public interface that look at the engine's set-up first:
    engine.go:402-404 (Index, IndexDoc), 435-437 (RemoveDoc), 763-765 (Search),
    812-842 (Flush: both sums are 0 on a fresh engine, then IndexDoc), 852-859 (Close),
    riot.go:106-118 (HasDoc: no iteration without shards), 122-125 (HasDocDB: remainder
    by uint32(StoreShards), then dbs[shard]; [hash] is the hash of the id). *)
Inductive apiCall := AIndex | ARemove | ASearch | AFlush | AClose | AHasDoc | AHasDocDB (hash : Z).
Definition apiStart (e : Eng) (c : apiCall) : res unit :=
  match c with
  | AIndex | ARemove | ASearch | AFlush | AClose => if initialized e then Ok tt else Fatal
  | AHasDoc => Ok tt
  | AHasDocDB hash =>
    let n := u32 (StoreShards (initOptions e)) in
    if n =? 0 then Panic
    else match dbs e !! Z.to_nat (hash mod n) with Some _ => Ok tt | None => Panic end
  end.

(** * riot.go *)

(** the arguments of New: interface{} values *)
Inductive conf := CStr (s : string) | CInt (n : Z) | COther.
(** conf[i].(string), conf[i].(int) *)
Definition asStr (c : conf) : res string := match c with CStr s => Ok s | _ => Panic end.
Definition asInt (c : conf) : res Z := match c with CInt n => Ok n | _ => Panic end.
(** if len(conf) > i ... else the default *)
Definition arg {A} (as_ : conf → res A) (def : A) (cs : list conf) (i : nat) : res A :=
  match cs !! i with Some c => as_ c | None => Ok def end.

(** riot.go:53-99 NewEngine: the options it calls Init with; [p] is the address of the
    new IndexerOpts object *)
Definition newEngineOpts (cs : list conf) (p : addr) : res EngineOpts :=
  rbind (arg asStr "" cs 0) (λ segmentDict,
  rbind (arg asStr "./riot-index" cs 1) (λ path,
  rbind (arg asInt 10 cs 2) (λ numShards,
    Ok (mkEO false 0 segmentDict false false "" false false "" 0 numShards 0 0 0 0 (Some p) None
          false true path numShards "" false)))).
Definition NewEngine (env : Env) (cs : list conf) (h : Heap) : res (Eng * Heap) :=
  let p := fresh (dom (hIx h)) in
  rbind (newEngineOpts cs p) (λ o,
    EngInit env zeroEng o (mkHeap (<[p := mkIx DocIdsIndex 0 None]> (hIx h)) (hBM h) (hRk h))).

(** strings.HasSuffix *)
Definition hasSuffix (s suf : string) : bool :=
  (String.length suf <=? String.length s)%nat &&
  seqb (String.substring (String.length s - String.length suf) (String.length suf) s) suf.

(** riot.go:32-50 New; [toml] gives the options read from a configuration file (the
    watcher goroutine writes to a variable that is never read again) *)
Definition New (env : Env) (toml : string → EngineOpts) (cs : list conf) (h : Heap)
    : res (Eng * Heap) :=
  match cs with
  | [] => NewEngine env cs h
  | c :: _ => rbind (asStr c) (λ s,
      if hasSuffix s ".toml" then EngInit env zeroEng (toml s) h else NewEngine env cs h)
  end.

(** * SearchDoc and SearchID *)

(** engine.go:740-746, 750-757: the type assertion on the documents of the answer.
    With the engine option IDOnly they are a ScoredIDs, otherwise a ScoredDocs; a nil
    Docs ([None]) satisfies neither assertion. *)
Definition SearchDoc (idOnly : bool) (resp : SearchResp) : option SearchResp :=
  match rsDocs resp with
  | Some _ => if idOnly then None else Some resp
  | None => None
  end.
Definition SearchID (idOnly : bool) (resp : SearchResp) : option SearchResp :=
  match rsDocs resp with
  | Some _ => if idOnly then Some resp else None
  | None => None
  end.
