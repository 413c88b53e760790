(** C52, C66, C67: option defaults, start of an engine, entry points. *)
From Verif Require Import ModelStart SpecStart ProofStart.

(** * C52 *)

(** Init keeps every field that has no default, replaces exactly the numbers
    that are 0 by their defaults, and nil pointers by the default objects. *)
Theorem C52_fields :
  ∀ cpu o h o' h', OptsInit cpu o h = Some (o', h') →
    otherFields o' = otherFields o ∧
    numbersOf o' = zip_with given (numbersOf o) (defaultNumbers cpu) ∧
    IndexerOptsP o' = Some (default 0%nat (IndexerOptsP o)) ∧
    DefRankOptsP o' = Some (default 0%nat (DefRankOptsP o)).
Proof. exact fields_lem. Qed.
Print Assumptions C52_fields.

(** Init ends normally. *)
Theorem C52_total :
  ∀ cpu o h, validPtrs o h → is_Some (OptsInit cpu o h).
Proof. exact optsInit_total. Qed.
Print Assumptions C52_total.

(** The objects pointed to keep everything that is set; a missing BM25 parameter
    or criterion is filled in, and only in the objects of these options. *)
Theorem C52_objects :
  ∀ cpu o h o' h', OptsInit cpu o h = Some (o', h') →
    hBM h' = hBM h ∧
    (∀ a v, hIx h !! a = Some v → ∃ v', hIx h' !! a = Some v' ∧
       oType v' = oType v ∧ oCache v' = oCache v ∧
       oBM v' = if decide (oBM v = None ∧ a = default 0%nat (IndexerOptsP o)) then Some 0%nat else oBM v) ∧
    (∀ a v, hRk h !! a = Some v → ∃ v', hRk h' !! a = Some v' ∧
       oReverse v' = oReverse v ∧ oOffset v' = oOffset v ∧ oMax v' = oMax v ∧
       oCrit v' = if decide (oCrit v = None ∧ a = default 0%nat (DefRankOptsP o))
                  then hRk h !! 0%nat ≫= oCrit else oCrit v) ∧
    dom (hIx h') = dom (hIx h) ∧ dom (hRk h') = dom (hRk h).
Proof. exact objects_lem. Qed.
Print Assumptions C52_objects.

(** Afterwards nothing that a search dereferences is nil. *)
Theorem C52_nothing_nil :
  ∀ cpu o h o' h', OptsInit cpu o h = Some (o', h') → defaultScores h →
    (∃ ix b, ixOf o' h' = Some ix ∧ oBM ix = Some b) ∧
    (∃ rk c, rkOf o' h' = Some rk ∧ oCrit rk = Some c) ∧ defaultScores h'.
Proof. exact set_lem. Qed.
Print Assumptions C52_nothing_nil.

(** A second Init changes nothing. *)
Theorem C52_idempotent :
  ∀ cpu o h o' h', defaultScores h → OptsInit cpu o h = Some (o', h') →
    OptsInit cpu o' h' = Some (o', h').
Proof. exact idem_lem. Qed.
Print Assumptions C52_idempotent.

(** Initialising further engines, with any options, does not change what an
    initialised engine works with. *)
Theorem C52_later_engines :
  ∀ cpu o h o' h' os, defaultScores h → OptsInit cpu o h = Some (o', h') →
    effective o' (foldl (hstep cpu) h' (HInit <$> os)) = effective o' h'.
Proof. exact later_lem. Qed.
Print Assumptions C52_later_engines.

(** But the defaults are handed out by reference: a caller that fills in options
    with Init and then writes through the pointer it got changes the package's
    default, for these options and for every later engine with default options. *)
Theorem C52_defaults_are_shared :
  ∀ cpu h o v b c rk,
    hIx h !! 0%nat = Some v → oBM v = Some b → hRk h !! 0%nat = Some rk → oCrit rk = Some c →
    IndexerOptsP o = None → DefRankOptsP o = None →
    ∃ o', OptsInit cpu o h = Some (o', h) ∧
      ∀ w wb, oBM w = Some wb →
        let h1 := hstep cpu h (HSetIx (default 0%nat (IndexerOptsP o')) w) in
        ixOf o' h1 = Some w ∧
        ∀ o2, IndexerOptsP o2 = None → DefRankOptsP o2 = None →
          ∃ o2', OptsInit cpu o2 h1 = Some (o2', h1) ∧ ixOf o2' h1 = Some w.
Proof. exact shared_lem. Qed.
Print Assumptions C52_defaults_are_shared.

(** IndexerOpts.Init: only the cache size has a default. *)
Theorem C52_indexer_options :
  ∀ x, IxInit (IxInit x) = IxInit x ∧ oType (IxInit x) = oType x ∧ oBM (IxInit x) = oBM x ∧
    oCache (IxInit x) = given (oCache x) 300000.
Proof. exact ixInit_lem. Qed.
Print Assumptions C52_indexer_options.

(** The options of one search: those of the request if it has some, except that
    the engine's criterion replaces a missing one. *)
Theorem C52_search_options :
  ∀ o h d req, DefRankOptsP o ≠ None → rkOf o h = Some d →
    ∃ r, searchOpts o h req = Some r ∧
      oCrit r = (match req with Some q => match oCrit q with Some c => Some c | None => oCrit d end | None => oCrit d end) ∧
      oReverse r = oReverse (default d req) ∧ oOffset r = oOffset (default d req) ∧ oMax r = oMax (default d req).
Proof. exact searchOpts_lem. Qed.
Print Assumptions C52_search_options.

(** Options with a user object that lacks the BM25 parameters *)
Definition demoHeap : Heap :=
  mkHeap (<[7%nat := mkIx LocsIndex 5 None]> (hIx initHeap)) (hBM initHeap) (hRk initHeap).
Definition demoOpts : EngineOpts :=
  mkEO true 1 "d.txt" false true "s.txt" false false "" 0 3 0 0 0 0 (Some 7%nat) None false true "" 0 "bolt" false.
Example C52_example :
  validPtrs demoOpts demoHeap ∧ defaultScores demoHeap ∧
  match OptsInit 4 demoOpts demoHeap with
  | Some (o', h') => numbersOf o' = [4; 3; 4; 4; 4; 4; 8] ∧ IndexerOptsP o' = Some 7%nat ∧
      DefRankOptsP o' = Some 0%nat ∧ hIx h' !! 7%nat = Some (mkIx LocsIndex 5 (Some 0%nat))
  | None => False
  end.
Proof.
  split; [|split].
  - split; [intros a [= <-]; by eexists|split; [done|split; by eexists]].
  - by exists (mkRk (Some 0) false 0 0), 0.
  - by vm_compute.
Qed.

(** * C66 *)

(** Exactly when Init succeeds: the engine is not initialised yet, the stop token
    file opens, no size is negative, memory can be read or a store is used, and
    the store's files open. *)
Theorem C66_starts_iff :
  ∀ env e opts h ix, validPtrs opts h → ixOf opts h = Some ix →
    ((∃ e' h', EngInit env e opts h = Ok (e', h')) ↔ canStart env e opts ix).
Proof.
  intros env e opts h ix Hv Hix. destruct (start_both env e opts h ix Hv Hix) as [A B].
  split; [intros (e' & h' & E); exact (proj1 (B _ _ E))|exact A].
Qed.
Print Assumptions C66_starts_iff.

(** What a successful Init has set up: the dictionary, the stop tokens, one
    indexer and one ranker per shard with their caches, the channels with their
    capacities, the stores, and the goroutines of every kind. *)
Theorem C66_setup :
  ∀ env e opts h ix e' h', validPtrs opts h → ixOf opts h = Some ix →
    EngInit env e opts h = Ok (e', h') → setup env e opts ix e'.
Proof.
  intros env e opts h ix e' h' Hv Hix E. exact (proj2 (proj2 (start_both env e opts h ix Hv Hix) _ _ E)).
Qed.
Print Assumptions C66_setup.

(** A negative number of look-up threads is accepted, but then no goroutine
    serves the look-up channel of any shard, so that no search is ever answered. *)
Theorem C66_negative_threads_refuted :
  ∃ env opts e' h', (0 < cpus env) ∧ EngInit env zeroEng opts initHeap = Ok (e', h') ∧
    0 < NumShards (initOptions e') ∧ ∀ s, running e' (GLookup s) = 0%nat.
Proof.
  set (env := mkEnv 4 (λ _, true) (Some "12.00") (λ _, true) "" (λ _, None)).
  set (opts := mkEO true 0 "" false false "" false false "" 0 2 0 (-1) 0 0 None None false false "" 0 "" false).
  assert (Hv : validPtrs opts initHeap) by (split; [done|split; [done|split; by eexists]]).
  assert (Hix : ixOf opts initHeap = Some (mkIx FrequenciesIndex 0 (Some 0%nat))) by done.
  destruct (start_both env zeroEng opts initHeap _ Hv Hix) as [A B].
  destruct A as (e' & h' & E).
  { do 8 (split; [first [done|by vm_compute]|]). intros [E|E]; vm_compute in E; done. }
  exists env, opts, e', h'. split; [done|]. split; [done|]. destruct (B _ _ E) as [_ U].
  split.
  - pose proof (su_numbers _ _ _ _ _ U) as N. unfold numbersOf in N. cbn in N. injection N as _ -> _. done.
  - intros s. rewrite (su_goros _ _ _ _ _ U). cbn. by case_decide.
Qed.
Print Assumptions C66_negative_threads_refuted.

(** An engine is initialised once: a second Init, or WithGse afterwards, ends the
    process. *)
Theorem C66_second_init_fatal :
  ∀ env e opts h e' h', EngInit env e opts h = Ok (e', h') →
    (∀ env2 opts2 h2, EngInit env2 e' opts2 h2 = Fatal) ∧ WithGse e' = Fatal.
Proof. exact second_lem. Qed.
Print Assumptions C66_second_init_fatal.

(** With a segmenter given by the user no dictionary is loaded, whatever the
    option says. *)
Theorem C66_with_gse :
  ∀ env opts h ix e1 e' h',
    WithGse zeroEng = Ok e1 → validPtrs opts h → ixOf opts h = Some ix →
    EngInit env e1 opts h = Ok (e', h') → dict e' = None ∧ loaded e' = true.
Proof. exact withGse_lem. Qed.
Print Assumptions C66_with_gse.

(** HasDocDB works exactly on engines with a store; otherwise it panics for every
    document. *)
Theorem C66_hasdocdb_needs_store :
  ∀ env e opts h ix e' h' hash,
    validPtrs opts h → ixOf opts h = Some ix → dbs e = [] →
    EngInit env e opts h = Ok (e', h') →
    given (StoreShards opts) 8 < 2 ^ 32 → 0 <= hash < 2 ^ 32 →
    apiStart e' (AHasDocDB hash) = if decide (usesStore env opts) then Ok tt else Panic.
Proof. exact hasDocDB_lem. Qed.
Print Assumptions C66_hasdocdb_needs_store.

(** Different shards have different store files. *)
Theorem C66_store_files_distinct :
  ∀ o s s', pathOf o s = pathOf o s' → s = s'.
Proof. exact path_inj. Qed.
Print Assumptions C66_store_files_distinct.

(** an engine with a bolt store in 2 shards *)
Definition demoEnv : Env :=
  mkEnv 4 (λ f, seqb f "stop.txt") None (λ _, true) "bg" (λ n, if seqb n "bolt" then Some (λ _ _, true) else None).
Definition demoStart : EngineOpts :=
  mkEO false 0 "" false false "stop.txt" false false "" 3 2 0 5 0 0 None None false true "" 2 "bolt" true.
Example C66_example :
  validPtrs demoStart initHeap ∧ ixOf demoStart initHeap = Some (mkIx FrequenciesIndex 0 (Some 0%nat)) ∧
  match EngInit demoEnv zeroEng demoStart initHeap with
  | Ok (e', _) =>
      dict e' = Some "zh" ∧ stopFile e' = Some "stop.txt" ∧ rankers e' = [true; true] ∧
      addChans e' = [4; 4] ∧ dbs e' = [("bolt", "./riot-index/riot.0"); ("bolt", "./riot-index/riot.1")] ∧
      running e' (GLookup 1) = 5%nat ∧ running e' (GStoreIndex 1) = 1%nat ∧ running e' GSegment = 3%nat ∧
      apiStart e' (AHasDocDB 77) = Ok tt
  | _ => False
  end.
Proof.
  split; [split; [done|split; [done|split; by eexists]]|]. split; [done|]. by vm_compute.
Qed.

(** * C67 *)

(** NewEngine panics exactly on arguments of a wrong type. *)
Theorem C67_new_panics_iff :
  ∀ cs p, newEngineOpts cs p = Panic ↔
    (∃ c, (cs !! 0%nat = Some c ∨ cs !! 1%nat = Some c) ∧ ∀ s, c ≠ CStr s) ∨
    (∃ c, cs !! 2%nat = Some c ∧ ∀ n, c ≠ CInt n).
Proof. exact newOpts_lem. Qed.
Print Assumptions C67_new_panics_iff.

(** What NewEngine gives: a persistent engine with as many store shards as
    shards, 10 by default and 8 for 0, that stores document ids only. *)
Theorem C67_new_engine :
  ∀ env cs h e' h', is_Some (hIx h !! 0%nat) → is_Some (hRk h !! 0%nat) →
    NewEngine env cs h = Ok (e', h') →
    ∃ d path n, strArg cs 0 "" d ∧ strArg cs 1 "./riot-index" path ∧ intArg cs 2 10 n ∧
      0 < given n 8 ∧
      NumShards (initOptions e') = given n 8 ∧ StoreShards (initOptions e') = given n 8 ∧
      UseStore (initOptions e') = true ∧
      dict e' = Some (if decide (d = "") then "zh" else d) ∧ stopFile e' = Some "" ∧
      rankers e' = replicate (Z.to_nat (given n 8)) false ∧
      dbs e' = (λ s, (if decide (getenv env = "") then "ldb" else getenv env,
                      ((if decide (path = "") then "./riot-index" else path) +:+ "/riot." +:+ pretty s)%string))
                 <$> seq 0 (Z.to_nat (given n 8)) ∧
      ∃ bm, indexers e' = replicate (Z.to_nat (given n 8)) (mkIx DocIdsIndex 300000 bm, 300000, 600000).
Proof. exact new_lem. Qed.
Print Assumptions C67_new_engine.

(** New reads a configuration file exactly for names that end in .toml. *)
Theorem C67_new_toml :
  ∀ env toml p cs h,
    New env toml (CStr (p +:+ ".toml") :: cs) h = EngInit env zeroEng (toml (p +:+ ".toml")%string) h.
Proof. exact new_toml. Qed.
Print Assumptions C67_new_toml.
Theorem C67_new_no_toml :
  ∀ env toml s cs h, (∀ p, s ≠ (p +:+ ".toml")%string) →
    New env toml (CStr s :: cs) h = NewEngine env (CStr s :: cs) h.
Proof. exact new_other. Qed.
Print Assumptions C67_new_no_toml.

(** SearchDoc and SearchID end normally exactly on the matching kind of engine and
    if documents are wanted; for a count-only request both panic. *)
Theorem C67_search_doc_panics :
  ∀ log2 sortBy req shards order resp idOnly,
    Search log2 sortBy req shards order = Some resp →
    (is_Some (SearchDoc idOnly resp) ↔ idOnly = false ∧ rqCountOnly req = false) ∧
    (is_Some (SearchID idOnly resp) ↔ idOnly = true ∧ rqCountOnly req = false).
Proof. exact searchDoc_lem. Qed.
Print Assumptions C67_search_doc_panics.

Definition newEnv : Env :=
  mkEnv 2 (λ _, false) None (λ _, true) "" (λ n, if seqb n "ldb" then Some (λ _ _, true) else None).
Example C67_example :
  match NewEngine newEnv [CStr ""; CStr "x"; CInt 2] initHeap with
  | Ok (e', _) => dbs e' = [("ldb", "x/riot.0"); ("ldb", "x/riot.1")] ∧ dict e' = Some "zh"
  | _ => False
  end ∧ newEngineOpts [CStr "d"; CStr "p"; CStr "3"] 1 = Panic.
Proof. by vm_compute. Qed.
Example C67_search_example :
  let req := mkReq ["a"] [] (mkLogic false false false [] [] []) None (mkRankOpts (λ _ _, []) false 0 0) 0 true false in
  Search id (λ _ l, l) req [] [] = Some (mkResp ["a"] false 0 None).
Proof. by vm_compute. Qed.
