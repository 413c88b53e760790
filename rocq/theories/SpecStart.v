(** Specification vocabulary for options and start-up. *)
From Verif Require Import ModelStart.

(** a number given by the user, or the default for 0 *)
Definition given (v d : Z) : Z := if decide (v = 0) then d else v.

(** every pointer in the options leads to an object, and the package's default
    objects are there *)
Definition validPtrs (o : EngineOpts) (h : Heap) : Prop :=
  (∀ a, IndexerOptsP o = Some a → is_Some (hIx h !! a)) ∧
  (∀ a, DefRankOptsP o = Some a → is_Some (hRk h !! a)) ∧
  is_Some (hIx h !! 0%nat) ∧ is_Some (hRk h !! 0%nat).
(** the default ranking options have a criterion *)
Definition defaultScores (h : Heap) : Prop :=
  ∃ v c, hRk h !! 0%nat = Some v ∧ oCrit v = Some c.

(** the object a pointer field stands for *)
Definition ixOf (o : EngineOpts) (h : Heap) : option IxObj :=
  hIx h !! default 0%nat (IndexerOptsP o).
Definition rkOf (o : EngineOpts) (h : Heap) : option RkObj :=
  hRk h !! default 0%nat (DefRankOptsP o).
(** the options an engine works with: its own fields and the objects they point to *)
Definition effective (o : EngineOpts) (h : Heap) : EngineOpts * option IxObj * option RkObj :=
  (o, ixOf o h, rkOf o h).

(** the fields that Init has no default for *)
Definition otherFields (o : EngineOpts) :=
  (NotUseGse o, Using o, GseDict o, PinYin o, UsePhrase o, StopTokenFile o, GseMode o, Hmm o, Model o,
   (StoreOnly o, UseStore o, StoreFolder o, StoreEngine o, IDOnly o)).
(** the numeric fields with their defaults *)
Definition numbersOf (o : EngineOpts) : list Z :=
  [NumGseThreads o; NumShards o; IndexerBufLen o; NumIndexerThreads o; RankerBufLen o; NumRankerThreads o;
   StoreShards o].
Definition defaultNumbers (cpu : Z) : list Z := [cpu; 8; cpu; cpu; cpu; cpu; 8].

(** * Start-up *)

(** does the engine work with a store: by option, or because memory is full *)
Definition usesStore (env : Env) (o : EngineOpts) : Prop :=
  UseStore o = true ∨ memUsed env = Some "99.99".
Definition folderOf (o : EngineOpts) : string :=
  if UseStore o then (if decide (StoreFolder o = "") then "./riot-index" else StoreFolder o)
  else "./riot-index".
(** the store named in the options, else in the environment, else leveldb *)
Definition storeOf (env : Env) (o : EngineOpts) : string :=
  if decide (StoreEngine o = "") then
    if decide (getenv env = "") then "ldb" else getenv env
  else StoreEngine o.
(** the file of a shard's store *)
Definition pathOf (o : EngineOpts) (s : nat) : string :=
  (folderOf o +:+ "/riot." +:+ pretty s)%string.

(** what is needed to start an engine *)
Definition canStart (env : Env) (e : Eng) (o : EngineOpts) (ix : IxObj) : Prop :=
  initialized e = false ∧
  (NotUseGse o = false → StopTokenFile o ≠ "" → stopOpens env (StopTokenFile o) = true) ∧
  0 <= given (NumShards o) 8 ∧
  0 <= given (NumGseThreads o) (cpus env) ∧
  0 <= given (oCache ix) 300000 ∧
  0 <= given (IndexerBufLen o) (cpus env) ∧
  0 <= given (RankerBufLen o) (cpus env) ∧
  (UseStore o = false → memUsed env ≠ None) ∧
  (usesStore env o →
     0 <= given (StoreShards o) 8 ∧ mkdirOk env (folderOf o) = true ∧
     ∀ s, (s < Z.to_nat (given (StoreShards o) 8))%nat →
       ∃ opens, stores env (storeOf env o) = Some opens ∧
         opens 0%nat (pathOf o s) = true ∧ opens 1%nat (pathOf o s) = true).

(** how many goroutines of a kind run *)
Definition running (e : Eng) (g : goro) : nat := length (filter (λ x, x = g) (goros e)).

Global Instance usesStore_dec env o : Decision (usesStore env o).
Proof. unfold usesStore. apply _. Defined.

(** how many goroutines of a kind an engine with these options needs *)
Definition expected (env : Env) (o : EngineOpts) (g : goro) : nat :=
  let inShards s := decide (Z.of_nat s < given (NumShards o) 8) in
  let inStores s := decide (usesStore env o ∧ Z.of_nat s < given (StoreShards o) 8) in
  match g with
  | GSegment => Z.to_nat (given (NumGseThreads o) (cpus env))
  | GAddDoc s | GRemoveDoc s | GRankAdd s | GRankRemove s => if inShards s then 1 else 0
  | GLookup s => if inShards s then Z.to_nat (given (NumIndexerThreads o) (cpus env)) else 0
  | GRank s => if inShards s then Z.to_nat (given (NumRankerThreads o) (cpus env)) else 0
  | GStoreInit s | GStoreIndex s => if inStores s then 1 else 0
  end.

(** everything that a successful Init sets *)
Record setup (env : Env) (e : Eng) (opts : EngineOpts) (ix : IxObj) (e' : Eng) : Prop := {
  su_init : initialized e' = true;
  su_loaded : loaded e' = loaded e || negb (NotUseGse opts);
  su_numbers : numbersOf (initOptions e') = zip_with given (numbersOf opts) (defaultNumbers (cpus env));
  su_use : UseStore (initOptions e') = true ↔ usesStore env opts;
  su_dict : dict e' = if decide (NotUseGse opts = false ∧ loaded e = false)
                      then Some (if decide (GseDict opts = "") then "zh" else GseDict opts) else dict e;
  su_stop : stopFile e' = if NotUseGse opts then stopFile e else Some (StopTokenFile opts);
  su_ix : ∃ bm, indexers e' = indexers e ++ replicate (Z.to_nat (given (NumShards opts) 8))
            (mkIx (oType ix) (given (oCache ix) 300000) bm, given (oCache ix) 300000, given (oCache ix) 300000 * 2);
  su_rk : rankers e' = rankers e ++ replicate (Z.to_nat (given (NumShards opts) 8)) (IDOnly opts);
  su_seg : segChan e' = given (NumGseThreads opts) (cpus env);
  su_ixchans : let l := replicate (Z.to_nat (given (NumShards opts) 8)) (given (IndexerBufLen opts) (cpus env)) in
     addChans e' = l ∧ removeChans e' = l ∧ lookupChans e' = l;
  su_rkchans : let l := replicate (Z.to_nat (given (NumShards opts) 8)) (given (RankerBufLen opts) (cpus env)) in
     rkAddChans e' = l ∧ rkRankChans e' = l ∧ rkRemoveChans e' = l;
  su_dbs : usesStore env opts →
     dbs e' = (λ s, (storeOf env opts, pathOf opts s)) <$> seq 0 (Z.to_nat (given (StoreShards opts) 8)) ∧
     storeChans e' = replicate (Z.to_nat (given (StoreShards opts) 8)) 0;
  su_nodbs : ¬ usesStore env opts → dbs e' = dbs e;
  su_goros : ∀ g, running e' g = (running e g + expected env opts g)%nat }.

(** * New *)

(** the value of an optional argument *)
Definition strArg (cs : list conf) (i : nat) (d s : string) : Prop :=
  cs !! i = Some (CStr s) ∨ (length cs <= i)%nat ∧ s = d.
Definition intArg (cs : list conf) (i : nat) (d n : Z) : Prop :=
  cs !! i = Some (CInt n) ∨ (length cs <= i)%nat ∧ n = d.
