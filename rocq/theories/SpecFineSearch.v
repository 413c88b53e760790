(** Vocabulary for searches that run while a call is under way in the same shard. *)
From Verif Require Export SpecFine SpecIndexer SpecSearch SpecLogic.

(** [y] shows what [x] shows, except perhaps documents that the call [o] replaces or
    removes: those that wait in the add cache of [x], and the one of the call. *)
Definition between (x : Indexer) (o : op) (y : Indexer) : Prop :=
  ∃ M M', shows x M ∧ shows y M' ∧
    (∀ id d, M' !! id = Some d → M !! id = Some d) ∧
    (∀ id, is_Some (M !! id) → M' !! id = None → waits x id ∨ op_id o = Some id).

(** Arguments of Lookup on which it does not panic, for this type of index. *)
Definition safe_query (io : IndexerOpts) (q : ModelLocks.query) : Prop :=
  (IndexType io = LocsIndex → qTokens q ≠ [] ∨ ∃ lg, qLogic q = Some lg ∧ is_logic (qTokens q ++ qLabels q) lg) ∧
  (∀ lg, qLogic q = Some lg → lMust lg = true → qTokens q = [] → qLabels q = [] → eMust lg = [] → eShould lg = []).

(** The answer [r] to [q] over an index that shows [M] *)
Definition answers_on (log2 : F → F) (x : Indexer) (M : docmap) (q : ModelLocks.query) (r : option (list IndexedDoc * Z)) : Prop :=
  ∃ hits, StronglySorted (flip slt) hits ∧
    (∀ id, id ∈ hits ↔ matches M (qTokens q ++ qLabels q) (qFilter q) id) ∧
    ((IndexType (initOptions x) = LocsIndex ∧ qTokens q = [] ∧ hits ≠ [] ∧ r = None) ∨
     (¬ (IndexType (initOptions x) = LocsIndex ∧ qTokens q = [] ∧ hits ≠ []) ∧ ∃ docs,
      r = Some (if qCountOnly q then [] else docs, zlen docs) ∧ ixDocId <$> docs = hits ∧
      ∀ h, h ∈ docs → ∃ d kws, M !! ixDocId h = Some d ∧ hit_kws d (qTokens q) kws ∧ fields_of log2 x (qTokens q) d kws h)).
