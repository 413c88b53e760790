(** Specification vocabulary for the indexer theorems: finite maps from ids to
    document versions, and what it means for an indexer to show such a map.  It
    only mentions the exported observations (HasDoc, Lookup) and the rows of the
    inverted index, not the proof invariants. *)
From Verif Require Import ModelLookup.

Notation docmap := (gmap string DocIndex).

(** A document lists each keyword text at most once (the engine builds keywords
    from a Go map, segment.go:281-297, so this always holds for engine calls). *)
Definition good_doc (d : DocIndex) : Prop := NoDup (Text <$> Keywords d).
Definition good_op (o : op) : Prop :=
  match o with OpAdd (Some d) _ => good_doc d | _ => True end.

(** States reachable from a fresh indexer by the history [ops]. *)
Definition reach (sortDocs : list DocIndex → list DocIndex) (o : IndexerOpts)
    (ops : list op) (s : Indexer) : Prop :=
  valid_sort sortDocs ∧ Forall good_op ops ∧
  ∃ s0, Init o = Some s0 ∧ run sortDocs ops s0 = Some s.

(** Map semantics of a history: the last call on an id wins. *)
Definition mapStep (M : docmap) (o : op) : docmap :=
  match o with
  | OpAdd (Some d) _ => <[DocId d := d]> M
  | OpAdd None _ => M
  | OpRemove id _ => delete id M
  end.
Definition mapOf (ops : list op) : docmap := foldl mapStep ∅ ops.

Definition added (d : DocIndex) (ops : list op) : Prop := ∃ f, OpAdd (Some d) f ∈ ops.

(** [id] occurs in the row of keyword [k]. *)
Definition in_row (s : Indexer) (k id : string) : Prop :=
  ∃ r, table s !! k = Some r ∧ id ∈ docIds r.

(** The row of [Text kw] holds, for [id], the data of [kw]. *)
Definition entry_at (s : Indexer) (id : string) (kw : KeywordIndex) : Prop :=
  ∃ r i, table s !! Text kw = Some r ∧ docIds r !! i = Some id ∧
    (IndexType (initOptions s) = FrequenciesIndex → frequencies r !! i = Some (Frequency kw)) ∧
    (IndexType (initOptions s) = LocsIndex → locations r !! i = Some (Starts kw)).

(** The indexer shows exactly the documents of [M]: they are the live ones, each
    under its own id, found under exactly its keywords, with its own data. *)
Definition shows (s : Indexer) (M : docmap) : Prop :=
  (∀ id, HasDoc s id = true ↔ is_Some (M !! id)) ∧
  (∀ id d, M !! id = Some d → DocId d = id) ∧
  (∀ id d k, M !! id = Some d → (in_row s k id ↔ k ∈ Text <$> Keywords d)) ∧
  (∀ id d kw, M !! id = Some d → kw ∈ Keywords d → entry_at s id kw).

(** No row mentions a document outside [M]. *)
Definition clean (s : Indexer) (M : docmap) : Prop :=
  ∀ k id, in_row s k id → is_Some (M !! id).

(** The documents a plain search has to return. *)
Definition passes (flt : option (gset string)) (id : string) : Prop :=
  match flt with Some f => id ∈ f | None => True end.
Definition matches (M : docmap) (keywords : list string) (flt : option (gset string))
    (id : string) : Prop :=
  keywords ≠ [] ∧ passes flt id ∧
  ∃ d, M !! id = Some d ∧ ∀ k, k ∈ keywords → k ∈ Text <$> Keywords d.

Definition waits (s : Indexer) (id : string) : Prop := id ∈ DocId <$> addCache s.

(** A well formed row: ids strictly ascending, not empty, and exactly the column of
    the index type filled, with one cell per document. *)
Definition row_wf (ity : Z) (r : KeywordIndices) : Prop :=
  StronglySorted slt (docIds r) ∧ docIds r ≠ [] ∧
  length (frequencies r) = (if ity =? FrequenciesIndex then length (docIds r) else 0%nat) ∧
  length (locations r) = (if ity =? LocsIndex then length (docIds r) else 0%nat).

(** The cells of a column that belong to ids outside [docs]. *)
Definition keepCol {A} (docs ids : list string) (col : list A) : list A :=
  snd <$> filter (λ p, fst p ∉ docs) (zip ids col).

(** Number of live documents, stated through HasDoc. *)
Definition live_count (s : Indexer) (n : Z) : Prop :=
  ∃ L : list string, NoDup L ∧ (∀ id, id ∈ L ↔ HasDoc s id = true) ∧ n = zlen L.

(** What is left of a row once the ids [docs] are gone; [None]: nothing. *)
Definition row_after (docs : list string) (r : KeywordIndices) : option KeywordIndices :=
  match filter (λ id, id ∉ docs) (docIds r) with
  | [] => None
  | l => Some (mkRow l (keepCol docs (docIds r) (frequencies r))
                       (keepCol docs (docIds r) (locations r)))
  end.

(** No add of an id that is still waiting, all along the history. *)
Fixpoint no_readd (sortDocs : list DocIndex → list DocIndex) (ops : list op) (s : Indexer) : Prop :=
  match ops with
  | [] => True
  | o :: ops' =>
    (match o with OpAdd (Some d) _ => ¬ waits s (DocId d) | _ => True end) ∧
    ∀ s', step sortDocs s o = Some s' → no_readd sortDocs ops' s'
  end.

(** The call carries the force-update flag (and does not remove the reserved id). *)
Definition forced (o : op) : Prop :=
  match o with OpAdd _ f => f = true | OpRemove id f => f = true ∧ id ≠ "0" end.

(** No call on an id that still waits in the add cache. *)
Fixpoint no_conflict (sortDocs : list DocIndex → list DocIndex) (ops : list op) (s : Indexer) : Prop :=
  match ops with
  | [] => True
  | o :: ops' =>
    (match o with
     | OpAdd (Some d) _ => ¬ waits s (DocId d)
     | OpAdd None _ => True
     | OpRemove id _ => ¬ waits s id ∧ id ≠ "0"
     end) ∧
    ∀ s', step sortDocs s o = Some s' → no_conflict sortDocs ops' s'
  end.

(** A purely syntactic sufficient condition: no id is used twice. *)
Definition op_id (o : op) : option string :=
  match o with OpAdd (Some d) _ => Some (DocId d) | OpAdd None _ => None | OpRemove id _ => Some id end.

(** The call adds a version of [id]. *)
Definition adds_id (id : string) (o : op) : Prop :=
  match o with OpAdd (Some d) _ => DocId d = id | _ => False end.
