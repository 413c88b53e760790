(** Specification vocabulary for searches after a restart. *)
From Verif Require Import ModelPipe ModelEngine ModelStore SpecIndexer SpecSearch SpecRank SpecRoute SpecPipe SpecEngine SpecFlight SpecStore SpecEnd.

(** The database files hold these decodable data for [id]. *)
Definition stored (murmur : string → Z) (nS : Z) (decode : string → DocData * bool) (dbs : Z → kv)
    (id : string) (d : DocData) : Prop :=
  ∃ v, dbs (storeShard murmur nS id) !! id = Some v ∧ decode v = (d, false).

(** The last Index call for [id] gave these data, or there was none and they were stored before. *)
Definition survives (murmur : string → Z) (nS : Z) (decode : string → DocData * bool) (dbs : Z → kv)
    (cs : list scall) (id : string) (d : DocData) : Prop :=
  (id ≠ "0" ∧ last_data cs id d) ∨ ((∀ d', SIndex id d' ∉ cs) ∧ stored murmur nS decode dbs id d).

(** No file has an entry for the reserved id (the engine never writes one). *)
Definition no_zero (nS : Z) (dbs : Z → kv) : Prop := ∀ j, 0 <= j < nS → dbs j !! "0" = None.

(** The page [out] of the whole answer [full]: what a search must say when the documents
    [there] are in the engine, segmented with these options, and nothing else. *)
Definition answers_docs (only : bool) (X : Ext) (stop : gset string) (o : SegOpts) (there : string → DocData → Prop)
    (req : SearchReq) (full out : list ScoredDoc) : Prop :=
  let score := ScoringCriteria (rqOpts req) in
  in_order (ReverseOrder (rqOpts req)) full ∧
  Forall2 same_scores out (page (OutputOffset (rqOpts req)) (MaxOutputs (rqOpts req)) full) ∧
  out ⊆+ full ∧
  NoDup (sdDocId <$> full) ∧
  (∀ h, h ∈ full → ∃ id d doc, there id d ∧ segDoc X stop o id d = Some doc ∧ wanted req doc ∧
     shows_call only score h doc (ddFields d) (ddContent d) (ddAttri d)) ∧
  (∀ id d, there id d → ∃ doc, segDoc X stop o id d = Some doc ∧ DocId doc = id ∧
     (wanted req doc → score_accepts score id (ddFields d) →
      ∃ h, h ∈ full ∧ shows_call only score h doc (ddFields d) (ddContent d) (ddAttri d))).
