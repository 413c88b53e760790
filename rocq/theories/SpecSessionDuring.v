(** Specification vocabulary for searches while a session of the engine is running. *)
From Verif Require Import ModelSession ModelEngine ModelFlight SpecIndexer SpecSearch SpecRank SpecRoute SpecPipe SpecEngine SpecFlight SpecStore
  SpecEnd SpecLife SpecWhole SpecSession SpecDuring.

(** The contents [ws] of the shards over time are those that the engine brings about:
    [ss] are states that it runs through, one for each moment. *)
Definition written_in (reach : wstate → Prop) (step : wstate → wstate → Prop)
    (sortDocs : list DocIndex → list DocIndex) (s0 : Indexer) (only : bool) (n : Z)
    (ws : list (list Shard)) (ss : list wstate) : Prop :=
  (∀ s, ss !! 0%nat = Some s → reach s) ∧
  (∀ t s s', ss !! t = Some s → ss !! S t = Some s' → rtc step s s') ∧
  Forall2 (λ s, engine_shards sortDocs s0 only n (pipePart s)) ss ws.

(** The documents in the calls are those the segmenter makes of the data. *)
Definition made_of (X : Ext) (stop : gset string) (o : SegOpts) (cs : list wcall) : Prop :=
  ∀ doc d fo, WIndex doc d fo ∈ cs → segDoc X stop o (DocId doc) d = Some doc.

(** At most one call is about [id], and none if the files have it. *)
Definition one_source (murmur : string → Z) (nS : Z) (dbs : Z → kv) (cs : list wcall) (id : string) : Prop :=
  (length (filter (λ c, call_id (pipeCall c) = Some id) cs) <= 1)%nat ∧
  (is_Some (dbs (storeShard murmur nS id) !! id) → filter (λ c, call_id (pipeCall c) = Some id) cs = []).

(** The whole answer [full] of a search that took from moment [t1] to moment [t2], in an
    engine that gets the documents [there]; [single] are those ids with one version. *)
Definition answers_meanwhile (only : bool) (X : Ext) (stop : gset string) (o : SegOpts)
    (there : string → DocData → Prop) (single : string → Prop) (ws : list (list Shard)) (t1 t2 : nat)
    (req : SearchReq) (full : list ScoredDoc) : Prop :=
  let score := ScoringCriteria (rqOpts req) in
  (* every entry is about a document that was there: a version of it was asked for, and a
     version of it is shown *)
  (∀ h, h ∈ full → ∃ d doc d' doc',
     there (sdDocId h) d ∧ segDoc X stop o (sdDocId h) d = Some doc ∧ wanted req doc ∧
     there (sdDocId h) d' ∧ segDoc X stop o (sdDocId h) d' = Some doc' ∧
     shows_call only score h doc' (ddFields d') (ddContent d') (ddAttri d')) ∧
  (∀ id d doc, there id d → single id → segDoc X stop o id d = Some doc →
     (settled ws t1 id → wanted req doc → score_accepts score id (ddFields d) → id ∈ sdDocId <$> full) ∧
     (id ∈ sdDocId <$> full → wanted req doc ∧ settled ws t2 id) ∧
     (∀ h, h ∈ full → sdDocId h = id → shows_call only score h doc (ddFields d) (ddContent d) (ddAttri d)) ∧
     (length (filter (λ h, sdDocId h = id) full) <= 1)%nat).
