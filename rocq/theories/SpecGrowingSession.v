(** Specification vocabulary for the scores of searches while a session on existing files
    is running. *)
From Verif Require Import ModelSession ModelEngine ModelFlight SpecIndexer SpecSearch SpecRank SpecRoute SpecPipe SpecEngine SpecFlight SpecStore
  SpecEnd SpecLife SpecWhole SpecSession SpecDuring SpecSessionDuring SpecScored SpecRescored SpecGrowing.

(** [docs] lists what the segmenter makes of the data that are [there] and belong to shard [i]. *)
Definition documents_of (murmur : string → Z) (n : Z) (X : Ext) (stop : gset string) (o : SegOpts)
    (there : string → DocData → Prop) (i : Z) (docs : list DocIndex) : Prop :=
  NoDup (DocId <$> docs) ∧
  ∀ doc, doc ∈ docs ↔ ∃ d, there (DocId doc) d ∧ segDoc X stop o (DocId doc) d = Some doc ∧
    shard_for murmur n (DocId doc) (ddContent d) = i.

(** No call is about an id that is in the files or in another call, and none about the
    reserved id. *)
Definition new_ids (murmur : string → Z) (nS : Z) (dbs : Z → kv) (cs : list wcall) : Prop :=
  fresh_ids murmur nS dbs cs ∧ NoDup (omap call_id (pipeProg cs)) ∧ "0" ∉ omap call_id (pipeProg cs).

(** As [scored_during], for the data that are [there]: for each shard there is one moment
    of the search such that every entry of that shard has the score of its document over
    the documents that the shard had then. *)
Definition scored_meanwhile (log2 : F → F) (io : IndexerOpts) (murmur : string → Z) (n : Z) (only : bool)
    (X : Ext) (stop : gset string) (o : SegOpts) (there : string → DocData → Prop)
    (ws : list (list Shard)) (t1 t2 : nat) (req : SearchReq) (full : list ScoredDoc) : Prop :=
  let score := ScoringCriteria (rqOpts req) in
  ∀ i, (i < Z.to_nat n)%nat → ∃ t w sh ever, (t1 <= t <= t2)%nat ∧ ws !! t = Some w ∧ w !! i = Some sh ∧
    documents_of murmur n X stop o there (Z.of_nat i) ever ∧
    let now := held (shIx sh) ever in
    let total := totalTokenLen (shIx sh) in
    total_now total ever now ∧
    ∀ h d doc, h ∈ full → there (sdDocId h) d → segDoc X stop o (sdDocId h) d = Some doc →
      shard_for murmur n (sdDocId h) (ddContent d) = Z.of_nat i →
      doc ∈ now ∧ ∃ x, describes log2 io total now (rqTokens req) doc x ∧ score x (ddFields d) ≠ [] ∧
        h = entry_for only score x (ddFields d) (ddContent d) (ddAttri d).
