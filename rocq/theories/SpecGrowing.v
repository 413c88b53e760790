(** Specification vocabulary for the scores of searches while documents are being added. *)
From Verif Require Import ModelPipe ModelEngine ModelFlight SpecIndexer SpecSearch SpecRank SpecRoute SpecPipe SpecEngine SpecFlight SpecEnd SpecDuring SpecScored SpecRescored.

(** Those of the documents [docs] that the indexer has *)
Definition held (s : Indexer) (docs : list DocIndex) : list DocIndex := filter (λ d, HasDoc s (DocId d) = true) docs.

(** The scores of the whole answer [full] of a search that took from moment [t1] to moment
    [t2] while the calls [cs] were being carried out: for each shard there is one moment
    between these such that every entry of that shard has the score which the scoring
    function gives to the document described over the documents that the shard had then. *)
Definition scored_during (log2 : F → F) (o : IndexerOpts) (murmur : string → Z) (n : Z) (only : bool) (cs : list ecall)
    (ws : list (list Shard)) (t1 t2 : nat) (req : SearchReq) (full : list ScoredDoc) : Prop :=
  let score := ScoringCriteria (rqOpts req) in
  ∀ i, (i < Z.to_nat n)%nat → ∃ t w sh, (t1 <= t <= t2)%nat ∧ ws !! t = Some w ∧ w !! i = Some sh ∧
    let ever := shard_docs murmur n (Z.of_nat i) cs in
    let now := held (shIx sh) ever in
    let total := totalTokenLen (shIx sh) in
    total_now total ever now ∧
    ∀ h d f ct a fo, h ∈ full → EIndex d f ct a fo ∈ cs → DocId d = sdDocId h → shard_for murmur n (DocId d) ct = Z.of_nat i →
      d ∈ now ∧ ∃ x, describes log2 o total now (rqTokens req) d x ∧ score x f ≠ [] ∧ h = entry_for only score x f ct a.
