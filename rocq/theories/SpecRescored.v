(** Specification vocabulary for the scores of searches after updates and removals. *)
From Verif Require Import ModelPipe ModelEngine SpecIndexer SpecSearch SpecRank SpecRoute SpecPipe SpecEngine SpecEnd SpecScored SpecRevise.

(** [D]: the documents that shard [i] should show, each of them once *)
Definition current_docs (R : Revision) (i : Z) (D : list DocIndex) : Prop :=
  NoDup (DocId <$> D) ∧ ∀ d, d ∈ D ↔ rvCurrent R i d.

(** What the part of the answer that comes from shard [i] must be: its entries are current
    documents with the words of the request; the scoring function was told about them what it
    must be told when nothing but the current documents [D] of the shard exists, and the
    fields of one version of the document.  Everything else is missing only if the scoring
    rejected it or the document was removed at some time. *)
Definition part_rescored (log2 : F → F) (o : IndexerOpts) (only : bool) (R : Revision) (total : F) (req : SearchReq) (settled : Prop)
    (i : Z) (part : list ScoredDoc) : Prop :=
  let score := ScoringCriteria (rqOpts req) in
  ∃ D, current_docs R i D ∧ NoDup (sdDocId <$> part) ∧
    (∀ h, h ∈ part → ∃ d f ct a x, d ∈ D ∧ wanted req d ∧ rvVersion R i (DocId d) f ct a ∧
       describes log2 o total D (rqTokens req) d x ∧ score x f ≠ [] ∧ h = entry_for only score x f ct a) ∧
    (settled → ∀ d, d ∈ D → wanted req d → ¬ rvRemoved R (DocId d) →
       (∀ f ct a x, rvVersion R i (DocId d) f ct a → describes log2 o total D (rqTokens req) d x → score x f ≠ []) →
       ∃ h, h ∈ part ∧ sdDocId h = DocId d).
Definition answers_rescored (log2 : F → F) (o : IndexerOpts) (n : Z) (only : bool) (R : Revision) (totals : Z → F) (req : SearchReq)
    (settled : Prop) (full out : list ScoredDoc) : Prop :=
  in_order (ReverseOrder (rqOpts req)) full ∧
  Forall2 same_scores out (page (OutputOffset (rqOpts req)) (MaxOutputs (rqOpts req)) full) ∧
  out ⊆+ full ∧
  ∃ parts : list (list ScoredDoc), zlen parts = n ∧ full ≡ₚ mjoin parts ∧
    ∀ (i : nat) part, parts !! i = Some part →
      part_rescored log2 o only R (totals (Z.of_nat i)) req settled (Z.of_nat i) part.

(** The scoring function gives no NaN to the documents that this request may be about. *)
Definition rescores_proper (log2 : F → F) (o : IndexerOpts) (R : Revision) (totals : Z → F) (req : SearchReq) : Prop :=
  ∀ i D d f ct a x, current_docs R i D → d ∈ D → wanted req d → rvVersion R i (DocId d) f ct a →
    describes log2 o (totals i) D (rqTokens req) d x → nan_free (ScoringCriteria (rqOpts req) x f).

(** The accumulated length [total] is the sum over the current documents [D], as far as
    the lengths are whole numbers and those of all versions [ever] given to the shard
    have a sum that float32 can represent. *)
Definition total_now (total : F) (ever D : list DocIndex) : Prop :=
  ∀ zl : DocIndex → Z, (∀ d, d ∈ ever → TokenLen d = f32_of_Z (zl d) ∧ 0 <= zl d) →
    foldr Z.add 0 (zl <$> ever) < 2 ^ 24 → total = f32_of_Z (foldr Z.add 0 (zl <$> D)).
