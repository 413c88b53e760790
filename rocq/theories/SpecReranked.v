(** Specification vocabulary: the order of searches by BM25 after updates and removals. *)
From Coq Require Import Reals Floats.SpecFloat.
From Verif Require Import ModelLookup ModelPipe ModelEngine SpecIndexer SpecSearch SpecRank SpecPipe SpecEngine SpecEnd SpecScored SpecAccuracy SpecShorter SpecRevise SpecRescored.

(** [y] is the exact score of [d] among the current documents of shard [i]. *)
Definition exact_current (ity : Z) (p : BM25Params) (V : Revision) (tokens : list string) (i : Z) (d : DocIndex) (y : R) : Prop :=
  ∃ D kws, current_docs V i D ∧ d ∈ D ∧ hit_kws d tokens kws ∧ y = exact_score ity p D tokens d kws.

(** The entry [h] of the answer is the current document [d] of shard [i], with its score. *)
Definition entry_current (ity : Z) (p : BM25Params) (V : Revision) (n : Z) (req : SearchReq) (w : Z * DocIndex) (h : ScoredDoc) : Prop :=
  let (i, d) := w in
  0 <= i < n ∧ rvCurrent V i d ∧ wanted req d ∧ sdDocId h = DocId d ∧
  ∃ v y, sdScores h = [v] ∧ a_number v ∧ exact_current ity p V (rqTokens req) i d y ∧ close (length (rqTokens req)) (value v) y.

(** [who] says which current document of which shard each entry is; no two entries are the
    same one.  The entries stand in the order of their exact scores up to nearly equal ones;
    of two documents of one shard with the same occurrences the longer one stands first only
    with an equal score; a document that is not longer and has no fewer occurrences has no
    smaller score up to rounding. *)
Definition reranked (ity : Z) (p : BM25Params) (V : Revision) (n : Z) (req : SearchReq) (out : list ScoredDoc) : Prop :=
  let t := length (rqTokens req) in
  let reverse := ReverseOrder (rqOpts req) in
  ∃ who : list (Z * DocIndex), NoDup ((λ w, (fst w, DocId (snd w))) <$> who) ∧
    Forall2 (entry_current ity p V n req) who out ∧
    (∀ a b i1 d1 i2 d2, (a < b)%nat → who !! a = Some (i1, d1) → who !! b = Some (i2, d2) →
       ∃ y1 y2, exact_current ity p V (rqTokens req) i1 d1 y1 ∧ exact_current ity p V (rqTokens req) i2 d2 y2 ∧
         if reverse then hardly_below t y1 y2 else hardly_below t y2 y1) ∧
    (∀ a b i d1 d2 h1 h2, who !! a = Some (i, d1) → who !! b = Some (i, d2) → out !! a = Some h1 → out !! b = Some h2 → not_longer d1 d2 →
       ∃ v1 v2, sdScores h1 = [v1] ∧ sdScores h2 = [v2] ∧
         (same_occurrences ity (rqTokens req) d1 d2 → f_ltb v1 v2 = false ∧ ((if reverse then a < b else b < a)%nat → f_eqb v1 v2 = true)) ∧
         (no_fewer_occurrences ity (rqTokens req) d1 d2 → hardly_below t (value v2) (value v1))).

(** The lengths of all versions that the calls [cs] give to a shard are whole numbers with a
    sum below 2^24, and its current documents are modest. *)
Definition modest_history (ity : Z) (V : Revision) (murmur : string → Z) (n : Z) (cs : list ecall) : Prop :=
  ∀ i, 0 <= i < n →
    (∃ zl : DocIndex → Z, (∀ d, d ∈ shard_docs murmur n i cs → TokenLen d = f32_of_Z (zl d) ∧ 0 <= zl d) ∧
       foldr Z.add 0 (zl <$> shard_docs murmur n i cs) < 2 ^ 24) ∧
    ∀ D, current_docs V i D → D ≠ [] → modest_docs ity D.
