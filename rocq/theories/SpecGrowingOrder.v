(** Specification vocabulary: the order of searches by BM25 while documents are being added. *)
From Coq Require Import Reals Floats.SpecFloat.
From Verif Require Import ModelLookup ModelPipe ModelEngine ModelFlight SpecIndexer SpecSearch SpecRank SpecRoute SpecPipe SpecEngine SpecFlight SpecEnd SpecScored SpecAccuracy SpecShorter SpecGrowing.

(** The documents that the calls [cs] give to a shard: fewer than 2^24, their lengths positive
    whole numbers with a sum below 2^24, modest frequencies; with locations, every keyword
    has one. *)
Definition modest_additions (ity : Z) (murmur : string → Z) (n : Z) (cs : list ecall) : Prop :=
  ∀ i, 0 <= i < n → let ever := shard_docs murmur n i cs in
    zlen ever < 2 ^ 24 ∧
    (∃ zl : DocIndex → Z, (∀ d, d ∈ ever → TokenLen d = f32_of_Z (zl d) ∧ 0 < zl d) ∧ foldr Z.add 0 (zl <$> ever) < 2 ^ 24) ∧
    ∀ d kw, d ∈ ever → kw ∈ Keywords d → if ity =? LocsIndex then 0 < zlen (Starts kw) < 2 ^ 24 else modest_freq (Frequency kw).

(** [y] is the exact score that the entry [h] should have: that of the document of this id
    among the documents [D i] of its shard [i]. *)
Definition exact_among (ity : Z) (p : BM25Params) (murmur : string → Z) (n : Z) (cs : list ecall) (D : Z → list DocIndex) (tokens : list string)
    (h : ScoredDoc) (y : R) : Prop :=
  ∃ d f ct a fo kws, EIndex d f ct a fo ∈ cs ∧ DocId d = sdDocId h ∧ d ∈ D (shard_for murmur n (DocId d) ct) ∧ hit_kws d tokens kws ∧
    y = exact_score ity p (D (shard_for murmur n (DocId d) ct)) tokens d kws.

(** The answer of a search from moment [t1] to moment [t2]: for each shard there is one
    moment between these such that, with [D] for the documents which the shards had at
    their moments, the entries have their scores and stand in the order of their exact
    scores up to nearly equal ones; of two documents of one shard with the same occurrences
    the longer one stands first only with an equal score; a document that is not longer and
    has no fewer occurrences has no smaller score up to rounding. *)
Definition ranked_during (ity : Z) (p : BM25Params) (murmur : string → Z) (n : Z) (cs : list ecall) (ws : list (list Shard)) (t1 t2 : nat)
    (req : SearchReq) (out : list ScoredDoc) : Prop :=
  let t := length (rqTokens req) in
  ∃ D : Z → list DocIndex,
    (∀ i, (i < Z.to_nat n)%nat → ∃ m w sh, (t1 <= m <= t2)%nat ∧ ws !! m = Some w ∧ w !! i = Some sh ∧
       D (Z.of_nat i) = held (shIx sh) (shard_docs murmur n (Z.of_nat i) cs)) ∧
    (∀ h, h ∈ out → ∃ v y, sdScores h = [v] ∧ a_number v ∧ exact_among ity p murmur n cs D (rqTokens req) h y ∧ close t (value v) y) ∧
    (∀ i j h1 h2, (i < j)%nat → out !! i = Some h1 → out !! j = Some h2 → ∃ y1 y2,
       exact_among ity p murmur n cs D (rqTokens req) h1 y1 ∧ exact_among ity p murmur n cs D (rqTokens req) h2 y2 ∧
       if ReverseOrder (rqOpts req) then hardly_below t y1 y2 else hardly_below t y2 y1) ∧
    shorter_first ity murmur n cs req out ∧ better_not_below ity murmur n cs req out.
