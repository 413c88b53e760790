(** Specification vocabulary: two documents of one shard in the answer of a search. *)
From Coq Require Import Reals Floats.SpecFloat.
From Verif Require Import ModelLookup ModelPipe ModelEngine SpecIndexer SpecSearch SpecRank SpecPipe SpecEngine SpecEnd SpecScored SpecAccuracy.

(** The tokens occur in [d1] just as often as in [d2]; at least as often. *)
Definition same_occurrences (ity : Z) (tokens : list string) (d1 d2 : DocIndex) : Prop :=
  ∀ kw1 kw2, kw1 ∈ Keywords d1 → kw2 ∈ Keywords d2 → Text kw1 ∈ tokens → Text kw1 = Text kw2 →
    if ity =? LocsIndex then zlen (Starts kw1) = zlen (Starts kw2) else Frequency kw1 = Frequency kw2.
Definition no_fewer_occurrences (ity : Z) (tokens : list string) (d1 d2 : DocIndex) : Prop :=
  ∀ kw1 kw2, kw1 ∈ Keywords d1 → kw2 ∈ Keywords d2 → Text kw1 ∈ tokens → Text kw1 = Text kw2 →
    (occurrences ity kw2 <= occurrences ity kw1)%R.
Definition not_longer (d1 d2 : DocIndex) : Prop := (value (TokenLen d1) <= value (TokenLen d2))%R.

(** [d1] and [d2] were given to Index by two of the calls [cs] and went to the same shard. *)
Definition neighbours (murmur : string → Z) (n : Z) (cs : list ecall) (d1 d2 : DocIndex) : Prop :=
  ∃ f1 ct1 a1 fo1 f2 ct2 a2 fo2, EIndex d1 f1 ct1 a1 fo1 ∈ cs ∧ EIndex d2 f2 ct2 a2 fo2 ∈ cs ∧
    shard_for murmur n (DocId d1) ct1 = shard_for murmur n (DocId d2) ct2.

(** With the same occurrences the document that is not longer has no smaller score, and the
    other one stands before it only with an equal score; *)
Definition shorter_first (ity : Z) (murmur : string → Z) (n : Z) (cs : list ecall) (req : SearchReq) (out : list ScoredDoc) : Prop :=
  ∀ d1 d2 i j h1 h2, neighbours murmur n cs d1 d2 → same_occurrences ity (rqTokens req) d1 d2 → not_longer d1 d2 →
    out !! i = Some h1 → out !! j = Some h2 → sdDocId h1 = DocId d1 → sdDocId h2 = DocId d2 →
    ∃ v1 v2, sdScores h1 = [v1] ∧ sdScores h2 = [v2] ∧ f_ltb v1 v2 = false ∧
      ((if ReverseOrder (rqOpts req) then i < j else j < i)%nat → f_eqb v1 v2 = true).
(** with no fewer occurrences in a document that is not longer, the score is no smaller up to
    rounding. *)
Definition better_not_below (ity : Z) (murmur : string → Z) (n : Z) (cs : list ecall) (req : SearchReq) (out : list ScoredDoc) : Prop :=
  ∀ d1 d2 h1 h2, neighbours murmur n cs d1 d2 → no_fewer_occurrences ity (rqTokens req) d1 d2 → not_longer d1 d2 →
    h1 ∈ out → h2 ∈ out → sdDocId h1 = DocId d1 → sdDocId h2 = DocId d2 →
    ∃ v1 v2, sdScores h1 = [v1] ∧ sdScores h2 = [v2] ∧ hardly_below (length (rqTokens req)) (value v2) (value v1).
