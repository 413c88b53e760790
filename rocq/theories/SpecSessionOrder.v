(** Specification vocabulary: the order of searches by BM25 while a session on existing files
    is running. *)
From Coq Require Import Reals Floats.SpecFloat.
From Verif Require Import ModelSession ModelEngine ModelFlight SpecIndexer SpecSearch SpecRank SpecRoute SpecPipe SpecEngine SpecFlight SpecStore
  SpecEnd SpecLife SpecWhole SpecSession SpecDuring SpecSessionDuring SpecScored SpecAccuracy SpecShorter SpecRescored SpecGrowing SpecGrowingSession.

(** [y] is the exact score that the entry [h] should have: that of what the segmenter makes
    of the data of its id, among the documents [D i] of its shard [i]. *)
Definition exact_there (ity : Z) (p : BM25Params) (murmur : string → Z) (n : Z) (X : Ext) (stop : gset string) (o : SegOpts)
    (there : string → DocData → Prop) (D : Z → list DocIndex) (tokens : list string) (h : ScoredDoc) (y : R) : Prop :=
  ∃ d doc kws, there (sdDocId h) d ∧ segDoc X stop o (sdDocId h) d = Some doc ∧
    let i := shard_for murmur n (sdDocId h) (ddContent d) in
    doc ∈ D i ∧ hit_kws doc tokens kws ∧ y = exact_score ity p (D i) tokens doc kws.

(** As [ranked_during], for the data that are [there]: [ever i] lists the documents of shard
    [i] and [D i] those of them which its index had at one moment of the search. *)
Definition ranked_meanwhile (ity : Z) (p : BM25Params) (murmur : string → Z) (n : Z) (X : Ext) (stop : gset string) (o : SegOpts)
    (there : string → DocData → Prop) (ws : list (list Shard)) (t1 t2 : nat) (req : SearchReq) (out : list ScoredDoc) : Prop :=
  let t := length (rqTokens req) in
  let exact := exact_there ity p murmur n X stop o there in
  let reverse := ReverseOrder (rqOpts req) in
  ∃ ever D : Z → list DocIndex,
    (∀ i, (i < Z.to_nat n)%nat → documents_of murmur n X stop o there (Z.of_nat i) (ever (Z.of_nat i)) ∧
       ∃ m w sh, (t1 <= m <= t2)%nat ∧ ws !! m = Some w ∧ w !! i = Some sh ∧ D (Z.of_nat i) = held (shIx sh) (ever (Z.of_nat i))) ∧
    (∀ h, h ∈ out → ∃ v y, sdScores h = [v] ∧ a_number v ∧ exact D (rqTokens req) h y ∧ close t (value v) y) ∧
    (∀ a b h1 h2, (a < b)%nat → out !! a = Some h1 → out !! b = Some h2 → ∃ y1 y2,
       exact D (rqTokens req) h1 y1 ∧ exact D (rqTokens req) h2 y2 ∧ if reverse then hardly_below t y1 y2 else hardly_below t y2 y1) ∧
    (∀ a b h1 h2 d1 d2 doc1 doc2, out !! a = Some h1 → out !! b = Some h2 → there (sdDocId h1) d1 → there (sdDocId h2) d2 →
       segDoc X stop o (sdDocId h1) d1 = Some doc1 → segDoc X stop o (sdDocId h2) d2 = Some doc2 →
       shard_for murmur n (sdDocId h1) (ddContent d1) = shard_for murmur n (sdDocId h2) (ddContent d2) → not_longer doc1 doc2 →
       ∃ v1 v2, sdScores h1 = [v1] ∧ sdScores h2 = [v2] ∧
         (same_occurrences ity (rqTokens req) doc1 doc2 → f_ltb v1 v2 = false ∧ ((if reverse then a < b else b < a)%nat → f_eqb v1 v2 = true)) ∧
         (no_fewer_occurrences ity (rqTokens req) doc1 doc2 → hardly_below t (value v2) (value v1))).
