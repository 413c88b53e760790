(** Specification vocabulary for the scores of a search over the whole engine. *)
From Verif Require Import ModelPipe ModelEngine SpecIndexer SpecProx SpecSearch SpecRank SpecRoute SpecPipe SpecEngine SpecFlight SpecEnd SpecBM25.

(** The shard a document with this id and content goes to, and the documents of the calls
    [cs] that go to shard [i]. *)
Definition shard_for (murmur : string → Z) (n : Z) (id content : string) : Z :=
  u32 (murmur (String.append id content)) `mod` n.
Definition shard_docs (murmur : string → Z) (n i : Z) (cs : list ecall) : list DocIndex :=
  omap (λ c, match c with
             | EIndex d _ ct _ _ => if shard_for murmur n (DocId d) ct =? i then Some d else None
             | _ => None
             end) cs.

(** How many of the documents [D] have the keyword [k] *)
Definition carriers (D : list DocIndex) (k : string) : Z := zlen (filter (λ d, k ∈ Text <$> Keywords d) D).

(** The accumulated length [total] is the sum of the token lengths, as far as they are whole
    numbers that float32 can add up (see C20). *)
Definition total_length (total : F) (D : list DocIndex) : Prop :=
  ∀ zl : DocIndex → Z, (∀ d, d ∈ D → TokenLen d = f32_of_Z (zl d) ∧ 0 <= zl d) →
    foldr Z.add 0 (zl <$> D) < 2 ^ 24 → total = f32_of_Z (foldr Z.add 0 (zl <$> D)).

(** [x] is what the scoring function must be told about the document [d], one of the
    documents [D] of its shard, by a search for [tokens]: BM25 over these documents if the
    index keeps frequencies or locations; with locations, the places of the tokens, one place
    for each, and how near to each other these are. *)
Definition describes (log2 : F → F) (o : IndexerOpts) (total : F) (D : list DocIndex) (tokens : list string)
    (d : DocIndex) (x : IndexedDoc) : Prop :=
  ∃ kws, hit_kws d tokens kws ∧ ixDocId x = DocId d ∧
    let bm := BM25 x = bm25_value log2 (BM25Parameters o) (zlen D) (f32_div total (f32_of_Z (zlen D))) (doc_len d)
                         (zip (carriers D <$> tokens) (tf (IndexType o) <$> kws)) in
    (IndexType o ≠ LocsIndex → TokenProximity x = 0 ∧ TokenSnippetLocs x = [] ∧ TokenLocs x = []) ∧
    (IndexType o ≠ LocsIndex → IndexType o ≠ FrequenciesIndex → BM25 x = f_zero) ∧
    (IndexType o = FrequenciesIndex → bm) ∧
    (IndexType o = LocsIndex → Exists (λ kw, Starts kw = []) kws → x = emptyIDoc (DocId d)) ∧
    (IndexType o = LocsIndex → Forall (λ kw, Starts kw ≠ []) kws →
       bm ∧ TokenLocs x = (Starts <$> kws) ∧ is_choice (Starts <$> kws) (TokenSnippetLocs x) ∧
       (small_inputs (Starts <$> kws) tokens →
          TokenProximity x = int32 (prox_cost (strlen <$> tokens) (TokenSnippetLocs x)))).

(** The entry of the answer for the document that the scoring function was told [x] about *)
Definition entry_for (only : bool) (score : IndexedDoc → Iface → list F) (x : IndexedDoc) (f : Iface) (ct : string) (a : Iface) : ScoredDoc :=
  mkScored (ixDocId x) (score x f) (TokenSnippetLocs x) (TokenLocs x)
    (if only then "" else ct) (if only then INil else a) (if only then INil else f).

(** What a search must say when the documents of the calls [cs] are there and nothing else:
    as [answers_calls], and the scores are those that the scoring function gives to the
    document. [totals i]: the accumulated token length of shard [i]. *)
Definition answers_scored (log2 : F → F) (o : IndexerOpts) (murmur : string → Z) (n : Z) (only : bool) (cs : list ecall)
    (totals : Z → F) (req : SearchReq) (full out : list ScoredDoc) : Prop :=
  let score := ScoringCriteria (rqOpts req) in
  let told d ct x := let i := shard_for murmur n (DocId d) ct in
    describes log2 o (totals i) (shard_docs murmur n i cs) (rqTokens req) d x in
  in_order (ReverseOrder (rqOpts req)) full ∧
  Forall2 same_scores out (page (OutputOffset (rqOpts req)) (MaxOutputs (rqOpts req)) full) ∧
  out ⊆+ full ∧
  NoDup (sdDocId <$> full) ∧
  (∀ h, h ∈ full → ∃ d f ct a fo x, EIndex d f ct a fo ∈ cs ∧ wanted req d ∧ told d ct x ∧ score x f ≠ [] ∧
     h = entry_for only score x f ct a) ∧
  (∀ d f ct a fo, EIndex d f ct a fo ∈ cs → wanted req d → (∀ x, told d ct x → score x f ≠ []) →
     ∃ x, told d ct x ∧ entry_for only score x f ct a ∈ full).

(** The scoring function gives no NaN to the documents that this request may be about. *)
Definition scores_proper (log2 : F → F) (o : IndexerOpts) (murmur : string → Z) (n : Z) (cs : list ecall)
    (totals : Z → F) (req : SearchReq) : Prop :=
  ∀ d f ct a fo x, EIndex d f ct a fo ∈ cs → wanted req d →
    (let i := shard_for murmur n (DocId d) ct in describes log2 o (totals i) (shard_docs murmur n i cs) (rqTokens req) d x) →
    nan_free (ScoringCriteria (rqOpts req) x f).

(** The length that the shard has added up *)
Definition shard_total (shards : list Shard) (i : Z) : F :=
  match shards !! Z.to_nat i with Some sh => totalTokenLen (shIx sh) | None => f_zero end.

(** Documents as the default options expect them: usual BM25 parameters, usual documents,
    lengths that are whole numbers and have a sum below 2^24 in each shard. *)
Definition usual_calls (o : IndexerOpts) (murmur : string → Z) (n : Z) (cs : list ecall) : Prop :=
  (∀ p, BM25Parameters o = Some p → usual p) ∧ zlen cs < 2 ^ 63 ∧
  (∀ d f ct a fo, EIndex d f ct a fo ∈ cs → usual_doc d) ∧
  ∃ zl : DocIndex → Z, (∀ d f ct a fo, EIndex d f ct a fo ∈ cs → TokenLen d = f32_of_Z (zl d) ∧ 0 <= zl d) ∧
    ∀ i, 0 <= i < n → foldr Z.add 0 (zl <$> shard_docs murmur n i cs) < 2 ^ 24.

(** The documents given to Index by the calls [cs], each as often as it was given *)
Definition indexed (cs : list ecall) : list DocIndex :=
  omap (λ c, match c with EIndex d _ _ _ _ => Some d | _ => None end) cs.
(** As [usual_calls], where documents may be given again and again: the lengths of all
    documents ever given have a sum below 2^24. *)
Definition usual_history (o : IndexerOpts) (cs : list ecall) : Prop :=
  (∀ p, BM25Parameters o = Some p → usual p) ∧ zlen cs < 2 ^ 63 ∧ Forall usual_doc (indexed cs) ∧
  ∃ zl : DocIndex → Z, Forall (λ d, TokenLen d = f32_of_Z (zl d) ∧ 0 <= zl d) (indexed cs) ∧
    foldr Z.add 0 (zl <$> indexed cs) < 2 ^ 24.
(** The scoring makes numbers from BM25 values that are numbers. *)
Definition sane_scoring (score : IndexedDoc → Iface → list F) : Prop :=
  ∀ x f, a_score (BM25 x) → nan_free (score x f).
