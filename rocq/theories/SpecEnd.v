(** Specification vocabulary for searches after writes. *)
From Verif Require Import ModelPipe ModelEngine SpecIndexer SpecSearch SpecRank SpecRoute SpecPipe SpecEngine SpecFlight.

(** The shards of the engine in the state [s] of the write pipeline: indexer and ranker
    of each have got the calls that the workers made so far. *)
Definition engine_shards (sortDocs : list DocIndex → list DocIndex) (s0 : Indexer) (only : bool)
    (n : Z) (s : pstate) (shards : list Shard) : Prop :=
  zlen shards = n ∧
  ∀ (i : nat) sh, shards !! i = Some sh →
    run sortDocs (ixCalls (Z.of_nat i) (sLog s)) s0 = Some (shIx sh) ∧
    rrun (rkCalls (Z.of_nat i) (sLog s)) (RankerInit [only]) = Some (shRk sh).

(** No document waits in a cache of an indexer. *)
Definition nothing_waits (sh : Shard) : Prop := addCache (shIx sh) = [] ∧ removeCache (shIx sh) = [].

(** The request asks for documents like [d]. *)
Definition wanted (req : SearchReq) (d : DocIndex) : Prop :=
  passes (rqDocIds req) (DocId d) ∧ ∀ k, k ∈ rqTokens req ++ rqLabels req → k ∈ Text <$> Keywords d.

(** The entry shows the document as it was given to Index, and its scores come from the
    fields that were given there. *)
Definition shows_call (only : bool) (score : IndexedDoc → Iface → list F) (h : ScoredDoc)
    (d : DocIndex) (f : Iface) (content : string) (a : Iface) : Prop :=
  sdDocId h = DocId d ∧ (∃ x, ixDocId x = DocId d ∧ sdScores h = score x f ∧ score x f ≠ []) ∧
  (only = false → sdFields h = f ∧ sdContent h = content ∧ sdAttri h = a).

(** The scoring gives no NaN. *)
Definition score_nan_free (score : IndexedDoc → Iface → list F) : Prop := ∀ x f, nan_free (score x f).
(** No score that the scoring can give to the documents that the shards find for the
    request is NaN; what the fields of these documents are does not matter. *)
Definition scores_numbers (log2 : F → F) (req : SearchReq) (shards : list Shard) : Prop :=
  ∀ sh docs num x f, sh ∈ shards →
    Lookup log2 (shIx sh) (rqTokens req) (rqLabels req) (rqDocIds req) false (Some (rqLogic req)) = Some (docs, num) →
    x ∈ docs → nan_free (ScoringCriteria (rqOpts req) x f).
(** The scoring rejects no document with these fields and this id. *)
Definition score_accepts (score : IndexedDoc → Iface → list F) (id : string) (f : Iface) : Prop :=
  ∀ x, ixDocId x = id → score x f ≠ [].

(** A plain ranked request: no deadline, no logic expression, at least one keyword; with
    token locations the tokens must not be empty (see C16). *)
Definition plain_request (o : IndexerOpts) (req : SearchReq) : Prop :=
  ranked req ∧ rqTimeout req <= 0 ∧ paging_ok req ∧ plain_logic (Some (rqLogic req)) ∧
  rqTokens req ++ rqLabels req ≠ [] ∧ (IndexType o = LocsIndex → rqTokens req ≠ []).

(** The page [out] of the whole answer [full]: what a search must say when the documents
    of the calls [cs] are there and nothing else. *)
Definition answers_calls (only : bool) (cs : list ecall) (req : SearchReq) (full out : list ScoredDoc) : Prop :=
  let score := ScoringCriteria (rqOpts req) in
  in_order (ReverseOrder (rqOpts req)) full ∧
  Forall2 same_scores out (page (OutputOffset (rqOpts req)) (MaxOutputs (rqOpts req)) full) ∧
  out ⊆+ full ∧
  NoDup (sdDocId <$> full) ∧
  (∀ h, h ∈ full → ∃ d f ct a fo, EIndex d f ct a fo ∈ cs ∧ wanted req d ∧ shows_call only score h d f ct a) ∧
  (∀ d f ct a fo, EIndex d f ct a fo ∈ cs → wanted req d → score_accepts score (DocId d) f →
     ∃ h, h ∈ full ∧ shows_call only score h d f ct a).

(** The calls of a program: good documents, ordinary ids, no id in two calls. *)
Definition once_each (cs : list ecall) : Prop :=
  Forall (λ c, good_call c ∧ call_id c ≠ Some "0") cs ∧ NoDup (omap call_id cs).

(** The last call on every indexer was a bare forced one, as Flush makes it. *)
Definition flushed_last (n : Z) (s : pstate) : Prop :=
  ∀ i, 0 <= i < n → ∃ ops, ixCalls i (sLog s) = ops ++ [OpAdd None true].
