(** Specification vocabulary for requests with and without a logic expression. *)
From Verif Require Import ModelPipe ModelEngine SpecIndexer SpecSearch SpecLogic SpecRank SpecRoute SpecPipe SpecEngine SpecFlight SpecEnd.

(** The keywords of a request, and the parts of its logic expression. *)
Definition req_words (req : SearchReq) : list string := rqTokens req ++ rqLabels req.
Definition with_logic (req : SearchReq) : Prop := is_logic (req_words req) (rqLogic req).
Definition req_query (req : SearchReq) : query := query_of (req_words req) (rqLogic req).

(** The words of the document do what the three parts ask for. *)
Definition words_fit (q : query) (d : DocIndex) : Prop :=
  (∀ ws, qMust q = Some ws → ∀ k, k ∈ ws → k ∈ Text <$> Keywords d) ∧
  (∀ ws, qShould q = Some ws → ∃ k, k ∈ ws ∧ k ∈ Text <$> Keywords d) ∧
  (∀ ws, qNot q = Some ws → ∀ k, k ∈ ws → k ∉ Text <$> Keywords d).

(** The request asks for documents like [d]. The document ids of the request count for
    plain requests and for those with a MUST part, not for those with SHOULD only. *)
Definition fits (req : SearchReq) (d : DocIndex) : Prop :=
  (¬ with_logic req → wanted req d) ∧
  (with_logic req → words_fit (req_query req) d ∧ (qMust (req_query req) ≠ None → passes (rqDocIds req) (DocId d))).

(** A request that is plain, with a keyword, and with a token if the index keeps locations
    (C16), or that has a MUST part with a word in it, or a SHOULD part and no MUST part; this
    leaves out requests with a NOT part only (C23) and those of C25. *)
Definition answerable (o : IndexerOpts) (req : SearchReq) : Prop :=
  (¬ with_logic req ∧ req_words req ≠ [] ∧ (IndexType o = LocsIndex → rqTokens req ≠ [])) ∨
  (with_logic req ∧
     ((∃ w ws, qMust (req_query req) = Some (w :: ws)) ∨
      (qMust (req_query req) = None ∧ ∃ ws, qShould (req_query req) = Some ws))).

(** As [answers_calls], with or without a logic expression. With one, the scoring sees
    nothing but the id and the fields of the document. *)
Definition answers_fitting (only : bool) (cs : list ecall) (req : SearchReq) (full out : list ScoredDoc) : Prop :=
  let score := ScoringCriteria (rqOpts req) in
  in_order (ReverseOrder (rqOpts req)) full ∧
  Forall2 same_scores out (page (OutputOffset (rqOpts req)) (MaxOutputs (rqOpts req)) full) ∧
  out ⊆+ full ∧
  NoDup (sdDocId <$> full) ∧
  (∀ h, h ∈ full → ∃ d f ct a fo, EIndex d f ct a fo ∈ cs ∧ fits req d ∧ shows_call only score h d f ct a ∧
     (with_logic req → sdScores h = score (emptyIDoc (DocId d)) f)) ∧
  (∀ d f ct a fo, EIndex d f ct a fo ∈ cs → fits req d →
     (with_logic req → score (emptyIDoc (DocId d)) f ≠ []) → (¬ with_logic req → score_accepts score (DocId d) f) →
     ∃ h, h ∈ full ∧ shows_call only score h d f ct a).

(** A ranked request without a deadline. *)
Definition open_request (o : IndexerOpts) (req : SearchReq) : Prop :=
  ranked req ∧ rqTimeout req <= 0 ∧ paging_ok req ∧ answerable o req.
