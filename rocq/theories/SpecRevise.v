(** Specification vocabulary for searches after updates and removals, with any number of
    segmenter goroutines. *)
From Verif Require Import ModelSession ModelEngine SpecIndexer SpecSearch SpecLogic SpecRank SpecRoute SpecPipe SpecEngine SpecFlight SpecStore SpecEnd SpecFits SpecUpdate SpecLife SpecClose SpecWhole SpecSession.

(** Which documents a shard should show ([rvCurrent i d]), which versions of a document it
    has ever been given ([rvVersion i id fields content attributes]), and which documents
    were removed at some time. *)
Record Revision := mkRevision {
  rvCurrent : Z → DocIndex → Prop;
  rvVersion : Z → string → Iface → string → Iface → Prop;
  rvRemoved : string → Prop }.

(** Without storage: what the calls [cs] of one client, in this order, make of it. *)
Definition called (murmur : string → Z) (n : Z) (cs : list ecall) : Revision :=
  mkRevision
    (λ i d, ∃ f ct a, current murmur n i cs d f ct a)
    (λ i id f ct a, ∃ d fo, EIndex d f ct a fo ∈ cs ∧ DocId d = id ∧ u32 (murmur (String.append id ct)) `mod` n = i)
    (λ id, ∃ fo, ERemove id fo ∈ cs).

(** In a session on files that hold [dbs]: a document of the files counts until a call
    sends another version of it to the same shard, or removes it. *)
Definition in_session (murmur : string → Z) (n nS : Z) (decode : string → DocData * bool) (X : Ext) (stop : gset string) (o : SegOpts)
    (dbs : Z → kv) (cs : list wcall) : Revision :=
  let here i id (d : DocData) := u32 (murmur (String.append id (ddContent d))) `mod` n = i in
  let untouched i id l := Forall (λ c, sent_to murmur n i id (pipeCall c) = false) l in
  mkRevision
    (λ i doc, ∃ d, here i (DocId doc) d ∧
       ((∃ fo before after, cs = before ++ WIndex doc d fo :: after ∧ untouched i (DocId doc) after) ∨
        (stored murmur nS decode dbs (DocId doc) d ∧ segDoc X stop o (DocId doc) d = Some doc ∧ untouched i (DocId doc) cs)))
    (λ i id f ct a, ∃ d, stored_or_given murmur nS decode dbs cs id d ∧ here i id d ∧
       f = ddFields d ∧ ct = ddContent d ∧ a = ddAttri d)
    (λ id, ∃ fo, WRemove id fo ∈ cs).

(** The scoring does not reject the document if it has these fields. *)
Definition kept (req : SearchReq) (id : string) (f : Iface) : Prop :=
  let score := ScoringCriteria (rqOpts req) in
  (with_logic req → score (emptyIDoc id) f ≠ []) ∧ (¬ with_logic req → score_accepts score id f).

(** Nothing but current versions: what the part of the answer that comes from shard [i]
    may have in it.  Each document is found by the words of its current version; the data
    beside it and the fields behind its scores are those of one version of this document. *)
Definition part_current (only : bool) (R : Revision) (req : SearchReq) (i : Z) (part : list ScoredDoc) : Prop :=
  let score := ScoringCriteria (rqOpts req) in
  NoDup (sdDocId <$> part) ∧
  ∀ h, h ∈ part → ∃ d, rvCurrent R i d ∧ fits req d ∧
    ∃ f ct a, rvVersion R i (DocId d) f ct a ∧ shows_call only score h d f ct a ∧
      (with_logic req → sdScores h = score (emptyIDoc (DocId d)) f).

(** Every current version that was asked for, unless its document was removed at some
    time, or the scoring rejects it with the fields of one of its versions. *)
Definition part_complete (R : Revision) (req : SearchReq) (i : Z) (part : list ScoredDoc) : Prop :=
  ∀ d, rvCurrent R i d → fits req d → ¬ rvRemoved R (DocId d) →
    (∀ f ct a, rvVersion R i (DocId d) f ct a → kept req (DocId d) f) →
    ∃ h, h ∈ part ∧ sdDocId h = DocId d.

(** The answer of a search over [n] shards, in order, cut into the page; [settled]: all
    goroutines have come to rest. *)
Definition answers_revised (n : Z) (only : bool) (R : Revision) (req : SearchReq) (settled : Prop) (full out : list ScoredDoc) : Prop :=
  in_order (ReverseOrder (rqOpts req)) full ∧
  Forall2 same_scores out (page (OutputOffset (rqOpts req)) (MaxOutputs (rqOpts req)) full) ∧
  out ⊆+ full ∧
  ∃ parts : list (list ScoredDoc), zlen parts = n ∧ full ≡ₚ mjoin parts ∧
    ∀ (i : nat) part, parts !! i = Some part →
      part_current only R req (Z.of_nat i) part ∧ (settled → part_complete R req (Z.of_nat i) part).
