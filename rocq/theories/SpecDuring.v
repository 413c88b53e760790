(** Specification vocabulary for searches while documents are being written. *)
From Verif Require Import ModelPipe ModelEngine ModelFlight SpecIndexer SpecSearch SpecRank SpecRoute SpecPipe SpecEngine SpecFlight SpecEnd SpecFits.

(** The contents [ws] of the shards over time are those that the write pipeline brings
    about: [ps] are states that it runs through, one for each moment. *)
Definition written_by (step : pstate → pstate → Prop) (init : pstate)
    (sortDocs : list DocIndex → list DocIndex) (s0 : Indexer) (only : bool) (n : Z)
    (ws : list (list Shard)) (ps : list pstate) : Prop :=
  (∀ p, ps !! 0%nat = Some p → rtc step init p) ∧
  (∀ t p q, ps !! t = Some p → ps !! S t = Some q → rtc step p q) ∧
  Forall2 (engine_shards sortDocs s0 only n) ps ws.

(** [c] is the only call with this id, among all that are ever made. *)
Definition only_call (cs : list ecall) (id : string) (c : ecall) : Prop :=
  filter (λ c', call_id c' = Some id) cs = [c].

(** At moment [t] some shard has the document: HasDoc says yes and the ranker knows it. *)
Definition settled (ws : list (list Shard)) (t : nat) (id : string) : Prop :=
  ∃ w i sh, ws !! t = Some w ∧ w !! i = Some sh ∧
    HasDoc (shIx sh) id = true ∧ is_Some (rDocs (shRk sh) !! id).

(** [out] is the page that [req] asks for of the whole answer [full]. *)
Definition page_of (req : SearchReq) (full out : list ScoredDoc) : Prop :=
  in_order (ReverseOrder (rqOpts req)) full ∧
  Forall2 same_scores out (page (OutputOffset (rqOpts req)) (MaxOutputs (rqOpts req)) full) ∧
  out ⊆+ full.

(** The whole answer [full] of a search that took from moment [t1] to moment [t2], while
    the calls [cs] were being carried out. *)
Definition answers_during (only : bool) (cs : list ecall) (ws : list (list Shard)) (t1 t2 : nat)
    (req : SearchReq) (full : list ScoredDoc) : Prop :=
  let score := ScoringCriteria (rqOpts req) in
  (* every entry stems from calls of Index: one whose words were asked for, and one
     whose fields, content and attributes it shows *)
  (∀ h, h ∈ full → ∃ d f ct a fo d' f' ct' a' fo',
     EIndex d f ct a fo ∈ cs ∧ wanted req d ∧ EIndex d' f' ct' a' fo' ∈ cs ∧ DocId d' = DocId d ∧
     shows_call only score h d' f' ct' a') ∧
  (* documents with one call: there if settled at the beginning, settled at the end if
     there, and never twice *)
  (∀ d f ct a fo, only_call cs (DocId d) (EIndex d f ct a fo) →
     (settled ws t1 (DocId d) → wanted req d → score_accepts score (DocId d) f → DocId d ∈ sdDocId <$> full) ∧
     (DocId d ∈ sdDocId <$> full → wanted req d ∧ settled ws t2 (DocId d)) ∧
     (∀ h, h ∈ full → sdDocId h = DocId d → shows_call only score h d f ct a) ∧
     (length (filter (λ h, sdDocId h = DocId d) full) <= 1)%nat).

(** A ranked request, with or without a logic expression, whatever its deadline. *)
Definition timed_request (o : IndexerOpts) (req : SearchReq) : Prop :=
  ranked req ∧ paging_ok req ∧ answerable o req.

(** At moment [t] the indexer of shard [i] has the document. *)
Definition present_in (ws : list (list Shard)) (t i : nat) (id : string) : Prop :=
  ∃ w sh, ws !! t = Some w ∧ w !! i = Some sh ∧ HasDoc (shIx sh) id = true.
(** At moment [t] shard [i] has the document, and its ranker knows it. *)
Definition settled_in (ws : list (list Shard)) (t i : nat) (id : string) : Prop :=
  ∃ w sh, ws !! t = Some w ∧ w !! i = Some sh ∧ HasDoc (shIx sh) id = true ∧ is_Some (rDocs (shRk sh) !! id).

(** As [answers_during], when only the answers of the shards [hs] came in time. *)
Definition answers_heard (only : bool) (cs : list ecall) (ws : list (list Shard)) (t1 t2 : nat)
    (req : SearchReq) (hs : list nat) (full : list ScoredDoc) : Prop :=
  let score := ScoringCriteria (rqOpts req) in
  (∀ h, h ∈ full → ∃ d f ct a fo d' f' ct' a' fo',
     EIndex d f ct a fo ∈ cs ∧ fits req d ∧ EIndex d' f' ct' a' fo' ∈ cs ∧ DocId d' = DocId d ∧
     shows_call only score h d' f' ct' a') ∧
  (∀ d f ct a fo, only_call cs (DocId d) (EIndex d f ct a fo) →
     (∀ i, i ∈ hs → settled_in ws t1 i (DocId d) → fits req d → score_accepts score (DocId d) f →
        DocId d ∈ sdDocId <$> full) ∧
     (DocId d ∈ sdDocId <$> full → fits req d ∧ ∃ i, i ∈ hs ∧ settled_in ws t2 i (DocId d)) ∧
     (∀ h, h ∈ full → sdDocId h = DocId d → shows_call only score h d f ct a) ∧
     (length (filter (λ h, sdDocId h = DocId d) full) <= 1)%nat).

(** A request that asks the indexers only: for the number of documents, or for the
    documents in any order. *)
Definition index_request (o : IndexerOpts) (req : SearchReq) : Prop :=
  (rqCountOnly req = true ∨ rqOrderless req = true) ∧ answerable o req.

(** The ids [ids] of the documents counted or listed, from the shards [hs]. *)
Definition lists_heard (cs : list ecall) (ws : list (list Shard)) (t1 t2 : nat)
    (req : SearchReq) (hs : list nat) (ids : list string) : Prop :=
  (∀ id, id ∈ ids → ∃ d f ct a fo, EIndex d f ct a fo ∈ cs ∧ DocId d = id ∧ fits req d) ∧
  (∀ d f ct a fo, only_call cs (DocId d) (EIndex d f ct a fo) →
     (∀ i, i ∈ hs → present_in ws t1 i (DocId d) → fits req d → DocId d ∈ ids) ∧
     (DocId d ∈ ids → fits req d ∧ ∃ i, i ∈ hs ∧ present_in ws t2 i (DocId d)) ∧
     (length (filter (λ id, id = DocId d) ids) <= 1)%nat).

(** An entry that tells nothing but the id and where the words are *)
Definition bare (h : ScoredDoc) : Prop := sdScores h = [] ∧ sdContent h = ""%string ∧ sdAttri h = INil ∧ sdFields h = INil.
