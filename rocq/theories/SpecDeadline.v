(** Specification vocabulary for searches with deadlines, and for searches that ask the
    indexers only, while a session of the engine is running. *)
From Verif Require Import ModelSession ModelEngine ModelFlight SpecIndexer SpecSearch SpecRank SpecRoute SpecPipe SpecEngine SpecFlight SpecStore
  SpecEnd SpecFits SpecLife SpecWhole SpecSession SpecDuring SpecSessionDuring.

(** The shards [hs] that a search has heard from: no shard twice, no shard that is not
    there, and all [n] of them exactly if the answer does not say [late]; without a
    deadline it never does. *)
Definition heard_from (n : nat) (req : SearchReq) (hs : list nat) (late : bool) : Prop :=
  NoDup hs ∧ (∀ i, i ∈ hs → (i < n)%nat) ∧ (late = false ↔ length hs = n) ∧ (rqTimeout req <= 0 → late = false).

(** As [answers_meanwhile], when only the answers of the shards [hs] came in time. *)
Definition answers_in_time (only : bool) (X : Ext) (stop : gset string) (o : SegOpts)
    (there : string → DocData → Prop) (single : string → Prop) (ws : list (list Shard)) (t1 t2 : nat)
    (req : SearchReq) (hs : list nat) (full : list ScoredDoc) : Prop :=
  let score := ScoringCriteria (rqOpts req) in
  (∀ h, h ∈ full → ∃ d doc d' doc',
     there (sdDocId h) d ∧ segDoc X stop o (sdDocId h) d = Some doc ∧ fits req doc ∧
     there (sdDocId h) d' ∧ segDoc X stop o (sdDocId h) d' = Some doc' ∧
     shows_call only score h doc' (ddFields d') (ddContent d') (ddAttri d')) ∧
  (∀ id d doc, there id d → single id → segDoc X stop o id d = Some doc →
     (∀ i, i ∈ hs → settled_in ws t1 i id → fits req doc → score_accepts score id (ddFields d) → id ∈ sdDocId <$> full) ∧
     (id ∈ sdDocId <$> full → fits req doc ∧ ∃ i, i ∈ hs ∧ settled_in ws t2 i id) ∧
     (∀ h, h ∈ full → sdDocId h = id → shows_call only score h doc (ddFields d) (ddContent d) (ddAttri d)) ∧
     (length (filter (λ h, sdDocId h = id) full) <= 1)%nat).

(** The ids [ids] of the documents counted or listed, from the shards [hs]. *)
Definition lists_in_time (X : Ext) (stop : gset string) (o : SegOpts)
    (there : string → DocData → Prop) (single : string → Prop) (ws : list (list Shard)) (t1 t2 : nat)
    (req : SearchReq) (hs : list nat) (ids : list string) : Prop :=
  (∀ id, id ∈ ids → ∃ d doc, there id d ∧ segDoc X stop o id d = Some doc ∧ fits req doc) ∧
  (∀ id d doc, there id d → single id → segDoc X stop o id d = Some doc →
     (∀ i, i ∈ hs → present_in ws t1 i id → fits req doc → id ∈ ids) ∧
     (id ∈ ids → fits req doc ∧ ∃ i, i ∈ hs ∧ present_in ws t2 i id) ∧
     (length (filter (λ id', id' = id) ids) <= 1)%nat).

(** The answer [rs] to a request for the number of documents, or for the documents in any
    order: [ids] are counted, or told with where the words are and nothing else. *)
Definition tells_ids (req : SearchReq) (ids : list string) (late : bool) (rs : SearchResp) : Prop :=
  rsTokens rs = rqTokens req ∧ rsTimeout rs = late ∧ rsNumDocs rs = zlen ids ∧
  if rqCountOnly req then rsDocs rs = None
  else ∃ l, rsDocs rs = Some l ∧ sdDocId <$> l = ids ∧ Forall bare l.
