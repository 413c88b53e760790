(** Specification vocabulary for updates: several Index calls for the same document. *)
From Verif Require Import ModelPipe ModelEngine SpecIndexer SpecSearch SpecRank SpecRoute SpecPipe SpecEngine SpecFlight SpecEnd.

(** [cs] is a merge of the lists [ls] that keeps the order within each of them. *)
Inductive interleaved {A} : list (list A) → list A → Prop :=
  | il_nil ls : Forall (λ l, l = []) ls → interleaved ls []
  | il_snoc ls k l c cs : interleaved ls cs → ls !! k = Some l → interleaved (<[k := l ++ [c]]> ls) (cs ++ [c]).

(** The calls other than RemoveDoc. *)
Definition not_removal (c : ecall) : bool := match c with ERemove _ _ => false | _ => true end.
(** Additions among the calls on an indexer or a ranker. *)
Definition ix_addition (o : op) : bool := match o with OpAdd _ _ => true | _ => false end.
Definition rk_addition (o : rop) : bool := match o with ROAdd _ _ _ => true | _ => false end.

(** Of the calls [cs], the last one about this id that concerns shard [i] indexed
    document [d] with these fields, content and attributes. *)
Definition current (murmur : string → Z) (n i : Z) (cs : list ecall) (d : DocIndex) (f : Iface) (content : string) (a : Iface) : Prop :=
  ∃ fo before after, cs = before ++ EIndex d f content a fo :: after ∧
    u32 (murmur (String.append (DocId d) content)) `mod` n = i ∧
    Forall (λ c, sent_to murmur n i (DocId d) c = false) after.

(** The page [out] of the whole answer [full], made of one part for each shard: what a
    search must say when every shard has the current versions of the documents. *)
Definition answers_current (murmur : string → Z) (n : Z) (only : bool) (cs : list ecall) (req : SearchReq) (full out : list ScoredDoc) : Prop :=
  let score := ScoringCriteria (rqOpts req) in
  in_order (ReverseOrder (rqOpts req)) full ∧
  Forall2 same_scores out (page (OutputOffset (rqOpts req)) (MaxOutputs (rqOpts req)) full) ∧
  out ⊆+ full ∧
  ∃ parts : list (list ScoredDoc), zlen parts = n ∧ full ≡ₚ mjoin parts ∧
    ∀ (i : nat) part, parts !! i = Some part →
      NoDup (sdDocId <$> part) ∧
      (∀ h, h ∈ part → ∃ d f ct a, current murmur n (Z.of_nat i) cs d f ct a ∧ wanted req d ∧ shows_call only score h d f ct a) ∧
      (∀ d f ct a, current murmur n (Z.of_nat i) cs d f ct a → wanted req d → score_accepts score (DocId d) f →
         ∃ h, h ∈ part ∧ shows_call only score h d f ct a).

(** No document is indexed after its removal. *)
Definition removed_for_good (cs : list ecall) : Prop :=
  ∀ before id fo after, cs = before ++ ERemove id fo :: after →
    ∀ d f ct a fo', EIndex d f ct a fo' ∈ after → DocId d ≠ id.
(** No document is both indexed and removed. *)
Definition removes_others (cs : list ecall) : Prop :=
  ∀ id fo d f ct a fo', ERemove id fo ∈ cs → EIndex d f ct a fo' ∈ cs → DocId d ≠ id.
