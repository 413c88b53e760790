(** Specification vocabulary for engine-level search. *)
From Verif Require Import ModelEngine SpecRank.

(** What a shard holds: its ranker was filled by the calls [p.1], and the candidates
    its indexer finds for the request are [p.2] (theorems C03-C26 say which). *)
Definition shard_view (log2 : F → F) (only : bool) (req : SearchReq) (sh : Shard)
    (p : list rop * list IndexedDoc) : Prop :=
  Forall (engine_call only) p.1 ∧
  rrun p.1 (RankerInit [only]) = Some (shRk sh) ∧
  ∃ n, Lookup log2 (shIx sh) (rqTokens req) (rqLabels req) (rqDocIds req) false
         (Some (rqLogic req)) = Some (p.2, n).

(** The scorable hits of one shard. *)
Definition hits (only : bool) (score : IndexedDoc → Iface → list F)
    (p : list rop * list IndexedDoc) : list ScoredDoc :=
  omap (λ d, expected only score (known only p.1 (ixDocId d)) d) p.2.

(** The hits of all shards. *)
Definition all_hits (only : bool) (score : IndexedDoc → Iface → list F)
    (parts : list (list rop * list IndexedDoc)) : list ScoredDoc :=
  mjoin (hits only score <$> parts).

(** All shards answer, in any order. *)
Definition all_arrive (n : nat) (order : list (option nat)) : Prop :=
  order ≡ₚ Some <$> seq 0 n.

(** One receive or deadline per shard; each shard answers at most once. *)
Definition schedule (n : nat) (order : list (option nat)) : Prop :=
  length order = n ∧ NoDup (omap id order) ∧ Forall (λ i, (i < n)%nat) (omap id order).

(** A ranked request (neither count-only nor orderless). *)
Definition ranked (req : SearchReq) : Prop := rqCountOnly req = false ∧ rqOrderless req = false.

Definition same_scores (x y : ScoredDoc) : Prop := score_eq (sdScores x) (sdScores y).

(** The candidates that the ranker drops: unknown, or without scores. *)
Definition is_dropped (only : bool) (score : IndexedDoc → Iface → list F) (ops : list rop)
    (d : IndexedDoc) : bool :=
  match known only ops (ixDocId d) with
  | None => true
  | Some (f, _, _) => match score d f with [] => true | _ => false end
  end.
Definition dropped (only : bool) (score : IndexedDoc → Iface → list F)
    (p : list rop * list IndexedDoc) : list IndexedDoc :=
  filter (λ d, is_dropped only score p.1 d = true) p.2.

(** The same request without a deadline. *)
Definition untimed (req : SearchReq) : SearchReq :=
  mkReq (rqTokens req) (rqLabels req) (rqLogic req) (rqDocIds req) (rqOpts req) 0
    (rqCountOnly req) (rqOrderless req).
Definition no_flag (r : SearchResp) : SearchResp :=
  mkResp (rsTokens r) false (rsNumDocs r) (rsDocs r).
