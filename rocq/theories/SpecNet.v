(** Specification vocabulary for the servers. *)
From Verif Require Import ModelNet SpecRank SpecEngine.

(** x is shown before y: later, or of the same time with a greater id *)
Definition newer (x y : Text) : Prop :=
  atTs (txAttri y) < atTs (txAttri x) ∨
  (atTs (txAttri x) = atTs (txAttri y) ∧ slt (txId y) (txId x)).
Definition newest_first (l : list Text) : Prop := StronglySorted (λ x y, ¬ newer y x) l.

(** the offset and limit in force: those of the configuration if no limit is given *)
Definition in_force (cf : NetConf) (off max off' max' : Z) : Prop :=
  (max = 0 ∧ off' = cfOffset cf ∧ max' = cfMax cf) ∨ (max ≠ 0 ∧ off' = off ∧ max' = max).

(** t is what is sent of the document d, with or without scores and full attributes *)
Definition shows (asAttri : Iface → option Attri) (rpc : bool) (d : ScoredDoc) (t : Text) : Prop :=
  txId t = sdDocId d ∧ txContent t = sdContent d ∧ txScore t = (if rpc then [] else sdScores d) ∧
  ∃ a, asAttri (sdAttri d) = Some a ∧
    txAttri t = if rpc then mkAttri "" "" (atTime a) (atTs a) else a.

(** the answer of the engine to the request a server makes *)
Definition engineFor (log2 : F → F) (sortBy : (ScoredDoc → ScoredDoc → bool) → list ScoredDoc → list ScoredDoc)
    (score : IndexedDoc → Iface → list F) (toks : list string) (ids : option (gset string))
    (shards : list Shard) (order : list (option nat)) (logic : Logic) (off max : Z) : option SearchResp :=
  Search log2 sortBy (comReq score toks logic ids off max) shards order.
Definition noLogic : Logic := mkLogic false false false [] [] [].

(** some worker goroutine of the engine panics while it computes its answer: nothing
    recovers it, the process ends *)
Definition workerDies (log2 : F → F) (sortBy : (ScoredDoc → ScoredDoc → bool) → list ScoredDoc → list ScoredDoc)
    (req : SearchReq) (shards : list Shard) : Prop :=
  Exists (λ sh, shardReply log2 sortBy req sh = None) shards.
