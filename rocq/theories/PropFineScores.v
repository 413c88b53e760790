(** C117 and C118 with the locks of the indexers in view. *)
From Coq Require Import Reals.
From Verif Require Import ModelPipe ModelEngine ModelFlight ModelScoring SpecIndexer SpecSearch SpecRank SpecRoute SpecPipe SpecEngine SpecEnd SpecFine SpecFineScores SpecBM25 SpecScored SpecAccuracy SpecRevise SpecRescored SpecReranked
  ProofIxThms ProofSortBy ProofFineScores ExampleTools PropPipe PropFine.

(** * C117 *)
(** C117 without the assumption that a call of an indexer method is one step: the two workers
    of each shard and searches run through the locks in any order; the phases either add and
    update or remove.  The ranker of each shard is the one of the pipeline. *)
Theorem C117_scores_with_locks murmur n only reqsFirst cap log2 sortDocs sortBy o x0 stale looks nseg phases s shards req order :
  1 <= n < 2^32 → valid_sort sortDocs → valid_sortBy sortBy → Init o = Some x0 → Forall good_phase phases → Forall apart phases →
  fine_reach murmur n only reqsFirst cap log2 sortDocs nseg [program phases] x0 stale looks s → returned 0 (fPipe s) → shards_now only s shards →
  plain_request o req → rescores_proper log2 o (called murmur n (program phases)) (shard_total shards) req →
  all_arrive (length shards) order →
  ∃ full out, Search log2 sortBy req shards order = Some (mkResp (rqTokens req) false (zlen full) (Some out)) ∧
    answers_rescored log2 o n only (called murmur n (program phases)) (shard_total shards) req (quiescent (fPipe s)) full out.
Proof. intros Hn. exact (fine_rescored murmur n only reqsFirst cap Hn log2 sortDocs sortBy o x0 stale looks nseg phases s shards req order). Qed.
Print Assumptions C117_scores_with_locks.

(** * C118 *)
Theorem C118_order_with_locks murmur n only reqsFirst cap log2 sortDocs sortBy o x0 stale looks nseg phases s shards req order p :
  1 <= n < 2^32 → valid_sort sortDocs → valid_sortBy sortBy → Init o = Some x0 → Forall good_phase phases → Forall apart phases →
  fine_reach murmur n only reqsFirst cap log2 sortDocs nseg [program phases] x0 stale looks s → returned 0 (fPipe s) → shards_now only s shards →
  IndexType o = LocsIndex ∨ IndexType o = FrequenciesIndex → BM25Parameters o = Some p → modest p → accurate_log2 log2 →
  modest_history (IndexType o) (called murmur n (program phases)) murmur n (program phases) →
  plain_request o req → ScoringCriteria (rqOpts req) = RankByBM25 → zlen (rqTokens req) <= 2 ^ 20 →
  all_arrive (length shards) order →
  ∃ full out, Search log2 sortBy req shards order = Some (mkResp (rqTokens req) false (zlen full) (Some out)) ∧
    answers_rescored log2 o n only (called murmur n (program phases)) (shard_total shards) req (quiescent (fPipe s)) full out ∧
    reranked (IndexType o) p (called murmur n (program phases)) n req out.
Proof. intros Hn. exact (fine_reranked murmur n only reqsFirst cap Hn log2 sortDocs sortBy o x0 stale looks nseg phases s shards req order p). Qed.
Print Assumptions C118_order_with_locks.


(** ** Example *)
(** The execution of C104_case: "a" and "b" are added, "b" is removed, "a" is updated, with
    searches in between.  The score of "a" for "y" is that of the only document. *)
Definition yReq : SearchReq := mkReq ["y"] [] (mkLogic false false false [] [] []) None (mkRankOpts RankByBM25 false 0 0) 0 false false.
Definition shardsF : list Shard :=
  match rrun (rkCalls 0 (sLog (fPipe endF))) (RankerInit [false]) with
  | Some rk => [ModelEngine.mkShard (index_of (sh1 endF)) rk]
  | None => []
  end.
Example C117_case_with_locks : shards_now false endF shardsF ∧ plain_request (optsL 8) yReq ∧
  shard_total shardsF 0 = f32_of_Z 2 ∧
  match Search (λ x, x) insSortBy yReq shardsF [Some 0%nat] with
  | Some r => (map (λ h, (sdDocId h, sdScores h)) <$> rsDocs r, rsNumDocs r)
  | None => (None, 0)
  end = (Some [("a", [bm25_term (λ x, x) (mkBM25 (f32_of_Z 2) (f32_of_Z 1)) 1 1 (f32_of_Z 1) (f32_of_Z 2) (f32_div (f32_of_Z 2) (f32_of_Z 1))])], 1).
Proof.
  assert (E : fShards endF = [sh1 endF]) by (apply sh1_ok; vm_compute; reflexivity).
  split. { split; [rewrite E; unfold shardsF; by vm_compute|]. intros i sh. unfold shardsF.
    destruct (rrun (rkCalls 0 (sLog (fPipe endF))) (RankerInit [false])) as [rk|] eqn:Er; [|done].
    destruct i as [|i]; [|done]. intros [= <-]. exact Er. }
  split; [by repeat split|]. split; by vm_compute.
Qed.
