(** Theorems about the order of searches by BM25 after updates and removals. *)
From Coq Require Import Reals Lra Floats.SpecFloat.
From Verif Require Import ModelSession ModelPipe ModelEngine ModelFlight ModelScoring SpecIndexer SpecSearch SpecLogic SpecRank SpecRoute SpecPipe SpecSegment SpecEngine SpecFlight
  SpecStore SpecEnd SpecFits SpecBM25 SpecUpdate SpecLife SpecClose SpecWhole SpecSession SpecScored SpecAccuracy SpecShorter SpecRevise SpecRescored SpecReranked
  ProofIxThms ProofSortBy ProofFlushThms ProofAccuracy ProofReranked ExampleTools PropPipe PropEngine PropEnd PropWhole PropRevise PropScored PropRescored.

(** * C118: the order after updates and removals *)
(** One client that calls Flush between updates.  Once its last Flush has returned, a search
    ranked by BM25 gives each entry the exact score of the current version among the current
    documents of its shard, up to rounding, and orders them so. *)
Theorem C118_order_after_revisions murmur n only reqsFirst cap sortDocs sortBy o s0 nseg phases s shards log2 req order p :
  1 <= n < 2^32 → valid_sort sortDocs → valid_sortBy sortBy → Init o = Some s0 →
  pipe_reach murmur n only reqsFirst cap nseg [program phases] s → returned 0 s → Forall good_phase phases →
  engine_shards sortDocs s0 only n s shards → plain_request o req →
  ScoringCriteria (rqOpts req) = RankByBM25 → zlen (rqTokens req) <= 2 ^ 20 →
  IndexType o = LocsIndex ∨ IndexType o = FrequenciesIndex → BM25Parameters o = Some p → modest p → accurate_log2 log2 →
  modest_history (IndexType o) (called murmur n (program phases)) murmur n (program phases) → all_arrive (length shards) order →
  ∃ full out, Search log2 sortBy req shards order = Some (mkResp (rqTokens req) false (zlen full) (Some out)) ∧
    answers_rescored log2 o n only (called murmur n (program phases)) (shard_total shards) req (quiescent s) full out ∧
    reranked (IndexType o) p (called murmur n (program phases)) n req out.
Proof. intros Hn. exact (search_reranked murmur n only reqsFirst cap Hn sortDocs sortBy o s0 nseg phases s shards log2 req order p). Qed.
Print Assumptions C118_order_after_revisions.
Theorem C118_order_of_searches_after_revisions murmur n only reqsFirst cap sortDocs sortBy o s0 nseg phases s shards log2 nn ccap
    clients tl tr ls fs a req t0 p :
  1 <= n < 2^32 → valid_sort sortDocs → valid_sortBy sortBy → Init o = Some s0 →
  pipe_reach murmur n only reqsFirst cap nseg [program phases] s → returned 0 s → Forall good_phase phases →
  engine_shards sortDocs s0 only n s shards →
  frun log2 sortBy nn ccap ls (fInit nn clients tl tr shards) = Some fs → Forall read_only ls → length shards = nn →
  a ∈ fAnswers fs → fReqs fs !! faSearch a = Some (req, t0) → plain_request o req →
  ScoringCriteria (rqOpts req) = RankByBM25 → zlen (rqTokens req) <= 2 ^ 20 →
  IndexType o = LocsIndex ∨ IndexType o = FrequenciesIndex → BM25Parameters o = Some p → modest p → accurate_log2 log2 →
  modest_history (IndexType o) (called murmur n (program phases)) murmur n (program phases) →
  ∃ full out, faResp a = mkResp (rqTokens req) false (zlen full) (Some out) ∧
    answers_rescored log2 o n only (called murmur n (program phases)) (shard_total shards) req (quiescent s) full out ∧
    reranked (IndexType o) p (called murmur n (program phases)) n req out.
Proof.
  intros Hn. exact (flight_reranked murmur n only reqsFirst cap Hn sortDocs sortBy o s0 nseg phases s shards log2 nn ccap
    clients tl tr ls fs a req t0 p).
Qed.
Print Assumptions C118_order_of_searches_after_revisions.
(** In a session on existing files *)
Theorem C118_order_in_a_session murmur n only reqsFirst cap accepts encode nS reqsFirst2 iter decode X stop o
    sortDocs sortBy io s0 nseg recs dbs ph1 rest s shards log2 req order p :
  1 <= n < 2^32 → 1 <= nS < 2^32 → valid_iter iter → valid_range X →
  valid_sort sortDocs → valid_sortBy sortBy → Init io = Some s0 → placed murmur nS dbs → no_zero nS dbs →
  recoverProgs iter decode X stop o nS dbs = Some recs →
  Forall (λ ph, good_phase (pipeProg ph)) (ph1 :: rest) → fresh_ids murmur nS dbs ph1 →
  session_reach murmur n only reqsFirst cap accepts encode nS reqsFirst2 nseg recs [wprogram (ph1 :: rest)] s → wreturned 0 s →
  engine_shards sortDocs s0 only n (pipePart s) shards → plain_request io req →
  ScoringCriteria (rqOpts req) = RankByBM25 → zlen (rqTokens req) <= 2 ^ 20 →
  IndexType io = LocsIndex ∨ IndexType io = FrequenciesIndex → BM25Parameters io = Some p → modest p → accurate_log2 log2 →
  modest_history (IndexType io) (in_session murmur n nS decode X stop o dbs (wprogram (ph1 :: rest))) murmur n (mjoin recs ++ pipeProg (wprogram (ph1 :: rest))) →
  all_arrive (length shards) order →
  ∃ full out, Search log2 sortBy req shards order = Some (mkResp (rqTokens req) false (zlen full) (Some out)) ∧
    answers_rescored log2 io n only (in_session murmur n nS decode X stop o dbs (wprogram (ph1 :: rest))) (shard_total shards) req (pipe_rest s) full out ∧
    reranked (IndexType io) p (in_session murmur n nS decode X stop o dbs (wprogram (ph1 :: rest))) n req out.
Proof.
  intros Hn HnS Hit HX Hv Hvb HI Hpl Hz Hp Hg Hf Hr Hret Hsh.
  exact (session_search_reranked murmur n only reqsFirst cap Hn accepts encode nS HnS reqsFirst2 iter Hit decode X stop o HX
    sortDocs io s0 nseg recs dbs ph1 rest s shards Hv HI Hpl Hz Hp Hg Hf Hr Hret Hsh sortBy log2 req order p Hvb).
Qed.
Print Assumptions C118_order_in_a_session.
Theorem C118_order_of_searches_in_a_session murmur n only reqsFirst cap accepts encode nS reqsFirst2 iter decode X stop o
    sortDocs sortBy io s0 nseg recs dbs ph1 rest s shards log2 nn ccap clients tl tr ls fs a req t0 p :
  1 <= n < 2^32 → 1 <= nS < 2^32 → valid_iter iter → valid_range X →
  valid_sort sortDocs → valid_sortBy sortBy → Init io = Some s0 → placed murmur nS dbs → no_zero nS dbs →
  recoverProgs iter decode X stop o nS dbs = Some recs →
  Forall (λ ph, good_phase (pipeProg ph)) (ph1 :: rest) → fresh_ids murmur nS dbs ph1 →
  session_reach murmur n only reqsFirst cap accepts encode nS reqsFirst2 nseg recs [wprogram (ph1 :: rest)] s → wreturned 0 s →
  engine_shards sortDocs s0 only n (pipePart s) shards →
  frun log2 sortBy nn ccap ls (fInit nn clients tl tr shards) = Some fs → Forall read_only ls → length shards = nn →
  a ∈ fAnswers fs → fReqs fs !! faSearch a = Some (req, t0) → plain_request io req →
  ScoringCriteria (rqOpts req) = RankByBM25 → zlen (rqTokens req) <= 2 ^ 20 →
  IndexType io = LocsIndex ∨ IndexType io = FrequenciesIndex → BM25Parameters io = Some p → modest p → accurate_log2 log2 →
  modest_history (IndexType io) (in_session murmur n nS decode X stop o dbs (wprogram (ph1 :: rest))) murmur n (mjoin recs ++ pipeProg (wprogram (ph1 :: rest))) →
  ∃ full out, faResp a = mkResp (rqTokens req) false (zlen full) (Some out) ∧
    answers_rescored log2 io n only (in_session murmur n nS decode X stop o dbs (wprogram (ph1 :: rest))) (shard_total shards) req (pipe_rest s) full out ∧
    reranked (IndexType io) p (in_session murmur n nS decode X stop o dbs (wprogram (ph1 :: rest))) n req out.
Proof.
  intros Hn HnS Hit HX Hv Hvb HI Hpl Hz Hp Hg Hf Hr Hret Hsh.
  exact (session_flight_reranked murmur n only reqsFirst cap Hn accepts encode nS HnS reqsFirst2 iter Hit decode X stop o HX
    sortDocs io s0 nseg recs dbs ph1 rest s shards Hv HI Hpl Hz Hp Hg Hf Hr Hret Hsh sortBy log2 nn ccap clients tl tr ls fs a req t0 p Hvb).
Qed.
Print Assumptions C118_order_of_searches_in_a_session.

(** Three documents, then "c" gets longer and "a" is removed.  Before, "c" was the first; now
    it stands behind "b", which is shorter and has the word as often. *)
Definition docC2 : DocIndex := mkDoc "c" (f32_of_Z 4) [kw "x" [0]].
Definition rkFirst : list ecall := [EIndex docA (IOther 1) "old" INil false; idxB true; EIndex docC (IOther 3) "z" INil false].
Definition rkPhases : list (list ecall) := [rkFirst; [EIndex docC2 (IOther 4) "long" INil false; ERemove "a" false]].
Definition zlRk (d : DocIndex) : Z := if decide (d = docC2) then 4 else if decide (d = docA) then 3 else if seqb (DocId d) "c" then 1 else 2.
Definition rkIds (phases : list (list ecall)) : list string :=
  match bmSearch (revShards (resRun phases)) with Some (l, _) => map fst l | None => [] end.
Example C118_case : ∃ s0, let s := resRun rkPhases in Init (optsF 2) = Some s0 ∧
  pipe_reach hash0 1 false true PropPipe.cap1 2 [program rkPhases] s ∧ returned 0 s ∧ Forall good_phase rkPhases ∧
  engine_shards stableSort s0 false 1 s (revShards s) ∧ plain_request (optsF 2) bmReq ∧ ScoringCriteria (rqOpts bmReq) = RankByBM25 ∧
  BM25Parameters (optsF 2) = Some (mkBM25 (f32_of_Z 2) (f32_of_Z 1)) ∧ modest (mkBM25 (f32_of_Z 2) (f32_of_Z 1)) ∧ accurate_log2 floorLog2 ∧
  current_docs (called hash0 1 (program rkPhases)) 0 [docB; docC2] ∧
  modest_history (IndexType (optsF 2)) (called hash0 1 (program rkPhases)) hash0 1 (program rkPhases) ∧
  (rkIds [rkFirst], rkIds rkPhases) = (["c"; "a"; "b"], ["b"; "c"]).
Proof.
  destruct (Init (optsF 2)) as [s0|] eqn:EI; [|done]. exists s0. cbv zeta. split; [reflexivity|].
  split; [unfold resRun; apply pRun_reach|]. split; [apply returnedb_ok; by vm_compute|].
  split. { repeat (apply Forall_cons; split); [..|apply Forall_nil; done];
      (split; [|apply (bool_decide_unpack _); by vm_compute]);
      repeat (apply Forall_cons; split); try (apply Forall_nil; done); cbn; try (split; [apply (bool_decide_unpack _); by vm_compute|]); done. }
  split; [apply revShards_ok; [exact EI|by vm_compute]|]. split; [by repeat split|]. split; [done|]. split; [done|].
  split; [by apply modest_int|]. split; [exact floorLog2_accurate|].
  assert (HC : current_docs (called hash0 1 (program rkPhases)) 0 [docB; docC2]).
  { split; [apply (bool_decide_unpack _); by vm_compute|]. intros d. cbn. split.
    - rewrite !elem_of_cons, elem_of_nil. intros [->|[->|[]]].
      + exists (IOther 2), "y", INil, true, [EIndex docA (IOther 1) "old" INil false],
          [EIndex docC (IOther 3) "z" INil false; EFlush; EIndex docC2 (IOther 4) "long" INil false; ERemove "a" false; EFlush].
        split; [done|]. split; [done|]. by repeat constructor.
      + exists (IOther 4), "long", INil, false, (rkFirst ++ [EFlush]), [ERemove "a" false; EFlush]. split; [done|]. split; [done|]. by repeat constructor.
    - intros (f & ct & a & fo & b & af & E & _ & HF). rewrite Forall_forall in HF.
      destruct b as [|? [|? [|? [|? [|? [|? [|? b]]]]]]]; cbn in E; try discriminate E; injection E; intros; subst.
      + specialize (HF (ERemove "a" false)). discriminate HF. do 4 right. left.
      + left.
      + specialize (HF (EIndex docC2 (IOther 4) "long" INil false)). discriminate HF. right. left.
      + right. left.
      + by destruct b. }
  split; [done|]. split; [|by vm_compute].
  intros i Hi. assert (i = 0) as -> by lia. split.
  - exists zlRk. split; [|by vm_compute]. intros d Hd.
    assert (shard_docs hash0 1 0 (program rkPhases) = [docA; docB; docC; docC2]) as E by (by vm_compute). rewrite E in Hd.
    revert d Hd. apply Forall_forall. repeat constructor; by vm_compute.
  - intros D HD _. pose proof (current_perm _ _ _ _ HD HC) as HP.
    assert (Hsub : ∀ d, d ∈ D → d ∈ [docB; docC2]) by (intros d; by rewrite HP).
    assert (zlen D = 2) as El by (unfold zlen; by rewrite HP). split; [by rewrite El|]. split.
    + exists zlRk. split; [intros d Hd%Hsub; revert d Hd; apply Forall_forall; repeat constructor; by vm_compute|].
      assert (foldr Z.add 0 (zlRk <$> D) = 6) as ->; [|done].
      assert (Hs : ∀ l l', l ≡ₚ l' → foldr Z.add 0 (zlRk <$> l) = foldr Z.add 0 (zlRk <$> l')); [|by rewrite (Hs _ _ HP)].
      induction 1 as [|x l1 l2 _ IH|x y l|l1 l2 l3 _ IH1 _ IH2]; [done| | |congruence]; rewrite !fmap_cons; cbn [foldr]; [by rewrite IH|lia].
    + intros d kw Hd%Hsub Hkw. change (IndexType (optsF 2) =? LocsIndex) with false. cbv iota.
      revert kw Hkw. apply Forall_forall. revert d Hd. apply Forall_forall.
      repeat (apply Forall_cons; split); try (by apply Forall_nil); cbn [Frequency kw docB docC2]; by apply modest_freq_int.
Qed.
