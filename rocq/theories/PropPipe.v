(** Theorems about the concurrent write pipeline (engine.go Index / RemoveDoc / Flush,
    segment.go, indexer_worker.go, ranker_worker.go). *)
From Verif Require Import ModelPipe SpecIndexer SpecRank SpecRoute SpecPipe ProofIxThms ProofSortBy ProofPipe ProofFlushThms ExampleTools.

(** * C38: the counters account for every request in flight *)
Theorem C38_counters_account_for_requests murmur n only reqsFirst cap nseg progs s :
  1 <= n < 2^32 → pipe_reach murmur n only reqsFirst cap nseg progs s →
  value (sLog s) NumIndexingReqs =
    value (sLog s) NumDocsIndexed + in_flight docs_owed NumIndexingReqs NumDocsIndexed s ∧
  n * value (sLog s) NumRemovingReqs =
    value (sLog s) NumDocsRemoved + in_flight removals_owed NumRemovingReqs NumDocsRemoved s ∧
  n * value (sLog s) NumForceUpdatingReqs =
    value (sLog s) NumDocsForceUpdated + in_flight (forced_owed n) NumForceUpdatingReqs NumDocsForceUpdated s.
Proof. intros Hn. exact (C38_lem murmur n only reqsFirst cap Hn nseg progs s). Qed.
Print Assumptions C38_counters_account_for_requests.

(** Equal counters: no document addition is queued or in a goroutine's hands. *)
Theorem C38_equal_counters_mean_drained murmur n only reqsFirst cap nseg progs s :
  1 <= n < 2^32 → pipe_reach murmur n only reqsFirst cap nseg progs s →
  value (sLog s) NumDocsIndexed <= value (sLog s) NumIndexingReqs ∧
  (value (sLog s) NumIndexingReqs = value (sLog s) NumDocsIndexed →
   (∀ ch m, (ch, m) ∈ sNet s → docs_owed m = 0) ∧
   (∀ p, p ∈ sProcs s → proc_owed docs_owed NumIndexingReqs NumDocsIndexed p = 0)).
Proof.
  intros Hn H. destruct (drained_lem murmur n only reqsFirst cap Hn PDocs nseg progs s H) as [H1 H2].
  change (pK n PDocs) with 1 in *. rewrite Z.mul_1_l in *. exact (conj H1 H2).
Qed.
Print Assumptions C38_equal_counters_mean_drained.
Theorem C38_equal_counters_mean_no_removals murmur n only reqsFirst cap nseg progs s :
  1 <= n < 2^32 → pipe_reach murmur n only reqsFirst cap nseg progs s →
  value (sLog s) NumDocsRemoved <= n * value (sLog s) NumRemovingReqs ∧
  (n * value (sLog s) NumRemovingReqs = value (sLog s) NumDocsRemoved →
   (∀ ch m, (ch, m) ∈ sNet s → removals_owed m = 0) ∧
   (∀ p, p ∈ sProcs s → proc_owed removals_owed NumRemovingReqs NumDocsRemoved p = 0)).
Proof. intros Hn. exact (drained_lem murmur n only reqsFirst cap Hn PRems nseg progs s). Qed.
Print Assumptions C38_equal_counters_mean_no_removals.

(** Executions used in the examples: channels of capacity 1, constant hash functions,
    one segmenter.  With one shard, goroutine 0 is the client, 1 the segmenter, 2 to 5
    the add, remove, rank-add and rank-remove workers. *)
Definition cap1 (_ : chan) : nat := 1.
Definition hash0 (_ : string) : Z := 0.
Definition hash1 (_ : string) : Z := 1.
Definition score1 (_ : IndexedDoc) (_ : Iface) : list F := [f32_of_Z 1].
Definition idxA (force : bool) : ecall := EIndex docA (IOther 1) "x" INil force.
Definition idxB (force : bool) : ecall := EIndex docB (IOther 2) "y" INil force.

(** [P] holds after the schedule [ks]. *)
Definition sched_check murmur n rf progs (ks : list nat) (P : pstate → bool) : bool :=
  match psched murmur n false rf cap1 ks (pipeInit n 1 progs) with Some s => P s | None => false end.
Lemma sched_check_ok murmur n rf progs ks P : sched_check murmur n rf progs ks P = true →
  ∃ s, pipe_reach murmur n false rf cap1 1 progs s ∧ P s = true.
Proof.
  unfold sched_check. destruct (psched _ _ _ _ _ _ _) as [s|] eqn:E; [|done]. intros HP. exists s.
  split; [|done]. by eapply psched_reach.
Qed.
Definition returnedb (s : pstate) : bool :=
  match sProcs s with mkProc _ [] [] _ _ :: _ => true | _ => false end.
Lemma returnedb_ok s : returnedb s = true → returned 0 s.
Proof.
  unfold returnedb. destruct s as [[|[ch [|] [|] r ok] ps] net log]; try done. intros _.
  by exists (mkProc ch [] [] r ok).
Qed.

(** Mid-way through an execution: one document in the indexer, one at the segmenter *)
Example C38_case : ∃ s, pipe_reach hash0 1 false true cap1 1 [[idxA false; idxB true; EFlush]] s ∧
  value (sLog s) NumIndexingReqs = 2 ∧ value (sLog s) NumDocsIndexed = 1 ∧
  in_flight docs_owed NumIndexingReqs NumDocsIndexed s = 1 ∧
  in_flight (forced_owed 1) NumForceUpdatingReqs NumDocsForceUpdated s = 1.
Proof.
  destruct (sched_check_ok hash0 1 true [[idxA false; idxB true; EFlush]] [0; 0; 0; 1; 1; 2; 2; 2; 0; 0; 0; 0]%nat
    (λ s, (value (sLog s) NumIndexingReqs =? 2) && (value (sLog s) NumDocsIndexed =? 1) &&
          (in_flight docs_owed NumIndexingReqs NumDocsIndexed s =? 1) &&
          (in_flight (forced_owed 1) NumForceUpdatingReqs NumDocsForceUpdated s =? 1))) as (s & Hs & H);
    [by vm_compute|].
  rewrite !andb_true_iff, !Z.eqb_eq in H. exists s. tauto.
Qed.

(** * C39: what Flush guarantees to a single client *)
Theorem C39_flushed_writes_are_visible murmur n only reqsFirst cap sortDocs o s0 nseg phases s i :
  1 <= n < 2^32 → valid_sort sortDocs → Init o = Some s0 → Forall good_phase phases →
  pipe_reach murmur n only reqsFirst cap nseg [program phases] s → returned 0 s → 0 <= i < n →
  ∃ ix M, run sortDocs (ixCalls i (sLog s)) s0 = Some ix ∧ shows ix M ∧ clean ix M ∧
    addCache ix = [] ∧ removeCache ix = [] ∧
    ∀ id, M !! id = version murmur n i (program phases) id.
Proof. intros Hn. exact (C39_lem murmur n only reqsFirst cap Hn sortDocs o s0 nseg phases s i). Qed.
Print Assumptions C39_flushed_writes_are_visible.

(** No indexer panics on the way, under any schedule. *)
Theorem C39_no_indexer_panics murmur n only reqsFirst cap sortDocs o s0 nseg phases s i :
  1 <= n < 2^32 → valid_sort sortDocs → Init o = Some s0 → Forall good_phase phases →
  pipe_reach murmur n only reqsFirst cap nseg [program phases] s → 0 <= i < n →
  is_Some (run sortDocs (ixCalls i (sLog s)) s0).
Proof. intros Hn. exact (C39_no_crash_lem murmur n only reqsFirst cap Hn sortDocs o s0 nseg phases s i). Qed.
Print Assumptions C39_no_indexer_panics.

Definition phases2 : list (list ecall) := [[idxA false; idxB true]; [ERemove "a" false; EIndex docC INil "z" INil false]].
Definition sched2 : list nat :=
  [0; 0; 0; 1; 1; 2; 2; 2; 1; 4; 4; 0; 0; 0; 0; 1; 1; 2; 2; 2; 2; 1; 4; 4; 0; 0; 0; 0; 0; 0; 0; 0; 0; 1; 1; 2;
   2; 2; 0; 0; 0; 0; 0; 0; 0; 3; 3; 3; 0; 5; 5; 0; 0; 0; 1; 1; 2; 2; 2; 1; 4; 4; 0; 0; 0; 0; 0; 0; 0; 0; 0; 1;
   1; 2; 2; 2; 0; 0; 0; 0]%nat.
Example C39_case : Forall good_phase phases2 ∧
  (∃ s, pipe_reach hash0 1 false true cap1 1 [program phases2] s ∧ returned 0 s) ∧
  version hash0 1 0 (program phases2) "a" = None ∧ version hash0 1 0 (program phases2) "b" = Some docB ∧
  version hash0 1 0 (program phases2) "c" = Some docC.
Proof.
  split; [|split; [|by vm_compute]].
  - repeat (apply Forall_cons; split); [..|apply Forall_nil; done];
      (split; [|apply (bool_decide_unpack _); by vm_compute]);
      repeat (apply Forall_cons; split); try (apply Forall_nil; done); cbn; try (split; [apply (bool_decide_unpack _); by vm_compute|]); done.
  - destruct (sched_check_ok hash0 1 true [program phases2] sched2 returnedb) as (s & Hs & H); [by vm_compute|].
    exists s. split; [done|]. by apply returnedb_ok.
Qed.

(** * C40: Flush does not wait for the rankers *)
Definition shardIx (i : Z) (s : pstate) : option Indexer := st (optsL 8) (ixCalls i (sLog s)).
Definition shardRk (i : Z) (s : pstate) : option Ranker := rrun (rkCalls i (sLog s)) (RankerInit [false]).
Definition foundIn (i : Z) (s : pstate) (tok : string) : option (list string) :=
  match shardIx i s with Some ix =>
    match Lookup (λ x, x) ix [tok] [] None false None with Some (docs, _) => Some (map ixDocId docs) | None => None end
  | None => None end.
Definition rankedIn (i : Z) (s : pstate) (tok : string) : option (list string) :=
  match shardIx i s, shardRk i s with
  | Some ix, Some rk =>
    match Lookup (λ x, x) ix [tok] [] None false None with
    | Some (docs, _) => match Rank insSortBy rk docs (mkRankOpts score1 false 0 0) false with
                        | Some (out, _) => Some (map sdDocId out) | None => None end
    | None => None end
  | _, _ => None end.
Definition quiescentb (s : pstate) : bool :=
  match sNet s with [] => forallb (λ p, match pActs p, pCalls p with [], [] => true | _, _ => false end) (sProcs s) | _ => false end.
Lemma quiescentb_ok s : quiescentb s = true → quiescent s.
Proof.
  unfold quiescentb, quiescent. destruct (sNet s); [|done]. intros H. split; [done|].
  apply Forall_forall. intros p Hp. rewrite forallb_forall in H. apply elem_of_list_In in Hp. specialize (H p Hp).
  destruct (pActs p), (pCalls p); done.
Qed.

(** Flush has returned; the index has the document, but a ranked search misses it. *)
Theorem C40_flush_ignores_rankers reqsFirst :
  ∃ s, pipe_reach hash0 1 false reqsFirst cap1 1 [[idxA false; EFlush]] s ∧ returned 0 s ∧
    foundIn 0 s "x" = Some ["a"] ∧ rankedIn 0 s "x" = Some [].
Proof.
  destruct (sched_check_ok hash0 1 reqsFirst [[idxA false; EFlush]]
    [0; 0; 0; 1; 1; 2; 2; 2; 1; 0; 0; 0; 0; 0; 0; 0; 0; 0; 1; 1; 2; 2; 2; 0; 0; 0; 0]%nat
    (λ s, returnedb s && bool_decide (foundIn 0 s "x" = Some ["a"]) && bool_decide (rankedIn 0 s "x" = Some [])))
    as (s & Hs & H); [destruct reqsFirst; by vm_compute|].
  rewrite !andb_true_iff, !bool_decide_eq_true in H. destruct H as [[?%returnedb_ok ?] ?]. by exists s.
Qed.
Print Assumptions C40_flush_ignores_rankers.

(** Index, Flush, RemoveDoc, Flush, Index, Flush; all is processed, and the document is
    in the index but not in the ranker: the removal reached the ranker last. *)
Theorem C40_late_removal_wins reqsFirst :
  ∃ s, pipe_reach hash0 1 false reqsFirst cap1 1 [[idxA false; EFlush; ERemove "a" false; EFlush; idxA false; EFlush]] s ∧
    quiescent s ∧ foundIn 0 s "x" = Some ["a"] ∧ rankedIn 0 s "x" = Some [].
Proof.
  destruct (sched_check_ok hash0 1 reqsFirst [[idxA false; EFlush; ERemove "a" false; EFlush; idxA false; EFlush]]
    [0; 0; 0; 1; 1; 2; 2; 2; 1; 4; 4; 0; 0; 0; 0; 0; 0; 0; 0; 0; 1; 1; 2; 2; 2; 0; 0; 0; 0; 0; 0; 0; 3; 3; 3; 0; 0; 0; 0; 0;
     0; 0; 0; 0; 0; 1; 1; 2; 2; 2; 0; 0; 0; 0; 0; 0; 0; 1; 1; 2; 2; 2; 1; 4; 4; 0; 0; 0; 0; 0; 0; 0; 0; 0; 1; 1; 2; 2; 2; 0;
     0; 0; 0; 5; 5]%nat
    (λ s, quiescentb s && bool_decide (foundIn 0 s "x" = Some ["a"]) && bool_decide (rankedIn 0 s "x" = Some [])))
    as (s & Hs & H); [destruct reqsFirst; by vm_compute|].
  rewrite !andb_true_iff, !bool_decide_eq_true in H. destruct H as [[?%quiescentb_ok ?] ?]. by exists s.
Qed.
Print Assumptions C40_late_removal_wins.

(** If no id is used twice (by any client), then after all requests have been processed
    the ranker of the document's shard has exactly what was indexed. *)
Theorem C40_rankers_catch_up murmur n only reqsFirst cap nseg progs s d f ct a fo :
  1 <= n < 2^32 → pipe_reach murmur n only reqsFirst cap nseg progs s → quiescent s →
  EIndex d f ct a fo ∈ mjoin progs → DocId d ≠ "0" → NoDup (omap call_id (mjoin progs)) →
  ∃ rk, rrun (rkCalls (u32 (murmur (String.append (DocId d) ct)) `mod` n) (sLog s)) (RankerInit [only]) = Some rk ∧
    ranker_holds rk (DocId d) (Some f) (if only then None else Some ct) (if only then None else Some a).
Proof. intros Hn. exact (C40_drained_lem murmur n only reqsFirst cap Hn nseg progs s d f ct a fo). Qed.
Print Assumptions C40_rankers_catch_up.
Example C40_case : ∃ s, pipe_reach hash0 1 false true cap1 1 [[idxA false; EFlush]] s ∧ quiescent s ∧
  rankedIn 0 s "x" = Some ["a"].
Proof.
  destruct (sched_check_ok hash0 1 true [[idxA false; EFlush]]
    [0; 0; 0; 1; 1; 2; 2; 2; 1; 0; 0; 0; 0; 0; 0; 0; 0; 0; 1; 1; 2; 2; 2; 0; 0; 0; 0; 4; 4]%nat
    (λ s, quiescentb s && bool_decide (rankedIn 0 s "x" = Some ["a"])))
    as (s & Hs & H); [by vm_compute|].
  rewrite !andb_true_iff, !bool_decide_eq_true in H. destruct H as [?%quiescentb_ok ?]. by exists s.
Qed.

(** * C57: with two clients, Flush can return too early *)
(** Goroutines 0 and 1 are the clients.  Client 0 indexes "a" (shard 1), flushes,
    removes "a", flushes; client 1 removes "b" meanwhile.  Shard 0 handles both
    removals, which makes up for the one that shard 1 has not seen. *)
Theorem C57_flush_returns_early_refuted reqsFirst :
  ∃ s, pipe_reach hash1 2 false reqsFirst cap1 1 [[idxA true; EFlush; ERemove "a" false; EFlush]; [ERemove "b" false]] s ∧
    returned 0 s ∧ foundIn 1 s "x" = Some ["a"] ∧ rankedIn 1 s "x" = Some [] ∧
    (CIxRem 1, MRem 1 "a" false) ∈ sNet s.
Proof.
  destruct (sched_check_ok hash1 2 reqsFirst [[idxA true; EFlush; ERemove "a" false; EFlush]; [ERemove "b" false]]
    [0; 0; 0; 0; 2; 2; 7; 7; 7; 7; 2; 3; 3; 3; 2; 9; 9; 0; 0; 0; 0; 0; 0; 0; 0; 0; 2; 2; 3; 3; 3; 2; 7; 7; 7; 0; 0; 0; 0; 0;
     0; 0; 4; 4; 4; 0; 6; 6; 0; 0; 10; 10; 0; 0; 0; 0; 0; 1; 1; 1; 4; 4; 4; 1; 6; 6; 0; 0; 0; 0; 2; 2; 3; 3; 3; 2; 7; 7; 7;
     0; 0; 0; 0]%nat
    (λ s, returnedb s && bool_decide (foundIn 1 s "x" = Some ["a"]) && bool_decide (rankedIn 1 s "x" = Some []) &&
          match sNet s with [(CIxRem 1, MRem 1 id false)] => bool_decide (id = "a") | _ => false end))
    as (s & Hs & H); [destruct reqsFirst; by vm_compute|].
  rewrite !andb_true_iff, !bool_decide_eq_true in H. destruct H as [[[?%returnedb_ok ?] ?] H]. exists s.
  repeat (split; [done|]). destruct (sNet s) as [|[ch m] net]; [done|].
  destruct ch as [|i|i|i|i]; try done; destruct i as [|[| |]|]; try done.
  destruct m as [c|j d f|j id f|j o]; try done; destruct j as [|[| |]|]; try done.
  destruct f, net; try done. apply bool_decide_eq_true in H. subst id. left.
Qed.
Print Assumptions C57_flush_returns_early_refuted.
