(** Theorems about the scores of searches after updates and removals. *)
From Verif Require Import ModelSession ModelPipe ModelEngine ModelFlight ModelScoring SpecIndexer SpecSearch SpecLogic SpecRank SpecRoute SpecPipe SpecSegment SpecEngine SpecFlight
  SpecStore SpecEnd SpecFits SpecBM25 SpecUpdate SpecLife SpecClose SpecWhole SpecSession SpecScored SpecRevise SpecRescored
  ProofIxThms ProofSortBy ProofFlushThms ProofRescored ExampleTools PropPipe PropEngine PropEnd PropBM25 PropWhole PropRevise PropScored.

(** * C117: the scores after updates and removals *)
(** One client that calls Flush between updates.  Once its last Flush has returned, the
    scoring function is told what it would be told if nothing but the current versions had
    ever been indexed. *)
Theorem C117_scores_after_revisions murmur n only reqsFirst cap sortDocs sortBy o s0 nseg phases s shards log2 req order :
  1 <= n < 2^32 → valid_sort sortDocs → valid_sortBy sortBy → Init o = Some s0 →
  pipe_reach murmur n only reqsFirst cap nseg [program phases] s → returned 0 s → Forall good_phase phases →
  engine_shards sortDocs s0 only n s shards → plain_request o req →
  rescores_proper log2 o (called murmur n (program phases)) (shard_total shards) req → all_arrive (length shards) order →
  ∃ full out, Search log2 sortBy req shards order = Some (mkResp (rqTokens req) false (zlen full) (Some out)) ∧
    answers_rescored log2 o n only (called murmur n (program phases)) (shard_total shards) req (quiescent s) full out.
Proof. intros Hn. exact (rescored_search murmur n only reqsFirst cap Hn sortDocs sortBy o s0 nseg phases s shards log2 req order). Qed.
Print Assumptions C117_scores_after_revisions.
Theorem C117_scores_of_searches_after_revisions murmur n only reqsFirst cap sortDocs sortBy o s0 nseg phases s shards log2 nn ccap
    clients tl tr ls fs a req t0 :
  1 <= n < 2^32 → valid_sort sortDocs → valid_sortBy sortBy → Init o = Some s0 →
  pipe_reach murmur n only reqsFirst cap nseg [program phases] s → returned 0 s → Forall good_phase phases →
  engine_shards sortDocs s0 only n s shards →
  frun log2 sortBy nn ccap ls (fInit nn clients tl tr shards) = Some fs → Forall read_only ls → length shards = nn →
  a ∈ fAnswers fs → fReqs fs !! faSearch a = Some (req, t0) → plain_request o req →
  rescores_proper log2 o (called murmur n (program phases)) (shard_total shards) req →
  ∃ full out, faResp a = mkResp (rqTokens req) false (zlen full) (Some out) ∧
    answers_rescored log2 o n only (called murmur n (program phases)) (shard_total shards) req (quiescent s) full out.
Proof.
  intros Hn. exact (rescored_flight murmur n only reqsFirst cap Hn sortDocs sortBy o s0 nseg phases s shards log2 nn ccap
    clients tl tr ls fs a req t0).
Qed.
Print Assumptions C117_scores_of_searches_after_revisions.
(** The length that the BM25 formula divides by the number of documents is the sum over the
    current versions: what updates and removals take away is exactly what was added. *)
Theorem C117_lengths_add_up_after_revisions murmur n only reqsFirst cap sortDocs o s0 nseg phases s shards i D :
  1 <= n < 2^32 → valid_sort sortDocs → Init o = Some s0 →
  pipe_reach murmur n only reqsFirst cap nseg [program phases] s → returned 0 s → Forall good_phase phases →
  engine_shards sortDocs s0 only n s shards → 0 <= i < n → current_docs (called murmur n (program phases)) i D →
  total_now (shard_total shards i) (shard_docs murmur n i (program phases)) D.
Proof.
  intros Hn Hv HI Hr Hret HG Hsh. exact (rescored_totals murmur n only reqsFirst cap Hn sortDocs o s0 nseg phases s shards Hv HI Hr Hret HG Hsh i D).
Qed.
Print Assumptions C117_lengths_add_up_after_revisions.
(** With a criterion that makes numbers from numbers, such as the default one, no further
    condition on the scoring is needed. *)
Theorem C117_usual_scores_after_revisions murmur n only reqsFirst cap sortDocs sortBy o s0 nseg phases s shards log2 req order :
  1 <= n < 2^32 → valid_sort sortDocs → valid_sortBy sortBy → Init o = Some s0 →
  pipe_reach murmur n only reqsFirst cap nseg [program phases] s → returned 0 s → Forall good_phase phases →
  engine_shards sortDocs s0 only n s shards → plain_request o req →
  sane_scoring (ScoringCriteria (rqOpts req)) → usual_log2 log2 → usual_calls o murmur n (program phases) → all_arrive (length shards) order →
  ∃ full out, Search log2 sortBy req shards order = Some (mkResp (rqTokens req) false (zlen full) (Some out)) ∧
    answers_rescored log2 o n only (called murmur n (program phases)) (shard_total shards) req (quiescent s) full out.
Proof. intros Hn. exact (sane_rescored_search murmur n only reqsFirst cap Hn sortDocs sortBy o s0 nseg phases s shards log2 req order). Qed.
Print Assumptions C117_usual_scores_after_revisions.
Theorem C117_usual_scores_of_searches_after_revisions murmur n only reqsFirst cap sortDocs sortBy o s0 nseg phases s shards log2 nn ccap
    clients tl tr ls fs a req t0 :
  1 <= n < 2^32 → valid_sort sortDocs → valid_sortBy sortBy → Init o = Some s0 →
  pipe_reach murmur n only reqsFirst cap nseg [program phases] s → returned 0 s → Forall good_phase phases →
  engine_shards sortDocs s0 only n s shards →
  frun log2 sortBy nn ccap ls (fInit nn clients tl tr shards) = Some fs → Forall read_only ls → length shards = nn →
  a ∈ fAnswers fs → fReqs fs !! faSearch a = Some (req, t0) → plain_request o req →
  sane_scoring (ScoringCriteria (rqOpts req)) → usual_log2 log2 → usual_calls o murmur n (program phases) →
  ∃ full out, faResp a = mkResp (rqTokens req) false (zlen full) (Some out) ∧
    answers_rescored log2 o n only (called murmur n (program phases)) (shard_total shards) req (quiescent s) full out.
Proof.
  intros Hn. exact (sane_rescored_flight murmur n only reqsFirst cap Hn sortDocs sortBy o s0 nseg phases s shards log2 nn ccap
    clients tl tr ls fs a req t0).
Qed.
Print Assumptions C117_usual_scores_of_searches_after_revisions.
(** In a session on existing files: the documents of the files count as if they had been
    indexed first. *)
Theorem C117_scores_in_a_session murmur n only reqsFirst cap accepts encode nS reqsFirst2 iter decode X stop o
    sortDocs sortBy io s0 nseg recs dbs ph1 rest s shards log2 req order :
  1 <= n < 2^32 → 1 <= nS < 2^32 → valid_iter iter → valid_range X →
  valid_sort sortDocs → valid_sortBy sortBy → Init io = Some s0 → placed murmur nS dbs → no_zero nS dbs →
  recoverProgs iter decode X stop o nS dbs = Some recs →
  Forall (λ ph, good_phase (pipeProg ph)) (ph1 :: rest) → fresh_ids murmur nS dbs ph1 →
  session_reach murmur n only reqsFirst cap accepts encode nS reqsFirst2 nseg recs [wprogram (ph1 :: rest)] s → wreturned 0 s →
  engine_shards sortDocs s0 only n (pipePart s) shards → plain_request io req →
  rescores_proper log2 io (in_session murmur n nS decode X stop o dbs (wprogram (ph1 :: rest))) (shard_total shards) req →
  all_arrive (length shards) order →
  ∃ full out, Search log2 sortBy req shards order = Some (mkResp (rqTokens req) false (zlen full) (Some out)) ∧
    answers_rescored log2 io n only (in_session murmur n nS decode X stop o dbs (wprogram (ph1 :: rest))) (shard_total shards) req (pipe_rest s) full out.
Proof.
  intros Hn HnS Hit HX Hv Hvb HI Hpl Hz Hp Hg Hf Hr Hret Hsh.
  exact (rses_search murmur n only reqsFirst cap Hn accepts encode nS HnS reqsFirst2 iter Hit decode X stop o HX
    sortDocs io s0 nseg recs dbs ph1 rest s shards Hv HI Hpl Hz Hp Hg Hf Hr Hret Hsh sortBy log2 req order Hvb).
Qed.
Print Assumptions C117_scores_in_a_session.
Theorem C117_usual_scores_in_a_session murmur n only reqsFirst cap accepts encode nS reqsFirst2 iter decode X stop o
    sortDocs sortBy io s0 nseg recs dbs ph1 rest s shards log2 req order :
  1 <= n < 2^32 → 1 <= nS < 2^32 → valid_iter iter → valid_range X →
  valid_sort sortDocs → valid_sortBy sortBy → Init io = Some s0 → placed murmur nS dbs → no_zero nS dbs →
  recoverProgs iter decode X stop o nS dbs = Some recs →
  Forall (λ ph, good_phase (pipeProg ph)) (ph1 :: rest) → fresh_ids murmur nS dbs ph1 →
  session_reach murmur n only reqsFirst cap accepts encode nS reqsFirst2 nseg recs [wprogram (ph1 :: rest)] s → wreturned 0 s →
  engine_shards sortDocs s0 only n (pipePart s) shards → plain_request io req →
  sane_scoring (ScoringCriteria (rqOpts req)) → usual_log2 log2 →
  usual_calls io murmur n (mjoin recs ++ pipeProg (wprogram (ph1 :: rest))) → all_arrive (length shards) order →
  ∃ full out, Search log2 sortBy req shards order = Some (mkResp (rqTokens req) false (zlen full) (Some out)) ∧
    answers_rescored log2 io n only (in_session murmur n nS decode X stop o dbs (wprogram (ph1 :: rest))) (shard_total shards) req (pipe_rest s) full out.
Proof.
  intros Hn HnS Hit HX Hv Hvb HI Hpl Hz Hp Hg Hf Hr Hret Hsh.
  exact (rses_sane_search murmur n only reqsFirst cap Hn accepts encode nS HnS reqsFirst2 iter Hit decode X stop o HX
    sortDocs io s0 nseg recs dbs ph1 rest s shards Hv HI Hpl Hz Hp Hg Hf Hr Hret Hsh sortBy log2 req order Hvb).
Qed.
Print Assumptions C117_usual_scores_in_a_session.
Theorem C117_scores_of_searches_in_a_session murmur n only reqsFirst cap accepts encode nS reqsFirst2 iter decode X stop o
    sortDocs sortBy io s0 nseg recs dbs ph1 rest s shards log2 nn ccap clients tl tr ls fs a req t0 :
  1 <= n < 2^32 → 1 <= nS < 2^32 → valid_iter iter → valid_range X →
  valid_sort sortDocs → valid_sortBy sortBy → Init io = Some s0 → placed murmur nS dbs → no_zero nS dbs →
  recoverProgs iter decode X stop o nS dbs = Some recs →
  Forall (λ ph, good_phase (pipeProg ph)) (ph1 :: rest) → fresh_ids murmur nS dbs ph1 →
  session_reach murmur n only reqsFirst cap accepts encode nS reqsFirst2 nseg recs [wprogram (ph1 :: rest)] s → wreturned 0 s →
  engine_shards sortDocs s0 only n (pipePart s) shards →
  frun log2 sortBy nn ccap ls (fInit nn clients tl tr shards) = Some fs → Forall read_only ls → length shards = nn →
  a ∈ fAnswers fs → fReqs fs !! faSearch a = Some (req, t0) → plain_request io req →
  rescores_proper log2 io (in_session murmur n nS decode X stop o dbs (wprogram (ph1 :: rest))) (shard_total shards) req →
  ∃ full out, faResp a = mkResp (rqTokens req) false (zlen full) (Some out) ∧
    answers_rescored log2 io n only (in_session murmur n nS decode X stop o dbs (wprogram (ph1 :: rest))) (shard_total shards) req (pipe_rest s) full out.
Proof.
  intros Hn HnS Hit HX Hv Hvb HI Hpl Hz Hp Hg Hf Hr Hret Hsh.
  exact (rses_flight murmur n only reqsFirst cap Hn accepts encode nS HnS reqsFirst2 iter Hit decode X stop o HX
    sortDocs io s0 nseg recs dbs ph1 rest s shards Hv HI Hpl Hz Hp Hg Hf Hr Hret Hsh sortBy log2 nn ccap clients tl tr ls fs a req t0 Hvb).
Qed.
Print Assumptions C117_scores_of_searches_in_a_session.

(** Three documents, then "a" gets other words and another length and "b" is removed: the
    score of "c" is that of one of two documents of the lengths 1 and 2, not that of one of
    three of the lengths 3, 2 and 1, as before. *)
Definition resFirst : list ecall := [EIndex docA (IOther 1) "old" INil false; idxB true; EIndex docC (IOther 3) "z" INil false].
Definition resPhases : list (list ecall) := [resFirst; [EIndex docA2 (IOther 2) "new" INil false; ERemove "b" false]].
Definition resRun (phases : list (list ecall)) : pstate := pRun hash0 1 true [6; 5; 4; 3; 2; 1; 0]%nat 400 (pipeInit 1 2 [program phases]).
(** the score for [tf] places in a document of the length [len], in a shard with [N]
    documents of the length [total], [df] of which have the word *)
Definition rsOf (N df total tf len : Z) : F :=
  bm25_term log2c (mkBM25 (f32_of_Z 2) (f32_of_Z 1)) N df (f32_of_Z tf) (f32_of_Z len) (f32_div (f32_of_Z total) (f32_of_Z N)).
Definition zlRes (d : DocIndex) : Z := if decide (d = docA) then 3 else if seqb (DocId d) "c" then 1 else 2.
Example C117_case : ∃ s0, let s := resRun resPhases in Init (optsF 2) = Some s0 ∧
  pipe_reach hash0 1 false true PropPipe.cap1 2 [program resPhases] s ∧ returned 0 s ∧ quiescent s ∧ Forall good_phase resPhases ∧
  engine_shards stableSort s0 false 1 s (revShards s) ∧ plain_request (optsF 2) bmReq ∧ sane_scoring (ScoringCriteria (rqOpts bmReq)) ∧
  usual_log2 log2c ∧ usual_calls (optsF 2) hash0 1 (program resPhases) ∧
  current_docs (called hash0 1 (program resPhases)) 0 [docA2; docC] ∧ shard_docs hash0 1 0 (program resPhases) = [docA; docB; docC; docA2] ∧
  shard_total (revShards s) 0 = f32_of_Z 3 ∧
  bmSearch (revShards s) = Some ([("c", [rsOf 2 1 3 1 1])], 1) ∧
  bmSearch (revShards (resRun [resFirst])) = Some ([("c", [rsOf 3 3 6 1 1]); ("a", [rsOf 3 3 6 2 3]); ("b", [rsOf 3 3 6 1 2])], 3).
Proof.
  destruct (Init (optsF 2)) as [s0|] eqn:EI; [|done]. exists s0. cbv zeta. split; [reflexivity|].
  split; [unfold resRun; apply pRun_reach|]. split; [apply returnedb_ok; by vm_compute|]. split; [apply quiescentb_ok; by vm_compute|].
  split. { repeat (apply Forall_cons; split); [..|apply Forall_nil; done];
      (split; [|apply (bool_decide_unpack _); by vm_compute]);
      repeat (apply Forall_cons; split); try (apply Forall_nil; done); cbn; try (split; [apply (bool_decide_unpack _); by vm_compute|]); done. }
  split; [apply revShards_ok; [exact EI|by vm_compute]|]. split; [by repeat split|].
  split. { intros x f [H _]. by constructor; [|constructor]. }
  split; [exact log2c_usual|].
  split. { assert (Hin : ∀ d f ct a fo, EIndex d f ct a fo ∈ program resPhases → d ∈ [docA; docB; docC; docA2]).
    { intros d f ct a fo Hc. cbn in Hc. rewrite !elem_of_cons in Hc. rewrite !elem_of_cons.
      destruct Hc as [Hc|[Hc|[Hc|[Hc|[Hc|[Hc|[Hc|Hc]]]]]]]; [injection Hc; intros; subst; tauto|injection Hc; intros; subst; tauto|
        injection Hc; intros; subst; tauto|done|injection Hc; intros; subst; tauto|done|done|by apply elem_of_nil in Hc]. }
    split; [intros p [= <-]; by vm_compute|]. split; [done|].
    split. { intros d f ct a fo Hd%Hin. revert d Hd. apply Forall_forall. repeat constructor. }
    exists zlRes. split.
    { intros d f ct a fo Hd%Hin. revert d Hd. apply Forall_forall. repeat constructor; by vm_compute. }
    intros i Hi'. assert (i = 0) as -> by lia. by vm_compute. }
  split. { split; [apply (bool_decide_unpack _); by vm_compute|]. intros d. cbn. split.
    - rewrite !elem_of_cons, elem_of_nil. intros [->|[->|[]]].
      + exists (IOther 2), "new", INil, false, (resFirst ++ [EFlush]), [ERemove "b" false; EFlush]. split; [done|]. split; [done|]. by repeat constructor.
      + exists (IOther 3), "z", INil, false, [EIndex docA (IOther 1) "old" INil false; idxB true],
          [EFlush; EIndex docA2 (IOther 2) "new" INil false; ERemove "b" false; EFlush]. split; [done|]. split; [done|]. by repeat constructor.
    - intros (f & ct & a & fo & b & af & E & _ & HF). rewrite Forall_forall in HF.
      destruct b as [|? [|? [|? [|? [|? [|? [|? b]]]]]]]; cbn in E; try discriminate E; injection E; intros; subst.
      + specialize (HF (EIndex docA2 (IOther 2) "new" INil false)). discriminate HF. do 3 right. left.
      + specialize (HF (ERemove "b" false)). discriminate HF. do 3 right. left.
      + right. left.
      + left.
      + by destruct b. }
  split; [by vm_compute|]. split; [by vm_compute|]. split; by vm_compute.
Qed.
