(** Theorems about the scores of a search over the whole engine. *)
From Verif Require Import ModelPipe ModelEngine ModelFlight ModelScoring SpecIndexer SpecSearch SpecRank SpecRoute SpecPipe SpecEngine SpecFlight SpecEnd SpecBM25 SpecScored
  ProofScored ProofIxThms ProofSortBy ExampleTools PropPipe PropEngine PropEnd PropBM25 PropWhole PropRevise.

(** * C100: the scores of an answer are those of the documents indexed *)
Theorem C100_scores_of_a_search murmur n only reqsFirst cap sortDocs sortBy o s0 nseg progs s shards log2 req order :
  1 <= n < 2^32 → valid_sort sortDocs → valid_sortBy sortBy → Init o = Some s0 →
  pipe_reach murmur n only reqsFirst cap nseg progs s → quiescent s → once_each (ordinary (mjoin progs)) →
  engine_shards sortDocs s0 only n s shards → Forall nothing_waits shards →
  plain_request o req → scores_proper log2 o murmur n (ordinary (mjoin progs)) (shard_total shards) req →
  all_arrive (length shards) order →
  ∃ full out, Search log2 sortBy req shards order = Some (mkResp (rqTokens req) false (zlen full) (Some out)) ∧
    answers_scored log2 o murmur n only (ordinary (mjoin progs)) (shard_total shards) req full out.
Proof. intros Hn. exact (scored_search murmur n only reqsFirst cap Hn sortDocs sortBy o s0 nseg progs s shards log2 req order). Qed.
Print Assumptions C100_scores_of_a_search.
Theorem C100_scores_of_searches murmur n only reqsFirst cap sortDocs sortBy o s0 nseg progs s shards log2 nn ccap
    clients tl tr ls fs a req t0 :
  1 <= n < 2^32 → valid_sort sortDocs → valid_sortBy sortBy → Init o = Some s0 →
  pipe_reach murmur n only reqsFirst cap nseg progs s → quiescent s → once_each (ordinary (mjoin progs)) →
  engine_shards sortDocs s0 only n s shards → Forall nothing_waits shards →
  frun log2 sortBy nn ccap ls (fInit nn clients tl tr shards) = Some fs → Forall read_only ls → length shards = nn →
  a ∈ fAnswers fs → fReqs fs !! faSearch a = Some (req, t0) →
  plain_request o req → scores_proper log2 o murmur n (ordinary (mjoin progs)) (shard_total shards) req →
  ∃ full out, faResp a = mkResp (rqTokens req) false (zlen full) (Some out) ∧
    answers_scored log2 o murmur n only (ordinary (mjoin progs)) (shard_total shards) req full out.
Proof.
  intros Hn. exact (scored_flight murmur n only reqsFirst cap Hn sortDocs sortBy o s0 nseg progs s shards log2 nn ccap
    clients tl tr ls fs a req t0).
Qed.
Print Assumptions C100_scores_of_searches.
(** The length that the BM25 formula divides by the number of documents is the sum of the
    lengths of the documents of the shard. *)
Theorem C100_lengths_add_up murmur n only reqsFirst cap sortDocs o s0 nseg progs s shards i :
  1 <= n < 2^32 → valid_sort sortDocs → Init o = Some s0 →
  pipe_reach murmur n only reqsFirst cap nseg progs s → quiescent s → once_each (ordinary (mjoin progs)) →
  engine_shards sortDocs s0 only n s shards → Forall nothing_waits shards → 0 <= i < n →
  total_length (shard_total shards i) (shard_docs murmur n i (ordinary (mjoin progs))).
Proof. intros Hn. exact (scored_totals murmur n only reqsFirst cap Hn sortDocs o s0 nseg progs s shards i). Qed.
Print Assumptions C100_lengths_add_up.
(** With the default criterion no further condition on the scoring is needed. *)
Theorem C100_default_search murmur n only reqsFirst cap sortDocs sortBy o s0 nseg progs s shards log2 req order :
  1 <= n < 2^32 → valid_sort sortDocs → valid_sortBy sortBy → Init o = Some s0 →
  pipe_reach murmur n only reqsFirst cap nseg progs s → quiescent s → once_each (ordinary (mjoin progs)) →
  engine_shards sortDocs s0 only n s shards → Forall nothing_waits shards →
  plain_request o req → ScoringCriteria (rqOpts req) = RankByBM25 → usual_log2 log2 →
  usual_calls o murmur n (ordinary (mjoin progs)) → all_arrive (length shards) order →
  ∃ full out, Search log2 sortBy req shards order = Some (mkResp (rqTokens req) false (zlen full) (Some out)) ∧
    answers_scored log2 o murmur n only (ordinary (mjoin progs)) (shard_total shards) req full out.
Proof. intros Hn. exact (default_search murmur n only reqsFirst cap Hn sortDocs sortBy o s0 nseg progs s shards log2 req order). Qed.
Print Assumptions C100_default_search.
Theorem C100_default_searches murmur n only reqsFirst cap sortDocs sortBy o s0 nseg progs s shards log2 nn ccap
    clients tl tr ls fs a req t0 :
  1 <= n < 2^32 → valid_sort sortDocs → valid_sortBy sortBy → Init o = Some s0 →
  pipe_reach murmur n only reqsFirst cap nseg progs s → quiescent s → once_each (ordinary (mjoin progs)) →
  engine_shards sortDocs s0 only n s shards → Forall nothing_waits shards →
  frun log2 sortBy nn ccap ls (fInit nn clients tl tr shards) = Some fs → Forall read_only ls → length shards = nn →
  a ∈ fAnswers fs → fReqs fs !! faSearch a = Some (req, t0) →
  plain_request o req → ScoringCriteria (rqOpts req) = RankByBM25 → usual_log2 log2 →
  usual_calls o murmur n (ordinary (mjoin progs)) →
  ∃ full out, faResp a = mkResp (rqTokens req) false (zlen full) (Some out) ∧
    answers_scored log2 o murmur n only (ordinary (mjoin progs)) (shard_total shards) req full out.
Proof.
  intros Hn. exact (default_flight murmur n only reqsFirst cap Hn sortDocs sortBy o s0 nseg progs s shards log2 nn ccap
    clients tl tr ls fs a req t0).
Qed.
Print Assumptions C100_default_searches.

(** The documents of C78: "a" in the shard 0, "b" and "c" in the shard 1. The scores are
    those of the formula with the counts and the average length of the document's shard. *)
Definition bmReq : SearchReq := mkReq ["x"] [] (mkLogic false false false [] [] []) None (mkRankOpts RankByBM25 false 0 0) 0 false false.
Definition bmSearch (shards : list Shard) : option (list (string * list F) * Z) :=
  match Search log2c insSortBy bmReq shards (Some <$> seq 0 (length shards)) with
  | Some (mkResp _ false m (Some out)) => Some ((λ h, (sdDocId h, sdScores h)) <$> out, m)
  | _ => None
  end.
(** the score for [tf] places in a document of the length [len], in a shard with [N] documents of the length [total] *)
Definition bmOf (N total tf len : Z) : F :=
  bm25_term log2c (mkBM25 (f32_of_Z 2) (f32_of_Z 1)) N N (f32_of_Z tf) (f32_of_Z len) (f32_div (f32_of_Z total) (f32_of_Z N)).
Definition zlAB (d : DocIndex) : Z := if seqb (DocId d) "a" then 3 else if seqb (DocId d) "b" then 2 else 1.
Example C100_case : ∃ s0 s shards, Init (optsF 2) = Some s0 ∧
  pipe_reach hashAB 2 false true PropPipe.cap1 1 endProgs s ∧ quiescent s ∧ once_each (ordinary (mjoin endProgs)) ∧
  engine_shards stableSort s0 false 2 s shards ∧ Forall nothing_waits shards ∧ shards = endShards s ∧
  plain_request (optsF 2) bmReq ∧ usual_log2 log2c ∧ usual_calls (optsF 2) hashAB 2 (ordinary (mjoin endProgs)) ∧
  (shard_docs hashAB 2 0 (mjoin endProgs), shard_docs hashAB 2 1 (mjoin endProgs)) = ([docA], [docC; docB]) ∧
  bmSearch (endShards s) = Some ([("a", [bmOf 1 3 2 3]); ("c", [bmOf 2 3 1 1]); ("b", [bmOf 2 3 1 2])], 3).
Proof.
  destruct (sched_check_ok hashAB 2 true endProgs endSched
    (λ s, quiescentb s && Nat.eqb (length (endShards s)) 2 && forallb PropEnd.idle (endShards s) &&
          bool_decide (bmSearch (endShards s) = Some ([("a", [bmOf 1 3 2 3]); ("c", [bmOf 2 3 1 1]); ("b", [bmOf 2 3 1 2])], 3))))
    as (s & Hs & H); [by vm_compute|].
  rewrite !andb_true_iff, !bool_decide_eq_true in H. destruct H as (((Hq%quiescentb_ok & Hl%Nat.eqb_eq) & Hi) & H1).
  destruct (Init (optsF 2)) as [s0|] eqn:EI; [|done]. exists s0, s, (endShards s).
  split; [done|]. split; [done|]. split; [done|].
  split. { split; [|apply (bool_decide_unpack _); by vm_compute].
    repeat (apply Forall_cons; split); try (apply Forall_nil; done); (split; [|done]); try done;
      apply (bool_decide_unpack _); by vm_compute. }
  split; [by apply endShards_ok|].
  split. { apply Forall_forall. intros sh Hsh. rewrite forallb_forall in Hi. apply elem_of_list_In in Hsh. specialize (Hi sh Hsh).
    unfold PropEnd.idle in Hi. apply andb_true_iff in Hi as [Ha%Z.eqb_eq Hr%Z.eqb_eq]. unfold zlen in *.
    split; [by destruct (addCache (shIx sh))|by destruct (removeCache (shIx sh))]. }
  split; [done|]. split; [by repeat split|]. split; [exact log2c_usual|]. split; [|split; [by vm_compute|done]].
  assert (Hin : ∀ d f ct a fo, EIndex d f ct a fo ∈ ordinary (mjoin endProgs) → d ∈ [docA; docC; docB]).
  { intros d f ct a fo Hc. change (ordinary (mjoin endProgs)) with [idxA true; EIndex docC (IOther 3) "z" INil true; idxB true; EFlush] in Hc.
    rewrite !elem_of_cons in Hc. rewrite !elem_of_cons.
    destruct Hc as [Hc|[Hc|[Hc|[Hc|Hc]]]]; [injection Hc; intros; subst; tauto..|done|by apply elem_of_nil in Hc]. }
  split; [intros p [= <-]; by vm_compute|]. split; [done|].
  split. { intros d f ct a fo Hd%Hin. revert d Hd. apply Forall_forall. repeat constructor. }
  exists zlAB. split.
  { intros d f ct a fo Hd%Hin. revert d Hd. apply Forall_forall. repeat constructor; by vm_compute. }
  intros i Hi'. assert (i = 0 ∨ i = 1) as [->| ->] by lia; by vm_compute.
Qed.

(** A claim one might make: how the documents are spread over shards does not matter for
    the order of the answer. It is false, as every shard counts for itself: the same calls
    and the same request, with two shards and with one. *)
Definition oneEnd : pstate := pRun hashAB 1 true [9; 8; 7; 6; 5; 4; 3; 2; 1; 0]%nat 400 (pipeInit 1 1 endProgs).
Theorem C100_order_without_shards_refuted : ∃ s0 s2 s1, Init (optsF 2) = Some s0 ∧ usual_log2 log2c ∧
  pipe_reach hashAB 2 false true PropPipe.cap1 1 endProgs s2 ∧ quiescent s2 ∧
  engine_shards stableSort s0 false 2 s2 (endShards s2) ∧ Forall nothing_waits (endShards s2) ∧
  pipe_reach hashAB 1 false true PropPipe.cap1 1 endProgs s1 ∧ quiescent s1 ∧
  engine_shards stableSort s0 false 1 s1 (revShards s1) ∧ Forall nothing_waits (revShards s1) ∧
  bmSearch (endShards s2) = Some ([("a", [bmOf 1 3 2 3]); ("c", [bmOf 2 3 1 1]); ("b", [bmOf 2 3 1 2])], 3) ∧
  bmSearch (revShards s1) = Some ([("c", [bmOf 3 6 1 1]); ("a", [bmOf 3 6 2 3]); ("b", [bmOf 3 6 1 2])], 3).
Proof.
  destruct C100_case as (s0 & s & shards & EI & Hr & Hq & _ & He & Hw & -> & _ & _ & _ & _ & H1).
  assert (Hidle : ∀ l, forallb PropEnd.idle l = true → Forall nothing_waits l).
  { clear. intros l H. apply Forall_forall. intros sh Hsh.
    rewrite forallb_forall in H. apply elem_of_list_In in Hsh. specialize (H sh Hsh).
    unfold PropEnd.idle in H. apply andb_true_iff in H as [Ha%Z.eqb_eq Hr%Z.eqb_eq]. unfold zlen in *.
    split; [by destruct (addCache (shIx sh))|by destruct (removeCache (shIx sh))]. }
  exists s0, s, oneEnd. do 6 (split; [first [done|exact log2c_usual]|]).
  split. { unfold pipe_reach, oneEnd. apply pRun_reach. }
  split. { apply quiescentb_ok. by vm_compute. }
  split. { apply revShards_ok; [done|]. by vm_compute. }
  split. { apply Hidle. by vm_compute. }
  split; [done|]. by vm_compute.
Qed.
Print Assumptions C100_order_without_shards_refuted.
