(** C78, C96, C100, C114 and C115 with the locks of the indexers in view: any number of
    clients add documents, nobody removes any (or one client keeps removals apart); a call of
    an indexer method is not one step.  When all is done, searches on the shards as they are
    see the writes. *)
From Coq Require Import Reals Floats.SpecFloat.
From Verif Require Import ModelLookup ModelPipe ModelFlight ModelScoring SpecIndexer SpecSearch SpecRank SpecRoute SpecPipe SpecEngine SpecFlight SpecEnd SpecLogic SpecFits SpecBM25 SpecScored SpecAccuracy SpecPrefers SpecShorter
  SpecFine SpecFineScores ProofIxThms ProofSortBy ProofFlushThms ProofEnd ProofFits ProofScored ProofAccuracy ProofShorter ProofFineRest
  ExampleTools PropBM25 PropPipe PropEngine PropEnd PropFits PropFlight PropScored PropAccuracy PropShorter PropLocks PropFine PropFineDuring PropFineGrowing PropGrowingOrder.
From Verif Require Import ModelEngine SpecFineScores.

(** After forced calls nothing waits in a cache. *)
Theorem C78_forced_writes_do_not_wait_with_locks murmur n only reqsFirst cap wlog2 sortDocs nseg progs o x0 stale looks s shards :
  1 <= n < 2^32 → kept_apart progs → valid_sort sortDocs → Init o = Some x0 →
  fine_reach murmur n only reqsFirst cap wlog2 sortDocs nseg progs x0 stale looks s → quiescent (fPipe s) →
  once_each (mjoin progs) → Forall forced_call (mjoin progs) → shards_now only s shards → Forall nothing_waits shards.
Proof.
  intros Hn Hap Hv HI Hr Hq. exact (quiet_forced murmur n only reqsFirst cap Hn wlog2 sortDocs nseg progs Hap x0 stale looks s Hr Hq o shards Hv HI).
Qed.
Print Assumptions C78_forced_writes_do_not_wait_with_locks.
(** A search finds all documents that were added; *)
Theorem C78_search_sees_the_writes_with_locks murmur n only reqsFirst cap wlog2 sortDocs nseg progs o x0 stale looks s shards log2 sortBy req order :
  1 <= n < 2^32 → kept_apart progs → valid_sort sortDocs → valid_sortBy sortBy → Init o = Some x0 →
  fine_reach murmur n only reqsFirst cap wlog2 sortDocs nseg progs x0 stale looks s → quiescent (fPipe s) → once_each (mjoin progs) →
  shards_now only s shards → Forall nothing_waits shards →
  plain_request o req → scores_numbers log2 req shards → all_arrive (length shards) order →
  ∃ full out, Search log2 sortBy req shards order = Some (mkResp (rqTokens req) false (zlen full) (Some out)) ∧
    answers_calls only (mjoin progs) req full out.
Proof.
  intros Hn Hap Hv Hvb HI Hr Hq Ho Hnow.
  exact (end_search murmur n only reqsFirst cap Hn sortDocs sortBy o x0 nseg progs (fPipe s) shards log2 req order Hv Hvb HI
    (quiet_pipe murmur n only reqsFirst cap Hn wlog2 sortDocs nseg progs Hap x0 stale looks s Hr) Hq Ho
    (quiet_shards murmur n only reqsFirst cap Hn wlog2 sortDocs nseg progs Hap x0 stale looks s Hr Hq shards Hnow)).
Qed.
Print Assumptions C78_search_sees_the_writes_with_locks.
(** so do searches with logic, *)
Theorem C96_logic_search_sees_the_writes_with_locks murmur n only reqsFirst cap wlog2 sortDocs nseg progs o x0 stale looks s shards log2 sortBy req order :
  1 <= n < 2^32 → kept_apart progs → valid_sort sortDocs → valid_sortBy sortBy → Init o = Some x0 →
  fine_reach murmur n only reqsFirst cap wlog2 sortDocs nseg progs x0 stale looks s → quiescent (fPipe s) → once_each (mjoin progs) →
  shards_now only s shards → Forall nothing_waits shards →
  open_request o req → scores_numbers log2 req shards → all_arrive (length shards) order →
  ∃ full out, Search log2 sortBy req shards order = Some (mkResp (rqTokens req) false (zlen full) (Some out)) ∧
    answers_fitting only (mjoin progs) req full out.
Proof.
  intros Hn Hap Hv Hvb HI Hr Hq Ho Hnow.
  exact (rest_search murmur n only reqsFirst cap Hn sortDocs sortBy o x0 nseg progs (fPipe s) shards log2 req order Hv Hvb HI
    (quiet_pipe murmur n only reqsFirst cap Hn wlog2 sortDocs nseg progs Hap x0 stale looks s Hr) Hq Ho
    (quiet_shards murmur n only reqsFirst cap Hn wlog2 sortDocs nseg progs Hap x0 stale looks s Hr Hq shards Hnow)).
Qed.
Print Assumptions C96_logic_search_sees_the_writes_with_locks.
(** with the scores over all of them, *)
Theorem C100_scores_of_a_search_with_locks murmur n only reqsFirst cap wlog2 sortDocs nseg progs o x0 stale looks s shards log2 sortBy req order :
  1 <= n < 2^32 → kept_apart progs → valid_sort sortDocs → valid_sortBy sortBy → Init o = Some x0 →
  fine_reach murmur n only reqsFirst cap wlog2 sortDocs nseg progs x0 stale looks s → quiescent (fPipe s) → once_each (ordinary (mjoin progs)) →
  shards_now only s shards → Forall nothing_waits shards →
  plain_request o req → scores_proper log2 o murmur n (ordinary (mjoin progs)) (shard_total shards) req →
  all_arrive (length shards) order →
  ∃ full out, Search log2 sortBy req shards order = Some (mkResp (rqTokens req) false (zlen full) (Some out)) ∧
    answers_scored log2 o murmur n only (ordinary (mjoin progs)) (shard_total shards) req full out.
Proof.
  intros Hn Hap Hv Hvb HI Hr Hq Ho Hnow.
  exact (scored_search murmur n only reqsFirst cap Hn sortDocs sortBy o x0 nseg progs (fPipe s) shards log2 req order Hv Hvb HI
    (quiet_pipe murmur n only reqsFirst cap Hn wlog2 sortDocs nseg progs Hap x0 stale looks s Hr) Hq Ho
    (quiet_shards murmur n only reqsFirst cap Hn wlog2 sortDocs nseg progs Hap x0 stale looks s Hr Hq shards Hnow)).
Qed.
Print Assumptions C100_scores_of_a_search_with_locks.
(** in the order of their true BM25, *)
Theorem C114_search_ranks_by_bm25_with_locks murmur n only reqsFirst cap wlog2 sortDocs nseg progs o x0 stale looks s shards log2 sortBy req order p :
  1 <= n < 2^32 → kept_apart progs → valid_sort sortDocs → valid_sortBy sortBy → Init o = Some x0 →
  fine_reach murmur n only reqsFirst cap wlog2 sortDocs nseg progs x0 stale looks s → quiescent (fPipe s) → once_each (ordinary (mjoin progs)) →
  shards_now only s shards → Forall nothing_waits shards →
  plain_request o req → ScoringCriteria (rqOpts req) = RankByBM25 → zlen (rqTokens req) <= 2 ^ 20 →
  IndexType o = LocsIndex ∨ IndexType o = FrequenciesIndex → BM25Parameters o = Some p → modest p → accurate_log2 log2 →
  (∀ i, 0 <= i < n → shard_docs murmur n i (ordinary (mjoin progs)) ≠ [] → modest_docs (IndexType o) (shard_docs murmur n i (ordinary (mjoin progs)))) →
  all_arrive (length shards) order →
  ∃ full out, Search log2 sortBy req shards order = Some (mkResp (rqTokens req) false (zlen full) (Some out)) ∧
    answers_scored log2 o murmur n only (ordinary (mjoin progs)) (shard_total shards) req full out ∧
    ranked_by_bm25 (IndexType o) p murmur n (ordinary (mjoin progs)) req out.
Proof.
  intros Hn Hap Hv Hvb HI Hr Hq Ho Hnow.
  exact (search_ranked murmur n only reqsFirst cap sortDocs sortBy o x0 nseg progs (fPipe s) shards log2 req order p Hn Hv Hvb HI
    (quiet_pipe murmur n only reqsFirst cap Hn wlog2 sortDocs nseg progs Hap x0 stale looks s Hr) Hq Ho
    (quiet_shards murmur n only reqsFirst cap Hn wlog2 sortDocs nseg progs Hap x0 stale looks s Hr Hq shards Hnow)).
Qed.
Print Assumptions C114_search_ranks_by_bm25_with_locks.
(** the shorter of two with the same occurrences first. *)
Theorem C115_search_puts_shorter_first_with_locks murmur n only reqsFirst cap wlog2 sortDocs nseg progs o x0 stale looks s shards log2 sortBy req order p :
  1 <= n < 2^32 → kept_apart progs → valid_sort sortDocs → valid_sortBy sortBy → Init o = Some x0 →
  fine_reach murmur n only reqsFirst cap wlog2 sortDocs nseg progs x0 stale looks s → quiescent (fPipe s) → once_each (ordinary (mjoin progs)) →
  shards_now only s shards → Forall nothing_waits shards →
  plain_request o req → ScoringCriteria (rqOpts req) = RankByBM25 → zlen (rqTokens req) <= 2 ^ 20 →
  IndexType o = LocsIndex ∨ IndexType o = FrequenciesIndex → BM25Parameters o = Some p → modest p → accurate_log2 log2 →
  (∀ i, 0 <= i < n → shard_docs murmur n i (ordinary (mjoin progs)) ≠ [] → modest_docs (IndexType o) (shard_docs murmur n i (ordinary (mjoin progs)))) →
  all_arrive (length shards) order →
  ∃ full out, Search log2 sortBy req shards order = Some (mkResp (rqTokens req) false (zlen full) (Some out)) ∧
    answers_scored log2 o murmur n only (ordinary (mjoin progs)) (shard_total shards) req full out ∧
    shorter_first (IndexType o) murmur n (ordinary (mjoin progs)) req out ∧
    better_not_below (IndexType o) murmur n (ordinary (mjoin progs)) req out.
Proof.
  intros Hn Hap Hv Hvb HI Hr Hq Ho Hnow.
  exact (search_shorter murmur n only reqsFirst cap sortDocs sortBy o x0 nseg progs (fPipe s) shards log2 req order p Hn Hv Hvb HI
    (quiet_pipe murmur n only reqsFirst cap Hn wlog2 sortDocs nseg progs Hap x0 stale looks s Hr) Hq Ho
    (quiet_shards murmur n only reqsFirst cap Hn wlog2 sortDocs nseg progs Hap x0 stale looks s Hr Hq shards Hnow)).
Qed.
Print Assumptions C115_search_puts_shorter_first_with_locks.

(** Two clients add "b" and "a" at the same time. *)
Definition progsR : list (list ecall) := [[idxB true]; [idxA true]].
Definition startR : fine := fineInit 1 1 progsR ixF (cells 16) (λ _, []).
Definition turnsR : list fmove := PropFine.rounds 120 ((MProc <$> seq 0 7) ++ (MLock 0 <$> seq 0 2)).
Definition endR : fine := runTo never turnsR startR.
Definition answerR : option (list (string * list F) * Z) :=
  match Search exactLog2 insSortBy bmReq [shardOf endR] [Some 0%nat] with
  | Some r => match rsDocs r with Some out => Some ((λ d, (sdDocId d, sdScores d)) <$> out, rsNumDocs r) | None => None end
  | None => None end.
Lemma endR_computed : quiescentb (fPipe endR) = true ∧ settleds endR = true ∧
  addCache (shIx (shardOf endR)) = [] ∧ removeCache (shIx (shardOf endR)) = [] ∧
  answerR = Some ([("a", [bmOf 2 5 2 3]); ("b", [bmOf 2 5 1 2])], 2).
Proof. vm_compute. repeat split; reflexivity. Qed.
Lemma onceR : once_each (mjoin progsR) ∧ Forall forced_call (mjoin progsR).
Proof. destruct usualK as [H _]. split; [exact H|]. repeat (apply Forall_cons; split); try (apply Forall_nil; done); done. Qed.
Lemma apartR : kept_apart progsR.
Proof.
  left. intros cs c Hcs Hc. unfold progsR in Hcs. rewrite !elem_of_cons in Hcs.
  destruct Hcs as [->|[->|H]]; [| |by apply elem_of_nil in H]; apply elem_of_list_singleton in Hc; subst c; reflexivity.
Qed.
Lemma now_settled s : settleds s = true → shards_now false s [shardOf s].
Proof.
  intros [H1 H2]%andb_true_iff. split.
  - rewrite (sh1_ok s H1). reflexivity.
  - intros [|i] sh Hi; [|by rewrite lookup_cons, lookup_nil in Hi]. injection Hi as <-. unfold shardOf. cbn [ModelEngine.shRk].
    change (Z.of_nat 0) with 0.
    destruct (rrun (rkCalls 0 (sLog (fPipe s))) (RankerInit [false])) as [rk|]; [reflexivity|discriminate H2].
Qed.
Lemma nowR : shards_now false endR [shardOf endR].
Proof. destruct endR_computed as (_ & H & _). exact (now_settled _ H). Qed.
Lemma modestR i : 0 <= i < 1 → modest_docs (IndexType (optsF 2)) (shard_docs hash0 1 i (ordinary (mjoin progsR))).
Proof.
  intros Hi. destruct (modestK i Hi) as (H1 & (zl & H2 & H3) & H4).
  assert (E : shard_docs hash0 1 i (ordinary (mjoin progsR)) = [docB; docA]) by (assert (i = 0) as -> by lia; by vm_compute).
  assert (E2 : shard_docs hash0 1 i (mjoin [progK]) = [docB; docA]) by (assert (i = 0) as -> by lia; by vm_compute).
  rewrite E2 in H1, H2, H3, H4. rewrite E. split; [exact H1|]. split; [|exact H4]. exists zl. split.
  - intros d Hd. destruct (H2 d Hd). split; [done|lia].
  - split; [|exact H3]. destruct (H2 docB) as [_ Hb]; [by left|]. destruct (H2 docA) as [_ Ha]; [right; by left|]. cbn. lia.
Qed.
(** All hypotheses of the theorems, and the answer. *)
Example C114_case_with_locks : kept_apart progsR ∧ Init (optsF 2) = Some ixF ∧
  fine_reach hash0 1 false true PropPipe.cap1 (λ x, x) stableSort 1 progsR ixF (cells 16) (λ _, []) endR ∧ quiescent (fPipe endR) ∧
  once_each (mjoin progsR) ∧ Forall forced_call (mjoin progsR) ∧ shards_now false endR [shardOf endR] ∧ Forall nothing_waits [shardOf endR] ∧
  plain_request (optsF 2) bmReq ∧
  (∀ i, 0 <= i < 1 → modest_docs (IndexType (optsF 2)) (shard_docs hash0 1 i (ordinary (mjoin progsR)))) ∧
  answerR = Some ([("a", [bmOf 2 5 2 3]); ("b", [bmOf 2 5 1 2])], 2).
Proof.
  destruct endR_computed as (Hq & _ & Ha & Hb & Hr). destruct onceR as [Ho Hf].
  split; [exact apartR|]. split; [reflexivity|]. split; [exact (runTo_reach _ _ _)|]. split; [exact (quiescentb_ok _ Hq)|].
  split; [exact Ho|]. split; [exact Hf|]. split; [exact nowR|].
  split. { apply Forall_cons. split; [split; [exact Ha|exact Hb]|]. apply Forall_nil. exact I. }
  split. { by repeat split. }
  split; [exact modestR|exact Hr].
Qed.
