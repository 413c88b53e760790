(** C78, C96, C100, C114 and C115 with the locks of the indexers in view, for any number of
    searches at the same time, after all writes. *)
From Coq Require Import Reals Floats.SpecFloat.
From Verif Require Import ModelLookup ModelPipe ModelFlight ModelScoring SpecIndexer SpecSearch SpecRank SpecRoute SpecPipe SpecEngine SpecFlight SpecEnd SpecLogic SpecFits SpecBM25 SpecScored SpecAccuracy SpecPrefers SpecShorter
  SpecFine SpecFineScores ProofIxThms ProofSortBy ProofFlushThms ProofEnd ProofFits ProofScored ProofAccuracy ProofShorter ProofFineRest ProofFineFlights
  ExampleTools PropBM25 PropPipe PropEngine PropEnd PropFits PropFlight PropScored PropAccuracy PropShorter PropLocks PropFine PropFineDuring PropFineGrowing PropGrowing PropGrowingOrder PropFineRest.
From Verif Require Import ModelEngine SpecFineScores.

(** Nothing waits if, after calls of any number of clients, a Flush was handled last; *)
Theorem C78_nothing_waits_after_a_last_flush_with_locks murmur n only reqsFirst cap wlog2 sortDocs nseg progs o x0 stale looks s shards :
  1 <= n < 2^32 → kept_apart progs → valid_sort sortDocs → Init o = Some x0 →
  fine_reach murmur n only reqsFirst cap wlog2 sortDocs nseg progs x0 stale looks s → quiescent (fPipe s) →
  once_each (mjoin progs) → flushed_last n (fPipe s) → shards_now only s shards → Forall nothing_waits shards.
Proof.
  intros Hn Hap Hv HI Hr Hq. exact (quiet_last_flush murmur n only reqsFirst cap Hn wlog2 sortDocs nseg progs Hap x0 stale looks s Hr Hq o shards Hv HI).
Qed.
Print Assumptions C78_nothing_waits_after_a_last_flush_with_locks.
(** nor after the calls of one client that end with Flush. *)
Theorem C78_flushed_writes_do_not_wait_with_locks murmur n only reqsFirst cap wlog2 sortDocs nseg phases o x0 stale looks s shards :
  1 <= n < 2^32 → kept_apart [program phases] → valid_sort sortDocs → Init o = Some x0 →
  fine_reach murmur n only reqsFirst cap wlog2 sortDocs nseg [program phases] x0 stale looks s → quiescent (fPipe s) →
  Forall good_phase phases → shards_now only s shards → Forall nothing_waits shards.
Proof.
  intros Hn Hap Hv HI Hr Hq. exact (quiet_flushed murmur n only reqsFirst cap Hn wlog2 sortDocs nseg [program phases] Hap x0 stale looks s Hr Hq o phases shards eq_refl Hv HI).
Qed.
Print Assumptions C78_flushed_writes_do_not_wait_with_locks.
(** The searches find all documents that were added, *)
Theorem C78_searches_see_the_writes_with_locks murmur n only reqsFirst cap wlog2 sortDocs sortBy o x0 nseg progs stale looks s shards log2 nn ccap
    clients tl tr ls fs a req t0 :
  1 <= n < 2^32 → kept_apart progs → valid_sort sortDocs → valid_sortBy sortBy → Init o = Some x0 →
  fine_reach murmur n only reqsFirst cap wlog2 sortDocs nseg progs x0 stale looks s → quiescent (fPipe s) → once_each (mjoin progs) →
  shards_now only s shards → Forall nothing_waits shards →
  frun log2 sortBy nn ccap ls (fInit nn clients tl tr shards) = Some fs → Forall read_only ls → length shards = nn →
  a ∈ fAnswers fs → fReqs fs !! faSearch a = Some (req, t0) →
  plain_request o req → scores_numbers log2 req shards →
  ∃ full out, faResp a = mkResp (rqTokens req) false (zlen full) (Some out) ∧
    answers_calls only (mjoin progs) req full out.
Proof.
  intros Hn Hap Hv Hvb HI Hr Hq Ho Hnow.
  exact (end_flight murmur n only reqsFirst cap Hn sortDocs sortBy o x0 nseg progs (fPipe s) shards log2 nn ccap clients tl tr ls fs a req t0 Hv Hvb HI
    (quiet_pipe murmur n only reqsFirst cap Hn wlog2 sortDocs nseg progs Hap x0 stale looks s Hr) Hq Ho
    (quiet_shards murmur n only reqsFirst cap Hn wlog2 sortDocs nseg progs Hap x0 stale looks s Hr Hq shards Hnow)).
Qed.
Print Assumptions C78_searches_see_the_writes_with_locks.
(** those with logic as well, *)
Theorem C96_logic_searches_see_the_writes_with_locks murmur n only reqsFirst cap wlog2 sortDocs sortBy o x0 nseg progs stale looks s shards log2 nn ccap
    clients tl tr ls fs a req t0 :
  1 <= n < 2^32 → kept_apart progs → valid_sort sortDocs → valid_sortBy sortBy → Init o = Some x0 →
  fine_reach murmur n only reqsFirst cap wlog2 sortDocs nseg progs x0 stale looks s → quiescent (fPipe s) → once_each (mjoin progs) →
  shards_now only s shards → Forall nothing_waits shards →
  frun log2 sortBy nn ccap ls (fInit nn clients tl tr shards) = Some fs → Forall read_only ls → length shards = nn →
  a ∈ fAnswers fs → fReqs fs !! faSearch a = Some (req, t0) →
  open_request o req → scores_numbers log2 req shards →
  ∃ full out, faResp a = mkResp (rqTokens req) false (zlen full) (Some out) ∧
    answers_fitting only (mjoin progs) req full out.
Proof.
  intros Hn Hap Hv Hvb HI Hr Hq Ho Hnow.
  exact (rest_flight murmur n only reqsFirst cap Hn sortDocs sortBy o x0 nseg progs (fPipe s) shards log2 nn ccap clients tl tr ls fs a req t0 Hv Hvb HI
    (quiet_pipe murmur n only reqsFirst cap Hn wlog2 sortDocs nseg progs Hap x0 stale looks s Hr) Hq Ho
    (quiet_shards murmur n only reqsFirst cap Hn wlog2 sortDocs nseg progs Hap x0 stale looks s Hr Hq shards Hnow)).
Qed.
Print Assumptions C96_logic_searches_see_the_writes_with_locks.
(** with the scores over all of them, *)
Theorem C100_scores_of_searches_with_locks murmur n only reqsFirst cap wlog2 sortDocs sortBy o x0 nseg progs stale looks s shards log2 nn ccap
    clients tl tr ls fs a req t0 :
  1 <= n < 2^32 → kept_apart progs → valid_sort sortDocs → valid_sortBy sortBy → Init o = Some x0 →
  fine_reach murmur n only reqsFirst cap wlog2 sortDocs nseg progs x0 stale looks s → quiescent (fPipe s) → once_each (ordinary (mjoin progs)) →
  shards_now only s shards → Forall nothing_waits shards →
  frun log2 sortBy nn ccap ls (fInit nn clients tl tr shards) = Some fs → Forall read_only ls → length shards = nn →
  a ∈ fAnswers fs → fReqs fs !! faSearch a = Some (req, t0) →
  plain_request o req → scores_proper log2 o murmur n (ordinary (mjoin progs)) (shard_total shards) req →
  ∃ full out, faResp a = mkResp (rqTokens req) false (zlen full) (Some out) ∧
    answers_scored log2 o murmur n only (ordinary (mjoin progs)) (shard_total shards) req full out.
Proof.
  intros Hn Hap Hv Hvb HI Hr Hq Ho Hnow.
  exact (scored_flight murmur n only reqsFirst cap Hn sortDocs sortBy o x0 nseg progs (fPipe s) shards log2 nn ccap clients tl tr ls fs a req t0 Hv Hvb HI
    (quiet_pipe murmur n only reqsFirst cap Hn wlog2 sortDocs nseg progs Hap x0 stale looks s Hr) Hq Ho
    (quiet_shards murmur n only reqsFirst cap Hn wlog2 sortDocs nseg progs Hap x0 stale looks s Hr Hq shards Hnow)).
Qed.
Print Assumptions C100_scores_of_searches_with_locks.
(** with RankByBM25 under the usual conditions only, alone *)
Theorem C100_default_search_with_locks murmur n only reqsFirst cap wlog2 sortDocs sortBy o x0 nseg progs stale looks s shards log2 req order :
  1 <= n < 2^32 → kept_apart progs → valid_sort sortDocs → valid_sortBy sortBy → Init o = Some x0 →
  fine_reach murmur n only reqsFirst cap wlog2 sortDocs nseg progs x0 stale looks s → quiescent (fPipe s) → once_each (ordinary (mjoin progs)) →
  shards_now only s shards → Forall nothing_waits shards →
  plain_request o req → ScoringCriteria (rqOpts req) = RankByBM25 → usual_log2 log2 →
  usual_calls o murmur n (ordinary (mjoin progs)) → all_arrive (length shards) order →
  ∃ full out, Search log2 sortBy req shards order = Some (mkResp (rqTokens req) false (zlen full) (Some out)) ∧
    answers_scored log2 o murmur n only (ordinary (mjoin progs)) (shard_total shards) req full out.
Proof.
  intros Hn Hap Hv Hvb HI Hr Hq Ho Hnow.
  exact (default_search murmur n only reqsFirst cap Hn sortDocs sortBy o x0 nseg progs (fPipe s) shards log2 req order Hv Hvb HI
    (quiet_pipe murmur n only reqsFirst cap Hn wlog2 sortDocs nseg progs Hap x0 stale looks s Hr) Hq Ho
    (quiet_shards murmur n only reqsFirst cap Hn wlog2 sortDocs nseg progs Hap x0 stale looks s Hr Hq shards Hnow)).
Qed.
Print Assumptions C100_default_search_with_locks.
(** and at the same time, *)
Theorem C100_default_searches_with_locks murmur n only reqsFirst cap wlog2 sortDocs sortBy o x0 nseg progs stale looks s shards log2 nn ccap
    clients tl tr ls fs a req t0 :
  1 <= n < 2^32 → kept_apart progs → valid_sort sortDocs → valid_sortBy sortBy → Init o = Some x0 →
  fine_reach murmur n only reqsFirst cap wlog2 sortDocs nseg progs x0 stale looks s → quiescent (fPipe s) → once_each (ordinary (mjoin progs)) →
  shards_now only s shards → Forall nothing_waits shards →
  frun log2 sortBy nn ccap ls (fInit nn clients tl tr shards) = Some fs → Forall read_only ls → length shards = nn →
  a ∈ fAnswers fs → fReqs fs !! faSearch a = Some (req, t0) →
  plain_request o req → ScoringCriteria (rqOpts req) = RankByBM25 → usual_log2 log2 →
  usual_calls o murmur n (ordinary (mjoin progs)) →
  ∃ full out, faResp a = mkResp (rqTokens req) false (zlen full) (Some out) ∧
    answers_scored log2 o murmur n only (ordinary (mjoin progs)) (shard_total shards) req full out.
Proof.
  intros Hn Hap Hv Hvb HI Hr Hq Ho Hnow.
  exact (default_flight murmur n only reqsFirst cap Hn sortDocs sortBy o x0 nseg progs (fPipe s) shards log2 nn ccap clients tl tr ls fs a req t0 Hv Hvb HI
    (quiet_pipe murmur n only reqsFirst cap Hn wlog2 sortDocs nseg progs Hap x0 stale looks s Hr) Hq Ho
    (quiet_shards murmur n only reqsFirst cap Hn wlog2 sortDocs nseg progs Hap x0 stale looks s Hr Hq shards Hnow)).
Qed.
Print Assumptions C100_default_searches_with_locks.
(** in the order of their true BM25, *)
Theorem C114_searches_rank_by_bm25_with_locks murmur n only reqsFirst cap wlog2 sortDocs sortBy o x0 nseg progs stale looks s shards log2 nn ccap
    clients tl tr ls fs a req t0 p :
  1 <= n < 2^32 → kept_apart progs → valid_sort sortDocs → valid_sortBy sortBy → Init o = Some x0 →
  fine_reach murmur n only reqsFirst cap wlog2 sortDocs nseg progs x0 stale looks s → quiescent (fPipe s) → once_each (ordinary (mjoin progs)) →
  shards_now only s shards → Forall nothing_waits shards →
  frun log2 sortBy nn ccap ls (fInit nn clients tl tr shards) = Some fs → Forall read_only ls → length shards = nn →
  a ∈ fAnswers fs → fReqs fs !! faSearch a = Some (req, t0) →
  plain_request o req → ScoringCriteria (rqOpts req) = RankByBM25 → zlen (rqTokens req) <= 2 ^ 20 →
  IndexType o = LocsIndex ∨ IndexType o = FrequenciesIndex → BM25Parameters o = Some p → modest p → accurate_log2 log2 →
  (∀ i, 0 <= i < n → shard_docs murmur n i (ordinary (mjoin progs)) ≠ [] → modest_docs (IndexType o) (shard_docs murmur n i (ordinary (mjoin progs)))) →
  ∃ full out, faResp a = mkResp (rqTokens req) false (zlen full) (Some out) ∧
    answers_scored log2 o murmur n only (ordinary (mjoin progs)) (shard_total shards) req full out ∧
    ranked_by_bm25 (IndexType o) p murmur n (ordinary (mjoin progs)) req out.
Proof.
  intros Hn Hap Hv Hvb HI Hr Hq Ho Hnow.
  exact (flight_ranked murmur n only reqsFirst cap sortDocs sortBy o x0 nseg progs (fPipe s) shards log2 nn ccap clients tl tr ls fs a req t0 p Hn Hv Hvb HI
    (quiet_pipe murmur n only reqsFirst cap Hn wlog2 sortDocs nseg progs Hap x0 stale looks s Hr) Hq Ho
    (quiet_shards murmur n only reqsFirst cap Hn wlog2 sortDocs nseg progs Hap x0 stale looks s Hr Hq shards Hnow)).
Qed.
Print Assumptions C114_searches_rank_by_bm25_with_locks.
(** the shorter of two with the same occurrences first. *)
Theorem C115_searches_put_shorter_first_with_locks murmur n only reqsFirst cap wlog2 sortDocs sortBy o x0 nseg progs stale looks s shards log2 nn ccap
    clients tl tr ls fs a req t0 p :
  1 <= n < 2^32 → kept_apart progs → valid_sort sortDocs → valid_sortBy sortBy → Init o = Some x0 →
  fine_reach murmur n only reqsFirst cap wlog2 sortDocs nseg progs x0 stale looks s → quiescent (fPipe s) → once_each (ordinary (mjoin progs)) →
  shards_now only s shards → Forall nothing_waits shards →
  frun log2 sortBy nn ccap ls (fInit nn clients tl tr shards) = Some fs → Forall read_only ls → length shards = nn →
  a ∈ fAnswers fs → fReqs fs !! faSearch a = Some (req, t0) →
  plain_request o req → ScoringCriteria (rqOpts req) = RankByBM25 → zlen (rqTokens req) <= 2 ^ 20 →
  IndexType o = LocsIndex ∨ IndexType o = FrequenciesIndex → BM25Parameters o = Some p → modest p → accurate_log2 log2 →
  (∀ i, 0 <= i < n → shard_docs murmur n i (ordinary (mjoin progs)) ≠ [] → modest_docs (IndexType o) (shard_docs murmur n i (ordinary (mjoin progs)))) →
  ∃ full out, faResp a = mkResp (rqTokens req) false (zlen full) (Some out) ∧
    answers_scored log2 o murmur n only (ordinary (mjoin progs)) (shard_total shards) req full out ∧
    shorter_first (IndexType o) murmur n (ordinary (mjoin progs)) req out ∧
    better_not_below (IndexType o) murmur n (ordinary (mjoin progs)) req out.
Proof.
  intros Hn Hap Hv Hvb HI Hr Hq Ho Hnow.
  exact (flight_shorter murmur n only reqsFirst cap sortDocs sortBy o x0 nseg progs (fPipe s) shards log2 nn ccap clients tl tr ls fs a req t0 p Hn Hv Hvb HI
    (quiet_pipe murmur n only reqsFirst cap Hn wlog2 sortDocs nseg progs Hap x0 stale looks s Hr) Hq Ho
    (quiet_shards murmur n only reqsFirst cap Hn wlog2 sortDocs nseg progs Hap x0 stale looks s Hr Hq shards Hnow)).
Qed.
Print Assumptions C115_searches_put_shorter_first_with_locks.

(** Two searches on the shard of the case before, at the same time. *)
Definition initR : fstate := fInit 1 [[bmReq]; [bmReq]] 1 1 [shardOf endR].
Definition readsb (l : flabel) : bool := match l with LWrite _ _ => false | _ => true end.
Lemma reads_ok ls : forallb readsb ls = true → Forall read_only ls.
Proof.
  intros Hl. apply Forall_forall. intros l Hin. rewrite forallb_forall in Hl. apply elem_of_list_In in Hin. specialize (Hl l Hin).
  destruct l; [exact I|discriminate Hl].
Qed.
Definition labelsR : list flabel := driven 1 (PropFlight.rounds 40 4) initR.
Definition searchR (ls : list flabel) (st : fstate) : option fstate := frun exactLog2 insSortBy 1 PropFlight.cap1 ls st.
Definition runs_to (ls : list flabel) (st : fstate) (P : fstate → Prop) : Prop := match searchR ls st with Some fs => P fs | None => False end.
Lemma runs_to_some ls st P : runs_to ls st P → ∃ fs, searchR ls st = Some fs ∧ P fs.
Proof. unfold runs_to. destruct (searchR ls st) as [fs|]; [|done]. intros H. by exists fs. Qed.
Definition seenR : list (list (string * list F) * nat) :=
  [([("a", [bmOf 2 5 2 3]); ("b", [bmOf 2 5 1 2])], 0%nat); ([("a", [bmOf 2 5 2 3]); ("b", [bmOf 2 5 1 2])], 0%nat)].
Lemma flightR_computed : forallb readsb labelsR = true ∧ runs_to labelsR initR (λ fs, fst <$> fReqs fs = [bmReq; bmReq] ∧ scoresSeen fs = seenR).
Proof. vm_compute. repeat split; reflexivity. Qed.
Example C114_case_searches_with_locks : ∃ fs, searchR labelsR initR = Some fs ∧
  Forall read_only labelsR ∧ fst <$> fReqs fs = [bmReq; bmReq] ∧ scoresSeen fs = seenR.
Proof.
  destruct flightR_computed as [Hl H]. destruct (runs_to_some _ _ _ H) as (fs & E & H1 & H2).
  exists fs. split; [exact E|]. split; [exact (reads_ok _ Hl)|]. split; [exact H1|exact H2].
Qed.

(** One client adds both without force, then calls Flush: before it a document waits, in the end none does. *)
Definition phasesR : list (list ecall) := [[idxB false; idxA false]].
Definition startF : fine := fineInit 1 1 [program phasesR] ixF (cells 16) (λ _, []).
Definition flushedF : fine := runTo never (PropFine.rounds 120 (everybody 0)) startF.
Definition waitsF (s : fine) : bool := match addCache (index_of (sh1 s)) with [] => false | _ => true end.
Lemma flushedF_computed : quiescentb (fPipe flushedF) = true ∧ settleds flushedF = true ∧
  waitsF (runTo waitsF (PropFine.rounds 120 (everybody 0)) startF) = true ∧ waitsF flushedF = false ∧
  HasDoc (index_of (sh1 flushedF)) "a" && HasDoc (index_of (sh1 flushedF)) "b" = true ∧
  last (ixCalls 0 (sLog (fPipe flushedF))) = Some (OpAdd None true).
Proof. vm_compute. repeat split; reflexivity. Qed.
Lemma last_split (l : list op) (x : op) : last l = Some x → ∃ ops, l = ops ++ [x].
Proof. intros H. apply last_Some in H. exact H. Qed.
Lemma phasesR_ok : Forall good_phase phasesR ∧ kept_apart [program phasesR] ∧ once_each (mjoin [program phasesR]).
Proof.
  assert (Hg : Forall good_phase phasesR).
  { apply Forall_cons. split; [|by apply Forall_nil]. split; [|apply (bool_decide_unpack _); by vm_compute].
    repeat (apply Forall_cons; split); try (apply Forall_nil; done); (split; [|done]); try done; apply (bool_decide_unpack _); by vm_compute. }
  split; [exact Hg|]. split.
  - left. intros cs c ->%elem_of_list_singleton Hc. change (program phasesR) with [idxB false; idxA false; EFlush] in Hc.
    rewrite !elem_of_cons in Hc. destruct Hc as [->|[->|[->|Hc]]]; try reflexivity. by apply elem_of_nil in Hc.
  - split; [|apply (bool_decide_unpack _); by vm_compute].
    repeat (apply Forall_cons; split); try (apply Forall_nil; done); (split; [|done]); try done; apply (bool_decide_unpack _); by vm_compute.
Qed.
Example C78_case_flush_with_locks : Forall good_phase phasesR ∧ kept_apart [program phasesR] ∧ once_each (mjoin [program phasesR]) ∧
  Init (optsF 2) = Some ixF ∧
  fine_reach hash0 1 false true PropPipe.cap1 (λ x, x) stableSort 1 [program phasesR] ixF (cells 16) (λ _, []) flushedF ∧
  quiescent (fPipe flushedF) ∧ shards_now false flushedF [shardOf flushedF] ∧ flushed_last 1 (fPipe flushedF) ∧
  (* on the way "b" waited *)
  waitsF (runTo waitsF (PropFine.rounds 120 (everybody 0)) startF) = true ∧
  HasDoc (index_of (sh1 flushedF)) "a" && HasDoc (index_of (sh1 flushedF)) "b" = true.
Proof.
  destruct flushedF_computed as (Hq & Hs & Hw & _ & Hd & Hl). destruct phasesR_ok as (H1 & H2 & H3).
  split; [exact H1|]. split; [exact H2|]. split; [exact H3|]. split; [reflexivity|]. split; [exact (runTo_reach _ _ _)|].
  split; [exact (quiescentb_ok _ Hq)|]. split; [exact (now_settled _ Hs)|].
  split. { intros i Hi. assert (i = 0) as -> by lia. exact (last_split _ _ Hl). }
  split; [exact Hw|exact Hd].
Qed.
