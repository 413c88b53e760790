(** Theorems about the scores of the default criterion: they are numbers at all times. *)
From Coq Require Import Floats.SpecFloat.
From Verif Require Import ModelSession ModelEngine ModelFlight ModelScoring SpecIndexer SpecSearch SpecLogic SpecRank SpecRoute SpecPipe SpecSegment SpecEngine SpecFlight
  SpecStore SpecEnd SpecFits SpecBM25 SpecScored SpecDuring SpecUpdate SpecLife SpecWhole SpecSession SpecSessionDuring SpecRevise SpecDeadline
  ProofIxThms ProofSortBy ProofFits ProofEnd ProofNumbers
  ExampleTools PropPipe PropEngine PropEnd PropBM25 PropSegment PropWhole PropRevise PropDeadline PropScored.

(** * C101: the default criterion gives numbers, whatever is written meanwhile *)
Theorem C101_default_is_sane : sane_scoring RankByBM25.
Proof. exact default_sane. Qed.
Print Assumptions C101_default_is_sane.
(** At every moment of every run: documents are being added, replaced and removed. *)
Theorem C101_scores_are_numbers murmur n only reqsFirst cap sortDocs o s0 nseg progs s shards log2 req :
  1 <= n < 2^32 → valid_sort sortDocs → Init o = Some s0 → Forall good_call (mjoin progs) →
  pipe_reach murmur n only reqsFirst cap nseg progs s → engine_shards sortDocs s0 only n s shards →
  answerable o req → sane_scoring (ScoringCriteria (rqOpts req)) → usual_log2 log2 → usual_history o (mjoin progs) →
  scores_numbers log2 req shards.
Proof. intros Hn. exact (numbers_lem murmur n only reqsFirst cap Hn sortDocs o s0 nseg progs s shards log2 req). Qed.
Print Assumptions C101_scores_are_numbers.
Theorem C101_scores_are_numbers_meanwhile murmur n only reqsFirst cap sortDocs o s0 nseg progs ws ps log2 req :
  1 <= n < 2^32 → valid_sort sortDocs → Init o = Some s0 → Forall good_call (mjoin progs) →
  written_by (pipeStep murmur n only reqsFirst cap) (pipeInit n nseg progs) sortDocs s0 only n ws ps →
  answerable o req → sane_scoring (ScoringCriteria (rqOpts req)) → usual_log2 log2 → usual_history o (mjoin progs) →
  Forall (scores_numbers log2 req) ws.
Proof. intros Hn. exact (numbers_during murmur n only reqsFirst cap Hn sortDocs o s0 nseg progs ws ps log2 req). Qed.
Print Assumptions C101_scores_are_numbers_meanwhile.
(** In a session with storage the documents of the files count as well. *)
Theorem C101_scores_are_numbers_in_a_session murmur n only reqsFirst cap accepts encode nS reqsFirst2 sortDocs o s0 nseg recs progs s shards log2 req :
  1 <= n < 2^32 → valid_sort sortDocs → Init o = Some s0 → Forall good_call (mjoin recs ++ pipeProg (mjoin progs)) →
  session_reach murmur n only reqsFirst cap accepts encode nS reqsFirst2 nseg recs progs s →
  engine_shards sortDocs s0 only n (pipePart s) shards →
  answerable o req → sane_scoring (ScoringCriteria (rqOpts req)) → usual_log2 log2 →
  usual_history o (mjoin recs ++ pipeProg (mjoin progs)) → scores_numbers log2 req shards.
Proof.
  intros Hn. exact (numbers_session murmur n only reqsFirst cap Hn accepts encode nS reqsFirst2 sortDocs o s0 nseg recs progs s shards log2 req).
Qed.
Print Assumptions C101_scores_are_numbers_in_a_session.
Theorem C101_scores_are_numbers_meanwhile_in_a_session murmur n only reqsFirst cap accepts encode nS reqsFirst2 sortDocs o s0 nseg recs progs ws ss log2 req :
  1 <= n < 2^32 → valid_sort sortDocs → Init o = Some s0 → Forall good_call (mjoin recs ++ pipeProg (mjoin progs)) →
  written_in (session_reach murmur n only reqsFirst cap accepts encode nS reqsFirst2 nseg recs progs)
    (wholeStep murmur n only reqsFirst cap accepts encode nS reqsFirst2) sortDocs s0 only n ws ss →
  answerable o req → sane_scoring (ScoringCriteria (rqOpts req)) → usual_log2 log2 →
  usual_history o (mjoin recs ++ pipeProg (mjoin progs)) → Forall (scores_numbers log2 req) ws.
Proof.
  intros Hn. exact (numbers_session_during murmur n only reqsFirst cap Hn accepts encode nS reqsFirst2 sortDocs o s0 nseg recs progs ws ss log2 req).
Qed.
Print Assumptions C101_scores_are_numbers_meanwhile_in_a_session.
(** The documents that the segmenter makes are usual ones, and their lengths whole numbers. *)
Theorem C101_segmented_documents_are_usual X stop o id d doc : valid_range X → segDoc X stop o id d = Some doc →
  ∃ m, 0 <= m ∧ TokenLen doc = f32_of_Z m ∧
    (m < 2 ^ 63 → (∀ kw, kw ∈ Keywords doc → zlen (Starts kw) < 2 ^ 63) → usual_doc doc).
Proof. exact (segmented_usual X stop o id d doc). Qed.
Print Assumptions C101_segmented_documents_are_usual.

(** So the theorems about searches beside and after writes hold for the default options,
    without a condition on the scores: after updates and removals (C97), *)
Theorem C101_default_search_after_updates murmur n only reqsFirst cap sortDocs sortBy o s0 nseg phases s shards log2 req order :
  1 <= n < 2^32 → valid_sort sortDocs → valid_sortBy sortBy → Init o = Some s0 →
  pipe_reach murmur n only reqsFirst cap nseg [program phases] s → returned 0 s → Forall good_phase phases →
  engine_shards sortDocs s0 only n s shards →
  open_request o req → ScoringCriteria (rqOpts req) = RankByBM25 → usual_log2 log2 → usual_history o (program phases) →
  all_arrive (length shards) order →
  ∃ full out, Search log2 sortBy req shards order = Some (mkResp (rqTokens req) false (zlen full) (Some out)) ∧
    answers_revised n only (called murmur n (program phases)) req (quiescent s) full out.
Proof. intros Hn. exact (default_revised murmur n only reqsFirst cap Hn sortDocs sortBy o s0 nseg phases s shards log2 req order). Qed.
Print Assumptions C101_default_search_after_updates.
(** and beside writes, with deadlines (C94). *)
Theorem C101_default_search_meanwhile murmur n only reqsFirst cap sortDocs o s0 nseg progs log2 sortBy ccap clients tl tr shards ls fs ps ans req t0 :
  1 <= n < 2^32 → valid_sort sortDocs → Init o = Some s0 → Forall good_call (mjoin progs) →
  frun log2 sortBy (Z.to_nat n) ccap ls (fInit (Z.to_nat n) clients tl tr shards) = Some fs →
  written_by (pipeStep murmur n only reqsFirst cap) (pipeInit n nseg progs) sortDocs s0 only n (fWorlds fs) ps →
  valid_sortBy sortBy →
  ans ∈ fAnswers fs → fReqs fs !! faSearch ans = Some (req, t0) →
  timed_request o req → ScoringCriteria (rqOpts req) = RankByBM25 → usual_log2 log2 → usual_history o (mjoin progs) →
  ∃ full out late, faResp ans = mkResp (rqTokens req) late (zlen full) (Some out) ∧ page_of req full out ∧
    heard_from (Z.to_nat n) req (heardOf (faGot ans)) late ∧
    answers_heard only (mjoin progs) (fWorlds fs) t0 (faEnd ans) req (heardOf (faGot ans)) full.
Proof.
  intros Hn. exact (default_timed murmur n only reqsFirst cap Hn sortDocs o s0 nseg progs log2 sortBy ccap clients tl tr shards ls fs ps ans req t0).
Qed.
Print Assumptions C101_default_search_meanwhile.

(** The case of C97, with the default criterion. *)
Definition bmFor (tok : string) : SearchReq := mkReq [tok] [] (mkLogic false false false [] [] []) None (mkRankOpts RankByBM25 false 0 0) 0 false false.
Definition bmRev (s : pstate) (tok : string) : option (list (string * string * list F)) :=
  r ← Search log2c insSortBy (bmFor tok) (revShards s) [Some 0%nat];
  fmap (M:=list) (λ h, (sdDocId h, sdContent h, sdScores h)) <$> rsDocs r.
Definition zlRev (d : DocIndex) : Z := if decide (d = docA) then 3 else 2.
Example C101_case rf : ∃ s0, Init (optsF 2) = Some s0 ∧ Forall good_phase revPhases ∧
  Forall good_call (mjoin [program revPhases]) ∧ usual_history (optsF 2) (program revPhases) ∧ usual_log2 log2c ∧
  (∀ tok, open_request (optsF 2) (bmFor tok) ∧ timed_request (optsF 2) (bmFor tok) ∧ ScoringCriteria (rqOpts (bmFor tok)) = RankByBM25) ∧
  (* not every score is a number, were the shards arbitrary *)
  ¬ score_nan_free RankByBM25 ∧
  (pipe_reach hash0 1 false rf PropPipe.cap1 2 [program revPhases] (revMid rf) ∧ returned 0 (revMid rf) ∧
   engine_shards stableSort s0 false 1 (revMid rf) (revShards (revMid rf)) ∧
   bmRev (revMid rf) "x" = Some [] ∧ bmRev (revMid rf) "z" = Some [("a", "new", [bmOf 1 2 1 2])]) ∧
  (pipe_reach hash0 1 false rf PropPipe.cap1 2 [program revPhases] (revLate rf) ∧ returned 0 (revLate rf) ∧ quiescent (revLate rf) ∧
   engine_shards stableSort s0 false 1 (revLate rf) (revShards (revLate rf)) ∧
   bmRev (revLate rf) "x" = Some [] ∧ bmRev (revLate rf) "z" = Some [("a", "old", [bmOf 1 2 1 2])]).
Proof.
  destruct (C97_case rf) as (s0 & HI & Hg & _ & _ & _ & _ & _ & (R1 & T1 & _ & E1 & _) & (R2 & T2 & Q2 & E2 & _)).
  exists s0. split; [exact HI|]. split; [exact Hg|].
  split; [exact (program_good _ Hg)|].
  split. { split; [intros p [= <-]; by vm_compute|]. split; [done|]. change (indexed (program revPhases)) with [docA; docB; docA2].
    split; [repeat constructor|]. exists zlRev. split; [repeat constructor; by vm_compute|by vm_compute]. }
  split; [exact log2c_usual|].
  split. { intros tok. assert (answerable (optsF 2) (bmFor tok)) by (by apply plain_answerable). by repeat split. }
  split. { intros H. specialize (H (mkIDoc "" S754_nan 0 [] []) INil). by inversion H. }
  split.
  - split; [exact R1|]. split; [exact T1|]. split; [exact E1|]. split; destruct rf; vm_compute; reflexivity.
  - split; [exact R2|]. split; [exact T2|]. split; [exact Q2|]. split; [exact E2|]. split; destruct rf; vm_compute; reflexivity.
Qed.
