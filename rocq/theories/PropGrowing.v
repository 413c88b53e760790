(** C119: the scores of searches while documents are being added. *)
From Verif Require Import ModelPipe ModelEngine ModelFlight ModelScoring SpecIndexer SpecSearch SpecRank SpecRoute SpecPipe SpecEngine SpecFlight SpecEnd SpecLogic SpecFits SpecBM25 SpecDuring SpecDeadline SpecScored SpecRescored SpecGrowing
  ProofIxThms ProofSortBy ProofFlushThms ProofDuring ProofGrowing ExampleTools PropBM25 PropPipe PropEngine PropEnd PropFlight PropDuring PropScored.

(** Every entry of a shard has the score that its document has among the documents which
    the shard had at one moment between the start and the end of the search: one moment
    for all entries of the shard. *)
Theorem C119_scores_while_adding murmur n only reqsFirst cap sortDocs o s0 nseg progs log2 sortBy ccap
    clients tl tr shards ls fs ps ans req t0 :
  1 <= n < 2^32 → valid_sort sortDocs → Init o = Some s0 → once_each (mjoin progs) → valid_sortBy sortBy →
  frun log2 sortBy (Z.to_nat n) ccap ls (fInit (Z.to_nat n) clients tl tr shards) = Some fs →
  written_by (pipeStep murmur n only reqsFirst cap) (pipeInit n nseg progs) sortDocs s0 only n (fWorlds fs) ps →
  ans ∈ fAnswers fs → fReqs fs !! faSearch ans = Some (req, t0) →
  timed_request o req → ¬ with_logic req → Forall (scores_numbers log2 req) (fWorlds fs) →
  ∃ full out late, faResp ans = mkResp (rqTokens req) late (zlen full) (Some out) ∧ page_of req full out ∧
    heard_from (Z.to_nat n) req (heardOf (faGot ans)) late ∧
    answers_heard only (mjoin progs) (fWorlds fs) t0 (faEnd ans) req (heardOf (faGot ans)) full ∧
    scored_during log2 o murmur n only (mjoin progs) (fWorlds fs) t0 (faEnd ans) req full.
Proof.
  intros Hn Hv HI [Hg Hnd]. exact (growing_log murmur n only reqsFirst cap Hn sortDocs o s0 nseg progs Hv HI Hg Hnd
    log2 sortBy ccap clients tl tr shards ls fs ps ans req t0).
Qed.
Print Assumptions C119_scores_while_adding.

(** With documents as they are usual, and a scoring that makes numbers of numbers, the
    scores are numbers at every moment. *)
Theorem C119_usual_scores_while_adding murmur n only reqsFirst cap sortDocs o s0 nseg progs log2 sortBy ccap
    clients tl tr shards ls fs ps ans req t0 :
  1 <= n < 2^32 → valid_sort sortDocs → Init o = Some s0 → once_each (mjoin progs) → valid_sortBy sortBy →
  frun log2 sortBy (Z.to_nat n) ccap ls (fInit (Z.to_nat n) clients tl tr shards) = Some fs →
  written_by (pipeStep murmur n only reqsFirst cap) (pipeInit n nseg progs) sortDocs s0 only n (fWorlds fs) ps →
  ans ∈ fAnswers fs → fReqs fs !! faSearch ans = Some (req, t0) →
  timed_request o req → ¬ with_logic req →
  usual_log2 log2 → usual_calls o murmur n (mjoin progs) → sane_scoring (ScoringCriteria (rqOpts req)) →
  ∃ full out late, faResp ans = mkResp (rqTokens req) late (zlen full) (Some out) ∧ page_of req full out ∧
    heard_from (Z.to_nat n) req (heardOf (faGot ans)) late ∧
    answers_heard only (mjoin progs) (fWorlds fs) t0 (faEnd ans) req (heardOf (faGot ans)) full ∧
    scored_during log2 o murmur n only (mjoin progs) (fWorlds fs) t0 (faEnd ans) req full.
Proof.
  intros Hn Hv HI [Hg Hnd] Hvb Hf HW Ha Hq Hpr Hnl Hlog Hu Hsc.
  exact (growing_log murmur n only reqsFirst cap Hn sortDocs o s0 nseg progs Hv HI Hg Hnd
    log2 sortBy ccap clients tl tr shards ls fs ps ans req t0 Hvb Hf HW Ha Hq Hpr Hnl
    (growing_numbers murmur n only reqsFirst cap Hn sortDocs o s0 nseg progs Hv HI Hg Hnd log2 req _ ps Hlog Hu Hsc Hpr Hnl HW)).
Qed.
Print Assumptions C119_usual_scores_while_adding.

(** Three searches ranked by BM25, while two clients write to two shards.  "a" comes in while
    the first one is on its way, and "c", to the shard of "b", while the second one is: the
    first one gives "b" the score of the only document of its shard, the second one that of
    one among two. *)
Definition growInit (p : pstate) : fstate := fInit 2 [[bmReq; bmReq; bmReq]] 1 1 (endShards p).
Definition bmRun (ls : list flabel) (s : fstate) : option fstate := frun log2c insSortBy 2 PropFlight.cap1 ls s.
Definition bmTurns (k : nat) (r : list flabel * fstate) : option (list flabel * fstate) :=
  let ls := driven 2 (take k (rounds 40 5)) (snd r) in s ← bmRun ls (snd r); Some (fst r ++ ls, s).
Definition bmWrite (i : nat) (p : pstate) (r : list flabel * fstate) : option (list flabel * fstate) :=
  sh ← endShards p !! i; s ← bmRun [LWrite i sh] (snd r); Some (fst r ++ [LWrite i sh], s).
Definition growRun (ps : list pstate) (a b c d : nat) : option (list flabel) :=
  match ps with
  | [p0; p1; p2; p3] =>
    r0 ← bmTurns a ([], growInit p0);
    r1 ← bmWrite 0 p1 r0; r2 ← bmTurns b r1; r3 ← bmWrite 0 p2 r2; r4 ← bmTurns c r3; r5 ← bmWrite 1 p3 r4;
    r6 ← bmTurns d r5; Some (fst r6)
  | _ => None
  end.
Definition scoresSeen (fs : fstate) : list (list (string * list F) * nat) :=
  (λ a, (match rsDocs (faResp a) with Some out => (λ h, (sdDocId h, sdScores h)) <$> out | None => [] end, faEnd a)) <$> fAnswers fs.
Definition growCheck (ps : list pstate) (fs : fstate) : bool :=
  forallb (λ p, Nat.eqb (length (endShards p)) 2) ps &&
  bool_decide (scoresSeen fs = [([("a", [bmOf 1 3 2 3]); ("b", [bmOf 1 2 1 2])], 2%nat);
     ([("a", [bmOf 1 3 2 3]); ("c", [bmOf 2 3 1 1]); ("b", [bmOf 2 3 1 2])], 3%nat);
     ([("a", [bmOf 1 3 2 3]); ("c", [bmOf 2 3 1 1]); ("b", [bmOf 2 3 1 2])], 3%nat)]) &&
  bool_decide (snd <$> fReqs fs = [0; 2; 3]%nat).
Lemma grow_computed : withRun duringStates (λ ps, growRun ps 5 10 40 200) (λ ls p0, bmRun ls (growInit p0))
  (λ ps fs, fWorlds fs = endShards <$> ps ∧ growCheck ps fs = true ∧ fst <$> fReqs fs = [bmReq; bmReq; bmReq]).
Proof. vm_compute. repeat split; reflexivity. Qed.
Example C119_case : ∃ s0 ps p0 ls fs, Init (optsF 2) = Some s0 ∧ once_each (mjoin endProgs) ∧
  bmRun ls (fInit 2 [[bmReq; bmReq; bmReq]] 1 1 (endShards p0)) = Some fs ∧
  written_by (pipeStep hashAB 2 false true PropPipe.cap1) (pipeInit 2 1 endProgs) stableSort s0 false 2 (fWorlds fs) ps ∧
  fst <$> fReqs fs = [bmReq; bmReq; bmReq] ∧ snd <$> fReqs fs = [0; 2; 3]%nat ∧
  timed_request (optsF 2) bmReq ∧ ¬ with_logic bmReq ∧
  usual_log2 log2c ∧ usual_calls (optsF 2) hashAB 2 (mjoin endProgs) ∧ sane_scoring (ScoringCriteria (rqOpts bmReq)) ∧
  scoresSeen fs = [([("a", [bmOf 1 3 2 3]); ("b", [bmOf 1 2 1 2])], 2%nat);
     ([("a", [bmOf 1 3 2 3]); ("c", [bmOf 2 3 1 1]); ("b", [bmOf 2 3 1 2])], 3%nat);
     ([("a", [bmOf 1 3 2 3]); ("c", [bmOf 2 3 1 1]); ("b", [bmOf 2 3 1 2])], 3%nat)] ∧
  bmOf 1 2 1 2 ≠ bmOf 2 3 1 2.
Proof.
  destruct (withRun_some _ _ _ _ grow_computed) as (ps & p0 & ls & fs & Hp & H0 & Hr & Hw & Hc & Hq).
  destruct C100_case as (_ & _ & _ & _ & _ & _ & Ho & _ & _ & _ & (R1 & _ & R2 & R3 & R4 & R5) & Hlog & Hu & _).
  change (ordinary (mjoin endProgs)) with (mjoin endProgs) in Ho, Hu.
  destruct (Init (optsF 2)) as [s0|] eqn:HI; [|discriminate HI]. exists s0, ps, p0, ls, fs.
  unfold growCheck in Hc. rewrite !andb_true_iff, !bool_decide_eq_true in Hc. destruct Hc as ((Hl & Hs) & Ht).
  assert (Hnl : ¬ with_logic bmReq). { intros H. destruct H as [(_ & H)|H]; cbn in H; [destruct H as [H|[H|H]]; discriminate H|destruct H as [H|H]; by apply H]. }
  split; [reflexivity|]. split; [exact Ho|]. split; [exact Hr|].
  split; [rewrite Hw; exact (during_written s0 ps HI Hp Hl)|]. split; [exact Hq|]. split; [exact Ht|].
  split; [split; [exact R1|]; split; [exact R2|]; left; split; [exact Hnl|]; split; [exact R4|exact R5]|].
  split; [exact Hnl|]. split; [exact Hlog|]. split; [exact Hu|].
  split; [intros x f [H _]; apply Forall_cons; split; [exact H|apply Forall_nil; exact I]|]. split; [exact Hs|].
  apply (bool_decide_unpack _). by vm_compute.
Qed.
