(** C119 with the locks of the indexers in view: the scores of searches which may see a shard
    in the middle of the call that adds documents to it. *)
From Verif Require Import ModelPipe ModelEngine ModelFlight ModelScoring SpecIndexer SpecSearch SpecRank SpecRoute SpecPipe SpecEngine SpecFlight SpecEnd SpecLogic SpecFits SpecBM25 SpecDuring SpecDeadline SpecScored SpecRescored SpecGrowing
  SpecFine SpecFineSearch SpecFineDuring ProofIxThms ProofSortBy ProofFlushThms ProofFineSim ProofFineCycle ProofMoments ProofDuring ProofFine ProofFineDuring ProofGrowing ProofFineGrowing
  ExampleTools PropBM25 PropPipe PropEngine PropEnd PropFlight PropDuring PropScored PropLocks PropFine PropFineDuring PropGrowing.

(** Every entry of a shard has the score that its document has among the documents which
    the shard had at one moment between the start and the end of the search, also when
    the search sees the shard in the middle of a call. *)
Theorem C119_scores_with_locks murmur n only reqsFirst cap wlog2 sortDocs nseg progs o s0 stale looks log2 sortBy ccap
    clients tl tr shards ls fs ss ans req t0 :
  1 <= n < 2^32 → kept_apart progs → valid_sort sortDocs → Init o = Some s0 → once_each (mjoin progs) → valid_sortBy sortBy →
  frun log2 sortBy (Z.to_nat n) ccap ls (fInit (Z.to_nat n) clients tl tr shards) = Some fs →
  written_fine (fineStep murmur n only reqsFirst cap wlog2 sortDocs) (fineInit n nseg progs s0 stale looks) only n (fWorlds fs) ss →
  ans ∈ fAnswers fs → fReqs fs !! faSearch ans = Some (req, t0) →
  timed_request o req → ¬ with_logic req → Forall (scores_numbers log2 req) (fWorlds fs) →
  ∃ full out late, faResp ans = mkResp (rqTokens req) late (zlen full) (Some out) ∧ page_of req full out ∧
    heard_from (Z.to_nat n) req (heardOf (faGot ans)) late ∧
    answers_heard only (mjoin progs) (fWorlds fs) t0 (faEnd ans) req (heardOf (faGot ans)) full ∧
    scored_during log2 o murmur n only (mjoin progs) (fWorlds fs) t0 (faEnd ans) req full.
Proof.
  intros Hn Hap Hv HI [Hg Hnd] Hvb Hf HW%written_lock.
  exact (scored_mo murmur n only o _ Hn _ _ (at_lock murmur n only reqsFirst cap wlog2 sortDocs Hn nseg progs Hap o s0 stale looks Hv HI (HG _ Hg))
    (growing_lock murmur n only reqsFirst cap wlog2 sortDocs Hn nseg progs Hap o s0 stale looks Hv HI Hg Hnd) Hnd
    log2 sortBy ccap clients tl tr shards ls fs ss ans req t0 Hvb Hf HW).
Qed.
Print Assumptions C119_scores_with_locks.

(** With documents as they are usual, and a scoring that makes numbers of numbers, the
    scores are numbers at every moment. *)
Theorem C119_usual_scores_with_locks murmur n only reqsFirst cap wlog2 sortDocs nseg progs o s0 stale looks log2 sortBy ccap
    clients tl tr shards ls fs ss ans req t0 :
  1 <= n < 2^32 → kept_apart progs → valid_sort sortDocs → Init o = Some s0 → once_each (mjoin progs) → valid_sortBy sortBy →
  frun log2 sortBy (Z.to_nat n) ccap ls (fInit (Z.to_nat n) clients tl tr shards) = Some fs →
  written_fine (fineStep murmur n only reqsFirst cap wlog2 sortDocs) (fineInit n nseg progs s0 stale looks) only n (fWorlds fs) ss →
  ans ∈ fAnswers fs → fReqs fs !! faSearch ans = Some (req, t0) →
  timed_request o req → ¬ with_logic req →
  usual_log2 log2 → usual_calls o murmur n (mjoin progs) → sane_scoring (ScoringCriteria (rqOpts req)) →
  ∃ full out late, faResp ans = mkResp (rqTokens req) late (zlen full) (Some out) ∧ page_of req full out ∧
    heard_from (Z.to_nat n) req (heardOf (faGot ans)) late ∧
    answers_heard only (mjoin progs) (fWorlds fs) t0 (faEnd ans) req (heardOf (faGot ans)) full ∧
    scored_during log2 o murmur n only (mjoin progs) (fWorlds fs) t0 (faEnd ans) req full.
Proof.
  intros Hn Hap Hv HI [Hg Hnd] Hvb Hf HW%written_lock Ha Hq Hpr Hnl Hlog Hu Hsc.
  pose proof (at_lock murmur n only reqsFirst cap wlog2 sortDocs Hn nseg progs Hap o s0 stale looks Hv HI (HG _ Hg)) as Hmo.
  pose proof (growing_lock murmur n only reqsFirst cap wlog2 sortDocs Hn nseg progs Hap o s0 stale looks Hv HI Hg Hnd) as Hgr.
  exact (scored_mo murmur n only o _ Hn _ _ Hmo Hgr Hnd log2 sortBy ccap clients tl tr shards ls fs ss ans req t0 Hvb Hf HW Ha Hq Hpr Hnl
    (numbers_mo murmur n only o _ _ _ Hmo Hgr log2 req _ ss Hlog Hu Hsc Hpr Hnl HW)).
Qed.
Print Assumptions C119_usual_scores_with_locks.

(** One shard, three searches ranked by BM25.  The first one sees the shard in the middle of
    the call that adds "b", the others in the middle of the call that adds "a": the first one
    gives "b" the score of the only document, the others that of one among two. *)
Definition ixF : Indexer := mkIndexer ∅ ∅ [] [] (optsInit (optsF 2)) 0 f_zero ∅.
Definition progK : list ecall := [idxB true; idxA true].
Definition startK : fine := fineInit 1 1 [progK] ixF (cells 16) (λ _, []).
Definition addingK (id : string) (s : fine) : bool := match fsAdding (sh1 s) with Some _ => HasDoc (index_of (sh1 s)) id | _ => false end.
Definition midB : fine := runTo (addingK "b") (PropFine.rounds 80 (everybody 0)) startK.
Definition midA : fine := runTo (addingK "a") (PropFine.rounds 80 (everybody 0)) midB.
Definition bmRun1 (ls : list flabel) (s : fstate) : option fstate := frun log2c insSortBy 1 PropFlight.cap1 ls s.
Definition bmTurns1 (k : nat) (r : list flabel * fstate) : option (list flabel * fstate) :=
  let ls := driven 1 (take k (PropFlight.rounds 40 3)) (snd r) in s ← bmRun1 ls (snd r); Some (fst r ++ ls, s).
Definition bmWrite1 (p : fine) (r : list flabel * fstate) : option (list flabel * fstate) :=
  s ← bmRun1 [LWrite 0 (shardOf p)] (snd r); Some (fst r ++ [LWrite 0 (shardOf p)], s).
Definition initK : fstate := fInit 1 [[bmReq; bmReq; bmReq]] 1 1 [shardOf startK].
Definition labelsK (a b c : nat) : option (list flabel) :=
  r0 ← bmTurns1 a ([], initK); r1 ← bmWrite1 midB r0; r2 ← bmTurns1 b r1; r3 ← bmWrite1 midA r2; r4 ← bmTurns1 c r3; Some (fst r4).
Definition scoresK : list (list (string * list F) * nat) :=
  [([("b", [bmOf 1 2 1 2])], 2%nat); ([("a", [bmOf 2 5 2 3]); ("b", [bmOf 2 5 1 2])], 2%nat); ([("a", [bmOf 2 5 2 3]); ("b", [bmOf 2 5 1 2])], 2%nat)].
Definition runK (P : fstate → Prop) : Prop :=
  match labelsK 1 12 100 with Some ls => match bmRun1 ls initK with Some fs => P fs | None => False end | None => False end.
Lemma runK_some P : runK P → ∃ ls fs, bmRun1 ls initK = Some fs ∧ P fs.
Proof. unfold runK. destruct (labelsK _ _ _) as [ls|]; [|done]. destruct (bmRun1 ls _) as [fs|] eqn:E; [|done]. intros H. by exists ls, fs. Qed.
Lemma computedK : runK (λ fs, fWorlds fs = (λ s, [shardOf s]) <$> [startK; midB; midA] ∧ scoresSeen fs = scoresK ∧
  snd <$> fReqs fs = [0; 2; 2]%nat ∧ fst <$> fReqs fs = [bmReq; bmReq; bmReq] ∧ forallb settleds [startK; midB; midA] = true).
Proof. vm_compute. repeat split; reflexivity. Qed.
Lemma writtenK s0 s1 s2 : rtc (fineStep hash0 1 false true PropPipe.cap1 (λ x, x) stableSort) s0 s1 →
  rtc (fineStep hash0 1 false true PropPipe.cap1 (λ x, x) stableSort) s1 s2 → forallb settleds [s0; s1; s2] = true →
  written_fine (fineStep hash0 1 false true PropPipe.cap1 (λ x, x) stableSort) s0 false 1 ((λ s, [shardOf s]) <$> [s0; s1; s2]) [s0; s1; s2].
Proof.
  intros H1 H2 Hs. split; [|split].
  - intros s Ha. injection Ha as <-. apply rtc_refl.
  - intros [|[|[|t]]] p q Ha Hb; try discriminate Ha; try discriminate Hb; injection Ha as <-; injection Hb as <-; assumption.
  - rewrite forallb_forall in Hs. rewrite <- (list_fmap_id [s0; s1; s2]) at 1.
    apply Forall2_fmap. apply Forall_Forall2_diag, Forall_forall. intros s Hin. apply shardOf_ok, Hs. by apply elem_of_list_In.
Qed.
Lemma usualK : once_each (mjoin [progK]) ∧ usual_calls (optsF 2) hash0 1 (mjoin [progK]).
Proof.
  destruct C100_case as (_ & _ & _ & _ & _ & _ & [Ho _] & _ & _ & _ & _ & _ & (U1 & _ & U3 & zl & U4 & _) & _).
  change (ordinary (mjoin endProgs)) with [idxA true; EIndex docC (IOther 3) "z" INil true; idxB true; EFlush] in *.
  change (mjoin [progK]) with [idxB true; idxA true].
  assert (Hin : ∀ c, c ∈ [idxB true; idxA true] → c ∈ [idxA true; EIndex docC (IOther 3) "z" INil true; idxB true; EFlush]).
  { intros c. rewrite !elem_of_cons. intros [->|[->|H]]; [right; right; by left|by left|by apply elem_of_nil in H]. }
  split; [split|].
  - rewrite Forall_forall in Ho |- *. intros c Hc. by apply Ho, Hin.
  - apply (bool_decide_unpack _). by vm_compute.
  - split; [exact U1|]. split; [vm_compute; reflexivity|]. split; [intros d f ct a fo Hc; by eapply U3, Hin|].
    exists zlAB. split.
    + intros d f ct a fo Hc. rewrite !elem_of_cons in Hc. destruct Hc as [Hc|[Hc|Hc]]; [..|by apply elem_of_nil in Hc];
        injection Hc as -> _ _ _ _; (split; [vm_compute; reflexivity|by vm_compute]).
    + intros i Hi. assert (i = 0) as -> by lia. by vm_compute.
Qed.
Lemma apartK : kept_apart [progK].
Proof. left. intros cs c ->%elem_of_list_singleton Hc. unfold progK in Hc. rewrite !elem_of_cons in Hc. destruct Hc as [->|[->|Hc]]; [reflexivity|reflexivity|by apply elem_of_nil in Hc]. Qed.
Example C119_case_with_locks : ∃ ls fs, kept_apart [progK] ∧ once_each (mjoin [progK]) ∧ Init (optsF 2) = Some ixF ∧
  bmRun1 ls (fInit 1 [[bmReq; bmReq; bmReq]] 1 1 [shardOf startK]) = Some fs ∧
  written_fine (fineStep hash0 1 false true PropPipe.cap1 (λ x, x) stableSort) (fineInit 1 1 [progK] ixF (cells 16) (λ _, [])) false 1
    (fWorlds fs) [startK; midB; midA] ∧
  (* the calls are under way *)
  fsAdding (sh1 midB) = Some 2%nat ∧ fsAdding (sh1 midA) = Some 2%nat ∧
  fst <$> fReqs fs = [bmReq; bmReq; bmReq] ∧ snd <$> fReqs fs = [0; 2; 2]%nat ∧ timed_request (optsF 2) bmReq ∧ ¬ with_logic bmReq ∧
  usual_log2 log2c ∧ usual_calls (optsF 2) hash0 1 (mjoin [progK]) ∧ sane_scoring (ScoringCriteria (rqOpts bmReq)) ∧
  scoresSeen fs = [([("b", [bmOf 1 2 1 2])], 2%nat);
    ([("a", [bmOf 2 5 2 3]); ("b", [bmOf 2 5 1 2])], 2%nat); ([("a", [bmOf 2 5 2 3]); ("b", [bmOf 2 5 1 2])], 2%nat)] ∧
  bmOf 1 2 1 2 ≠ bmOf 2 5 1 2.
Proof.
  destruct (runK_some _ computedK) as (ls & fs & Hr & Hw & Hs & Ht & Hq & Hst). exists ls, fs.
  destruct C119_case as (_ & _ & _ & _ & _ & _ & _ & _ & _ & _ & _ & R1 & R2 & R3 & _ & R4 & _). destruct usualK as [H1 H2].
  split; [exact apartK|].
  split; [exact H1|]. split; [reflexivity|]. split; [exact Hr|]. split; [rewrite Hw; exact (writtenK _ _ _ (runTo_reach _ _ _) (runTo_reach _ _ _) Hst)|].
  split; [vm_compute; reflexivity|]. split; [vm_compute; reflexivity|]. split; [exact Hq|]. split; [exact Ht|]. split; [exact R1|]. split; [exact R2|].
  split; [exact R3|]. split; [exact H2|]. split; [exact R4|]. split; [exact Hs|].
  apply (bool_decide_unpack _). by vm_compute.
Qed.
