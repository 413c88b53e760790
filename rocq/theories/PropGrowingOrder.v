(** C121: the order of searches by BM25 while documents are being added. *)
From Coq Require Import Reals Floats.SpecFloat.
From Verif Require Import ModelPipe ModelEngine ModelFlight ModelScoring SpecIndexer SpecSearch SpecRank SpecRoute SpecPipe SpecEngine SpecFlight SpecEnd SpecLogic SpecFits SpecBM25 SpecDuring SpecDeadline SpecScored SpecAccuracy SpecShorter SpecRescored SpecGrowing SpecGrowingOrder
  SpecFine SpecFineSearch SpecFineDuring ProofIxThms ProofSortBy ProofFlushThms ProofFineSim ProofFineCycle ProofMoments ProofDuring ProofFine ProofFineDuring ProofAccuracy ProofGrowing ProofFineGrowing ProofGrowingOrder
  ExampleTools PropBM25 PropPipe PropEngine PropEnd PropFlight PropDuring PropScored PropLocks PropFine PropFineDuring PropGrowing PropFineGrowing.

(** For each shard there is one moment of the search such that every entry of the shard has
    the exact score of its document among the documents which the shard had then, up to
    rounding; the answer is ordered by these scores. *)
Theorem C121_order_while_adding murmur n only reqsFirst cap sortDocs o s0 nseg progs log2 sortBy ccap
    clients tl tr shards ls fs ps ans req t0 p :
  1 <= n < 2^32 → valid_sort sortDocs → Init o = Some s0 → once_each (mjoin progs) → valid_sortBy sortBy →
  frun log2 sortBy (Z.to_nat n) ccap ls (fInit (Z.to_nat n) clients tl tr shards) = Some fs →
  written_by (pipeStep murmur n only reqsFirst cap) (pipeInit n nseg progs) sortDocs s0 only n (fWorlds fs) ps →
  ans ∈ fAnswers fs → fReqs fs !! faSearch ans = Some (req, t0) → timed_request o req → ¬ with_logic req →
  ScoringCriteria (rqOpts req) = RankByBM25 → zlen (rqTokens req) <= 2 ^ 20 →
  IndexType o = LocsIndex ∨ IndexType o = FrequenciesIndex → BM25Parameters o = Some p → modest p → accurate_log2 log2 →
  modest_additions (IndexType o) murmur n (mjoin progs) →
  ∃ full out late, faResp ans = mkResp (rqTokens req) late (zlen full) (Some out) ∧ page_of req full out ∧
    heard_from (Z.to_nat n) req (heardOf (faGot ans)) late ∧
    answers_heard only (mjoin progs) (fWorlds fs) t0 (faEnd ans) req (heardOf (faGot ans)) full ∧
    scored_during log2 o murmur n only (mjoin progs) (fWorlds fs) t0 (faEnd ans) req full ∧
    ranked_during (IndexType o) p murmur n (mjoin progs) (fWorlds fs) t0 (faEnd ans) req out.
Proof.
  intros Hn Hv HI [Hg Hnd] Hvb Hf HW Ha Hq Hpr Hnl Hs Ht Hity Hpo Hp Hlog Hm.
  apply (written_by_log murmur n only reqsFirst cap) in HW. apply (written_rest murmur n only reqsFirst cap) in HW.
  exact (order_mo murmur n Hn only log2 Hlog o p Hpo Hp Hity _ Hnd Hm req Hs Ht _ _ sortBy ccap clients tl tr shards ls fs ps ans t0
    (at_rest murmur n only reqsFirst cap Hn sortDocs o s0 nseg progs Hv HI (Hgood progs Hg))
    (growing_rest murmur n only reqsFirst cap Hn sortDocs o s0 nseg progs Hv HI Hg Hnd) Hvb Hf HW Ha Hq Hpr Hnl).
Qed.
Print Assumptions C121_order_while_adding.

(** The same when a search may see a shard in the middle of the call that adds documents. *)
Theorem C121_order_with_locks murmur n only reqsFirst cap wlog2 sortDocs nseg progs o s0 stale looks log2 sortBy ccap
    clients tl tr shards ls fs ss ans req t0 p :
  1 <= n < 2^32 → kept_apart progs → valid_sort sortDocs → Init o = Some s0 → once_each (mjoin progs) → valid_sortBy sortBy →
  frun log2 sortBy (Z.to_nat n) ccap ls (fInit (Z.to_nat n) clients tl tr shards) = Some fs →
  written_fine (fineStep murmur n only reqsFirst cap wlog2 sortDocs) (fineInit n nseg progs s0 stale looks) only n (fWorlds fs) ss →
  ans ∈ fAnswers fs → fReqs fs !! faSearch ans = Some (req, t0) → timed_request o req → ¬ with_logic req →
  ScoringCriteria (rqOpts req) = RankByBM25 → zlen (rqTokens req) <= 2 ^ 20 →
  IndexType o = LocsIndex ∨ IndexType o = FrequenciesIndex → BM25Parameters o = Some p → modest p → accurate_log2 log2 →
  modest_additions (IndexType o) murmur n (mjoin progs) →
  ∃ full out late, faResp ans = mkResp (rqTokens req) late (zlen full) (Some out) ∧ page_of req full out ∧
    heard_from (Z.to_nat n) req (heardOf (faGot ans)) late ∧
    answers_heard only (mjoin progs) (fWorlds fs) t0 (faEnd ans) req (heardOf (faGot ans)) full ∧
    scored_during log2 o murmur n only (mjoin progs) (fWorlds fs) t0 (faEnd ans) req full ∧
    ranked_during (IndexType o) p murmur n (mjoin progs) (fWorlds fs) t0 (faEnd ans) req out.
Proof.
  intros Hn Hap Hv HI [Hg Hnd] Hvb Hf HW%written_lock Ha Hq Hpr Hnl Hs Ht Hity Hpo Hp Hlog Hm.
  exact (order_mo murmur n Hn only log2 Hlog o p Hpo Hp Hity _ Hnd Hm req Hs Ht _ _ sortBy ccap clients tl tr shards ls fs ss ans t0
    (at_lock murmur n only reqsFirst cap wlog2 sortDocs Hn nseg progs Hap o s0 stale looks Hv HI (HG _ Hg))
    (growing_lock murmur n only reqsFirst cap wlog2 sortDocs Hn nseg progs Hap o s0 stale looks Hv HI Hg Hnd) Hvb Hf HW Ha Hq Hpr Hnl).
Qed.
Print Assumptions C121_order_with_locks.

(** The executions of C119, with a logarithm that is accurate; its value at 2, the only one
    that is needed here, can be computed. *)
Definition exactLog2 (x : F) : F := if bool_decide (x = f64_of_Z 2) then f64_of_Z 1 else floorLog2 x.
Lemma exactLog2_accurate : accurate_log2 exactLog2.
Proof.
  intros x. assert (exactLog2 x = floorLog2 x) as ->; [|apply floorLog2_accurate]. unfold exactLog2.
  case_bool_decide as E; [|done]. by rewrite E, floorLog2_2.
Qed.
Lemma modestAB murmur n cs : (∀ i d, 0 <= i < n → d ∈ shard_docs murmur n i cs → d ∈ [docA; docC; docB]) →
  (∀ i, 0 <= i < n → foldr Z.add 0 (zlAB <$> shard_docs murmur n i cs) < 2 ^ 24 ∧ zlen (shard_docs murmur n i cs) < 2 ^ 24) →
  modest_additions (IndexType (optsF 2)) murmur n cs.
Proof.
  intros Hin Hsum i Hi ever. destruct (Hsum i Hi) as [H1 H2].
  assert (Hsub : ∀ d, d ∈ ever → d ∈ [docA; docC; docB]) by (intros d; by apply Hin).
  split; [exact H2|]. split.
  - exists zlAB. split; [|exact H1]. intros d Hd%Hsub. revert d Hd. apply Forall_forall. repeat constructor; by vm_compute.
  - intros d kw Hd%Hsub Hkw. change (IndexType (optsF 2) =? LocsIndex) with false. cbv iota.
    revert kw Hkw. apply Forall_forall. revert d Hd. apply Forall_forall.
    repeat (apply Forall_cons; split); try (by apply Forall_nil); cbn [Frequency kw docA docB docC]; by apply modest_freq_int.
Qed.
Lemma modestP : modest (mkBM25 (f32_of_Z 2) (f32_of_Z 1)).
Proof. apply modest_int; lia. Qed.
Lemma modestEnd : modest_additions (IndexType (optsF 2)) hashAB 2 (mjoin endProgs).
Proof.
  assert (HD : ∀ i, 0 <= i < 2 → shard_docs hashAB 2 i (mjoin endProgs) = [docA] ∨ shard_docs hashAB 2 i (mjoin endProgs) = [docC; docB]).
  { intros i Hi. assert (i = 0 ∨ i = 1) as [->| ->] by lia; [left|right]; by vm_compute. }
  apply modestAB.
  - intros i d Hi Hin. destruct (HD i Hi) as [E|E]; rewrite E in Hin; [|by right]. apply elem_of_list_singleton in Hin as ->. by left.
  - intros i Hi. destruct (HD i Hi) as [-> | ->]; by vm_compute.
Qed.
Lemma order_computed : withRun duringStates (λ ps, growRun ps 5 10 40 200) (λ ls p0, frun exactLog2 insSortBy 2 PropFlight.cap1 ls (growInit p0))
  (λ ps fs, fWorlds fs = endShards <$> ps ∧ growCheck ps fs = true ∧ fst <$> fReqs fs = [bmReq; bmReq; bmReq]).
Proof. vm_compute. repeat split; reflexivity. Qed.
(** All hypotheses of the first theorem. *)
Example C121_case : ∃ s0 ps p0 ls fs p, Init (optsF 2) = Some s0 ∧ once_each (mjoin endProgs) ∧
  frun exactLog2 insSortBy 2 PropFlight.cap1 ls (fInit 2 [[bmReq; bmReq; bmReq]] 1 1 (endShards p0)) = Some fs ∧
  written_by (pipeStep hashAB 2 false true PropPipe.cap1) (pipeInit 2 1 endProgs) stableSort s0 false 2 (fWorlds fs) ps ∧
  fst <$> fReqs fs = [bmReq; bmReq; bmReq] ∧ timed_request (optsF 2) bmReq ∧ ¬ with_logic bmReq ∧
  ScoringCriteria (rqOpts bmReq) = RankByBM25 ∧ zlen (rqTokens bmReq) <= 2 ^ 20 ∧ IndexType (optsF 2) = FrequenciesIndex ∧
  BM25Parameters (optsF 2) = Some p ∧ modest p ∧ accurate_log2 exactLog2 ∧
  modest_additions (IndexType (optsF 2)) hashAB 2 (mjoin endProgs) ∧
  scoresSeen fs = [([("a", [bmOf 1 3 2 3]); ("b", [bmOf 1 2 1 2])], 2%nat);
     ([("a", [bmOf 1 3 2 3]); ("c", [bmOf 2 3 1 1]); ("b", [bmOf 2 3 1 2])], 3%nat);
     ([("a", [bmOf 1 3 2 3]); ("c", [bmOf 2 3 1 1]); ("b", [bmOf 2 3 1 2])], 3%nat)].
Proof.
  destruct (withRun_some _ _ _ _ order_computed) as (ps & p0 & ls & fs & Hp & H0 & Hr & Hw & Hc & Hq).
  destruct C119_case as (_ & _ & _ & _ & _ & _ & Ho & _ & _ & _ & _ & Htq & Hnl & _).
  destruct (Init (optsF 2)) as [s0|] eqn:HI; [|discriminate HI]. exists s0, ps, p0, ls, fs, (mkBM25 (f32_of_Z 2) (f32_of_Z 1)).
  unfold growCheck in Hc. rewrite !andb_true_iff, !bool_decide_eq_true in Hc. destruct Hc as ((Hl & Hs) & Ht).
  split; [reflexivity|]. split; [exact Ho|]. split; [exact Hr|].
  split; [rewrite Hw; exact (during_written s0 ps HI Hp Hl)|]. split; [exact Hq|]. split; [exact Htq|]. split; [exact Hnl|].
  split; [reflexivity|]. split; [by vm_compute|]. split; [reflexivity|]. split; [reflexivity|]. split; [exact modestP|].
  split; [exact exactLog2_accurate|]. split; [exact modestEnd|exact Hs].
Qed.
(** The executions of the case of C119 with the locks. *)
Lemma modestK : modest_additions (IndexType (optsF 2)) hash0 1 (mjoin [progK]).
Proof.
  assert (HD : ∀ i, 0 <= i < 1 → shard_docs hash0 1 i (mjoin [progK]) = [docB; docA]).
  { intros i Hi. assert (i = 0) as -> by lia. by vm_compute. }
  apply modestAB; intros i.
  - intros d Hi Hin. rewrite (HD i Hi) in Hin. rewrite !elem_of_cons in Hin. destruct Hin as [->|[->|H]]; [right; right; by left|by left|by apply elem_of_nil in H].
  - intros Hi. rewrite (HD i Hi). by vm_compute.
Qed.
Definition orderRunK (ls : list flabel) : option fstate := frun exactLog2 insSortBy 1 PropFlight.cap1 ls initK.
Definition orderK (P : fstate → Prop) : Prop :=
  match labelsK 1 12 100 with Some ls => match orderRunK ls with Some fs => P fs | None => False end | None => False end.
Lemma orderK_some P : orderK P → ∃ ls fs, orderRunK ls = Some fs ∧ P fs.
Proof. unfold orderK. destruct (labelsK _ _ _) as [ls|]; [|done]. destruct (orderRunK ls) as [fs|] eqn:E; [|done]. intros H. by exists ls, fs. Qed.
Lemma order_computedK : orderK (λ fs, fWorlds fs = (λ s, [shardOf s]) <$> [startK; midB; midA] ∧ scoresSeen fs = scoresK ∧
  fst <$> fReqs fs = [bmReq; bmReq; bmReq] ∧ forallb settleds [startK; midB; midA] = true).
Proof. vm_compute. repeat split; reflexivity. Qed.
Example C121_case_with_locks : ∃ ls fs, kept_apart [progK] ∧ once_each (mjoin [progK]) ∧ Init (optsF 2) = Some ixF ∧
  frun exactLog2 insSortBy 1 PropFlight.cap1 ls (fInit 1 [[bmReq; bmReq; bmReq]] 1 1 [shardOf startK]) = Some fs ∧
  written_fine (fineStep hash0 1 false true PropPipe.cap1 (λ x, x) stableSort) (fineInit 1 1 [progK] ixF (cells 16) (λ _, [])) false 1
    (fWorlds fs) [startK; midB; midA] ∧
  fst <$> fReqs fs = [bmReq; bmReq; bmReq] ∧ modest_additions (IndexType (optsF 2)) hash0 1 (mjoin [progK]) ∧
  scoresSeen fs = [([("b", [bmOf 1 2 1 2])], 2%nat);
    ([("a", [bmOf 2 5 2 3]); ("b", [bmOf 2 5 1 2])], 2%nat); ([("a", [bmOf 2 5 2 3]); ("b", [bmOf 2 5 1 2])], 2%nat)].
Proof.
  destruct (orderK_some _ order_computedK) as (ls & fs & Hr & Hw & Hs & Hq & Hst). exists ls, fs. destruct usualK as [H1 _].
  split; [exact apartK|]. split; [exact H1|]. split; [reflexivity|]. split; [exact Hr|].
  split; [rewrite Hw; exact (writtenK _ _ _ (runTo_reach _ _ _) (runTo_reach _ _ _) Hst)|].
  split; [exact Hq|]. split; [exact modestK|exact Hs].
Qed.
