(** C122: the order of searches by BM25 while a session on existing files is running. *)
From Coq Require Import Reals Floats.SpecFloat.
From Verif Require Import ModelSession ModelEngine ModelFlight ModelScoring SpecIndexer SpecSearch SpecRank SpecRoute SpecPipe SpecSegment SpecEngine SpecFlight
  SpecStore SpecEnd SpecLife SpecClose SpecWhole SpecSession SpecLogic SpecFits SpecBM25 SpecDuring SpecSessionDuring SpecDeadline SpecScored SpecAccuracy SpecShorter SpecRescored SpecGrowing SpecGrowingSession
  SpecGrowingOrder SpecSessionOrder
  ProofIxThms ProofSortBy ProofFlushThms ProofSessionThms ProofFits ProofDuring ProofSessionDuring ProofAccuracy ProofGrowingSession ProofSessionOrder
  ExampleTools PropBM25 PropPipe PropEngine PropEnd PropFlight PropStore PropSegment PropLife PropWhole PropSession PropDuring PropSessionDuring PropScored PropGrowing PropGrowingSession PropGrowingOrder.

(** Documents come back from the files and new ones are added, while others search by BM25. *)
Theorem C122_order_beside_a_session murmur n only reqsFirst cap accepts encode nS reqsFirst2 iter decode X stop o
    sortDocs io s0 nseg recs progs dbs log2 sortBy ccap clients tl tr shards ls fs ss ans req t0 p :
  1 <= n < 2^32 → 1 <= nS < 2^32 → valid_iter iter → valid_range X → valid_sort sortDocs → Init io = Some s0 →
  placed murmur nS dbs → no_zero nS dbs → recoverProgs iter decode X stop o nS dbs = Some recs →
  made_of X stop o (mjoin progs) → new_ids murmur nS dbs (mjoin progs) → valid_sortBy sortBy →
  frun log2 sortBy (Z.to_nat n) ccap ls (fInit (Z.to_nat n) clients tl tr shards) = Some fs →
  written_in (session_reach murmur n only reqsFirst cap accepts encode nS reqsFirst2 nseg recs progs)
    (wholeStep murmur n only reqsFirst cap accepts encode nS reqsFirst2) sortDocs s0 only n (fWorlds fs) ss →
  ans ∈ fAnswers fs → fReqs fs !! faSearch ans = Some (req, t0) → timed_request io req → ¬ with_logic req →
  ScoringCriteria (rqOpts req) = RankByBM25 → zlen (rqTokens req) <= 2 ^ 20 →
  IndexType io = LocsIndex ∨ IndexType io = FrequenciesIndex → BM25Parameters io = Some p → modest p → accurate_log2 log2 →
  modest_additions (IndexType io) murmur n (pipeProg (mjoin progs) ++ mjoin recs) →
  ∃ full out late, faResp ans = mkResp (rqTokens req) late (zlen full) (Some out) ∧ page_of req full out ∧
    heard_from (Z.to_nat n) req (heardOf (faGot ans)) late ∧
    answers_in_time only X stop o (stored_or_given murmur nS decode dbs (mjoin progs)) (one_source murmur nS dbs (mjoin progs))
      (fWorlds fs) t0 (faEnd ans) req (heardOf (faGot ans)) full ∧
    scored_meanwhile log2 io murmur n only X stop o (stored_or_given murmur nS decode dbs (mjoin progs)) (fWorlds fs) t0 (faEnd ans) req full ∧
    ranked_meanwhile (IndexType io) p murmur n X stop o (stored_or_given murmur nS decode dbs (mjoin progs)) (fWorlds fs) t0 (faEnd ans) req out.
Proof.
  intros Hn HnS Hit HX Hv HI Hpl Hz Hr Hm Hnew. exact (order_session murmur n only reqsFirst cap Hn accepts encode nS HnS reqsFirst2 iter Hit decode X stop o HX
    sortDocs io s0 nseg recs progs dbs Hv HI Hpl Hz Hr Hm Hnew log2 sortBy ccap clients tl tr shards ls fs ss ans req t0 p).
Qed.
Print Assumptions C122_order_beside_a_session.

(** As the case of C120, but the new document "ccc" has the word "cat" too: the third search
    finds it behind "a", which is in the same shard and shorter. *)
Definition bxProgs : list (list wcall) := [wprogram [[]; [wix "ccc" "cat pig owl" false]]].
Definition bxStart : wstate := sessionInit 2 2 (sesStart true (sesRecs mwDbs)) bxProgs.
Definition bxStates : list wstate := let s0 := wRun hashLen 2 true true 2 wOrder 30 bxStart in let s1 := wRun hashLen 2 true true 2 wOrder 5 s0 in
  [s0; s1; wRun hashLen 2 true true 2 wOrder 400 s1].
Definition bxWorlds : list (list Shard) := endShards <$> (pipePart <$> bxStates).
Definition bxInit : fstate := fInit 2 [[catReq; catReq; catReq]] 1 1 (match bxWorlds with w :: _ => w | [] => [] end).
Definition bxWrite (t i : nat) (r : list flabel * fstate) : option (list flabel * fstate) :=
  w ← bxWorlds !! t; sh ← w !! i; s ← bmRun [LWrite i sh] (snd r); Some (fst r ++ [LWrite i sh], s).
Definition bxLabels (a b : nat) : option (list flabel) :=
  r0 ← bmTurns a ([], bxInit); r1 ← bxWrite 1 0 r0; r2 ← bmTurns b r1; r3 ← bxWrite 2 0 r2; fst <$> bmTurns 200 r3.
Definition bxSeen : list (list (string * list F) * nat) :=
  [([("bb", [bmOf 1 4 2 4]); ("a", [bmOf 1 2 2 2])], 1%nat); ([("bb", [bmOf 1 4 2 4]); ("a", [bmOf 1 2 2 2])], 2%nat);
   ([("a", [bmOf 2 8 2 2]); ("bb", [bmOf 1 4 2 4]); ("ccc", [bmOf 2 8 2 6])], 2%nat)].
Definition bxRun (ls : list flabel) : option fstate := frun exactLog2 insSortBy 2 PropFlight.cap1 ls bxInit.
Definition bxCheck (P : fstate → Prop) : Prop :=
  match bxLabels 30 50 with Some ls => match bxRun ls with Some fs => P fs | None => False end | None => False end.
Lemma bxCheck_some P : bxCheck P → ∃ ls fs, bxRun ls = Some fs ∧ P fs.
Proof. unfold bxCheck. destruct (bxLabels _ _) as [ls|]; [|done]. destruct (bxRun ls) as [fs|] eqn:E; [|done]. intros H. by exists ls, fs. Qed.
Lemma bx_computed : bxCheck (λ fs, fWorlds fs = bxWorlds ∧ fst <$> fReqs fs = [catReq; catReq; catReq] ∧ scoresSeen fs = bxSeen).
Proof. vm_compute. repeat split; reflexivity. Qed.
Lemma bx_written s0 : Init (optsF 2) = Some s0 →
  written_in (session_reach hashLen 2 false true PropPipe.cap1 accT encB 2 true 1 (sesRecs mwDbs) bxProgs)
    (wholeStep hashLen 2 false true PropPipe.cap1 accT encB 2 true) stableSort s0 false 2 bxWorlds bxStates.
Proof.
  intros HI. pose proof (worlds_ok s0 bxStates HI ltac:(vm_compute; reflexivity)) as HF. unfold bxWorlds. unfold bxStates in *. cbv zeta in *.
  apply written_three; [|apply wRun_reach|apply wRun_reach|exact HF]. clear HF.
  assert (Hl : length (sesRecs mwDbs) = 2%nat) by by vm_compute.
  assert (H : sesOkb true true mwDbs sesTwo = true) by by vm_compute. apply sesOk in H as (_ & Hrec' & Hp' & _).
  exists (sesStart true (sesRecs mwDbs)). split; [exact Hp'|]. rewrite Hl. split; [exact Hrec'|]. apply wRun_reach.
Qed.
Lemma bx_docs : made_of exX ∅ noGse (mjoin bxProgs) ∧ new_ids hashLen 2 mwDbs (mjoin bxProgs) ∧
  stored_or_given hashLen 2 decT mwDbs (mjoin bxProgs) "bb" (txt "cat dog") ∧
  stored_or_given hashLen 2 decT mwDbs (mjoin bxProgs) "ccc" (txt "cat pig owl").
Proof.
  split; [|split; [|split]].
  - intros doc d fo. unfold bxProgs, wprogram. cbn [fmap list_fmap mjoin list_join app]. rewrite !elem_of_cons, elem_of_nil. unfold wix.
    intros [?|[[= -> -> ->]|[?|[]]]]; try done; by vm_compute.
  - split; [|split].
    + intros c id. unfold bxProgs, wprogram. cbn [fmap list_fmap mjoin list_join app]. rewrite !elem_of_cons, elem_of_nil. unfold wix.
      intros [->|[->|[->|[]]]]; try done. cbn [pipeCall call_id]. intros [= <-]. by vm_compute.
    + change (omap call_id (pipeProg (mjoin bxProgs))) with ["ccc"]. apply NoDup_singleton.
    + change (omap call_id (pipeProg (mjoin bxProgs))) with ["ccc"]. intros H%elem_of_list_singleton. discriminate H.
  - left. exists "cat dog". split; by vm_compute.
  - right. exists (wdoc "ccc" (txt "cat pig owl")), false. split; [|done]. unfold bxProgs, wprogram. cbn [fmap list_fmap mjoin list_join app].
    apply elem_of_list_further, elem_of_list_here.
Qed.
Definition bxCalls : list ecall := pipeProg (mjoin bxProgs) ++ mjoin (sesRecs mwDbs).
Definition bxDocs (i : Z) : list DocIndex := shard_docs hashLen 2 i bxCalls.
Definition bxDocs0 : list DocIndex := Eval vm_compute in bxDocs 0.
Definition bxDocs1 : list DocIndex := Eval vm_compute in bxDocs 1.
Lemma bxDocs_ok : bxDocs 0 = bxDocs0 ∧ bxDocs 1 = bxDocs1.
Proof. split; vm_compute; reflexivity. Qed.
Lemma bx_freqs ds : (ds = bxDocs0 ∨ ds = bxDocs1) → ∀ d kw, d ∈ ds → kw ∈ Keywords d → Frequency kw = f32_of_Z 1 ∨ Frequency kw = f32_of_Z 2.
Proof.
  intros H d kw Hd Hkw. revert kw Hkw. apply Forall_forall. revert d Hd. apply Forall_forall. destruct H as [->| ->];
    repeat (apply Forall_cons; split); try (by apply Forall_nil); (left; vm_compute; reflexivity) || (right; vm_compute; reflexivity).
Qed.
Lemma bx_lengths ds : (ds = bxDocs0 ∨ ds = bxDocs1) → (∀ d, d ∈ ds → TokenLen d = f32_of_Z (zlBw d) ∧ 0 < zlBw d) ∧ foldr Z.add 0 (zlBw <$> ds) < 2 ^ 24 ∧ zlen ds < 2 ^ 24.
Proof.
  intros [->| ->]; (split; [|by vm_compute]); apply Forall_forall; repeat (apply Forall_cons; split); try (by apply Forall_nil); by vm_compute.
Qed.
Lemma bx_modest : modest_additions (IndexType (optsF 2)) hashLen 2 bxCalls.
Proof.
  intros i Hi. change (shard_docs hashLen 2 i bxCalls) with (bxDocs i).
  assert (HD : bxDocs i = bxDocs0 ∨ bxDocs i = bxDocs1).
  { destruct bxDocs_ok as [E0 E1]. assert (i = 0 ∨ i = 1) as [->| ->] by lia; [left; exact E0|right; exact E1]. }
  intros ever. destruct (bx_lengths _ HD) as (L1 & L2 & L3). split; [exact L3|]. split; [exists zlBw; split; [exact L1|exact L2]|].
  intros d kw Hd Hkw. change (IndexType (optsF 2) =? LocsIndex) with false. cbv iota.
  destruct (bx_freqs _ HD d kw Hd Hkw) as [-> | ->]; apply modest_freq_int; lia.
Qed.
Example C122_case : ∃ s0 ls fs p, Init (optsF 2) = Some s0 ∧
  frun exactLog2 insSortBy 2 PropFlight.cap1 ls bxInit = Some fs ∧ fst <$> fReqs fs = [catReq; catReq; catReq] ∧
  written_in (session_reach hashLen 2 false true PropPipe.cap1 accT encB 2 true 1 (sesRecs mwDbs) bxProgs)
    (wholeStep hashLen 2 false true PropPipe.cap1 accT encB 2 true) stableSort s0 false 2 (fWorlds fs) bxStates ∧
  placed hashLen 2 mwDbs ∧ no_zero 2 mwDbs ∧ recoverProgs map_to_list decT exX ∅ noGse 2 mwDbs = Some (sesRecs mwDbs) ∧
  made_of exX ∅ noGse (mjoin bxProgs) ∧ new_ids hashLen 2 mwDbs (mjoin bxProgs) ∧
  stored_or_given hashLen 2 decT mwDbs (mjoin bxProgs) "bb" (txt "cat dog") ∧
  stored_or_given hashLen 2 decT mwDbs (mjoin bxProgs) "ccc" (txt "cat pig owl") ∧
  timed_request (optsF 2) catReq ∧ ¬ with_logic catReq ∧ ScoringCriteria (rqOpts catReq) = RankByBM25 ∧ zlen (rqTokens catReq) <= 2 ^ 20 ∧
  IndexType (optsF 2) = FrequenciesIndex ∧ BM25Parameters (optsF 2) = Some p ∧ modest p ∧ accurate_log2 exactLog2 ∧
  modest_additions (IndexType (optsF 2)) hashLen 2 (pipeProg (mjoin bxProgs) ++ mjoin (sesRecs mwDbs)) ∧
  scoresSeen fs = bxSeen ∧ bmOf 2 8 2 2 ≠ bmOf 2 8 2 6.
Proof.
  destruct (bxCheck_some _ bx_computed) as (ls & fs & Hr & Hw & Hf & Ha).
  destruct (Init (optsF 2)) as [s0|] eqn:HI; [|discriminate HI]. exists s0, ls, fs, (mkBM25 (f32_of_Z 2) (f32_of_Z 1)). rewrite Hw.
  split; [reflexivity|]. split; [exact Hr|]. clear Hr Hw. split; [exact Hf|]. split; [exact (bx_written s0 HI)|].
  split; [exact (proj1 mw_files)|]. split; [exact (proj2 mw_files)|]. split; [exact (proj1 mw_recs)|].
  destruct bx_docs as (D1 & D2 & D3 & D4). split; [exact D1|]. split; [exact D2|]. split; [exact D3|]. split; [exact D4|].
  destruct cat_request as (Q1 & Q2 & _). split; [exact Q1|]. split; [exact Q2|]. split; [reflexivity|]. split; [by vm_compute|].
  split; [reflexivity|]. split; [reflexivity|]. split; [exact modestP|]. split; [exact exactLog2_accurate|]. split; [exact bx_modest|]. split; [exact Ha|].
  apply (bool_decide_unpack _). by vm_compute.
Qed.
