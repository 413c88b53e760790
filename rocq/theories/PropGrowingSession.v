(** C120: the scores of searches while a session on existing files is running. *)
From Verif Require Import ModelSession ModelEngine ModelFlight ModelScoring SpecIndexer SpecSearch SpecRank SpecRoute SpecPipe SpecSegment SpecEngine SpecFlight
  SpecStore SpecEnd SpecLife SpecClose SpecWhole SpecSession SpecLogic SpecFits SpecBM25 SpecDuring SpecSessionDuring SpecDeadline SpecScored SpecRescored SpecGrowing SpecGrowingSession
  ProofIxThms ProofSortBy ProofFlushThms ProofSessionThms ProofFits ProofDuring ProofSessionDuring ProofGrowingSession
  ExampleTools PropBM25 PropPipe PropEngine PropEnd PropFlight PropStore PropSegment PropLife PropWhole PropSession PropDuring PropSessionDuring PropScored PropGrowing.

(** Documents come back from the files and new ones are added, while others search.  Every
    entry of a shard has the score that its document has among the documents which the
    shard had at one moment between the start and the end of the search. *)
Theorem C120_scores_beside_a_session murmur n only reqsFirst cap accepts encode nS reqsFirst2 iter decode X stop o
    sortDocs io s0 nseg recs progs dbs log2 sortBy ccap clients tl tr shards ls fs ss ans req t0 :
  1 <= n < 2^32 → 1 <= nS < 2^32 → valid_iter iter → valid_range X → valid_sort sortDocs → Init io = Some s0 →
  placed murmur nS dbs → no_zero nS dbs → recoverProgs iter decode X stop o nS dbs = Some recs →
  made_of X stop o (mjoin progs) → new_ids murmur nS dbs (mjoin progs) → valid_sortBy sortBy →
  frun log2 sortBy (Z.to_nat n) ccap ls (fInit (Z.to_nat n) clients tl tr shards) = Some fs →
  written_in (session_reach murmur n only reqsFirst cap accepts encode nS reqsFirst2 nseg recs progs)
    (wholeStep murmur n only reqsFirst cap accepts encode nS reqsFirst2) sortDocs s0 only n (fWorlds fs) ss →
  ans ∈ fAnswers fs → fReqs fs !! faSearch ans = Some (req, t0) →
  timed_request io req → ¬ with_logic req → Forall (scores_numbers log2 req) (fWorlds fs) →
  ∃ full out late, faResp ans = mkResp (rqTokens req) late (zlen full) (Some out) ∧ page_of req full out ∧
    heard_from (Z.to_nat n) req (heardOf (faGot ans)) late ∧
    answers_in_time only X stop o (stored_or_given murmur nS decode dbs (mjoin progs)) (one_source murmur nS dbs (mjoin progs))
      (fWorlds fs) t0 (faEnd ans) req (heardOf (faGot ans)) full ∧
    scored_meanwhile log2 io murmur n only X stop o (stored_or_given murmur nS decode dbs (mjoin progs)) (fWorlds fs) t0 (faEnd ans) req full.
Proof.
  intros Hn HnS Hit HX Hv HI Hpl Hz Hr Hm Hnew Hvb. exact (growing_session murmur n only reqsFirst cap Hn accepts encode nS HnS reqsFirst2 iter Hit decode X stop o HX
    sortDocs io s0 nseg recs progs dbs Hv HI Hpl Hz Hr Hm Hnew log2 sortBy Hvb ccap clients tl tr shards ls fs ss ans req t0).
Qed.
Print Assumptions C120_scores_beside_a_session.

(** With the documents of the files and of the calls as they are usual, and a scoring that
    makes numbers of numbers, the scores are numbers at every moment. *)
Theorem C120_usual_scores_beside_a_session murmur n only reqsFirst cap accepts encode nS reqsFirst2 iter decode X stop o
    sortDocs io s0 nseg recs progs dbs log2 sortBy ccap clients tl tr shards ls fs ss ans req t0 :
  1 <= n < 2^32 → 1 <= nS < 2^32 → valid_iter iter → valid_range X → valid_sort sortDocs → Init io = Some s0 →
  placed murmur nS dbs → no_zero nS dbs → recoverProgs iter decode X stop o nS dbs = Some recs →
  made_of X stop o (mjoin progs) → new_ids murmur nS dbs (mjoin progs) → valid_sortBy sortBy →
  frun log2 sortBy (Z.to_nat n) ccap ls (fInit (Z.to_nat n) clients tl tr shards) = Some fs →
  written_in (session_reach murmur n only reqsFirst cap accepts encode nS reqsFirst2 nseg recs progs)
    (wholeStep murmur n only reqsFirst cap accepts encode nS reqsFirst2) sortDocs s0 only n (fWorlds fs) ss →
  ans ∈ fAnswers fs → fReqs fs !! faSearch ans = Some (req, t0) →
  timed_request io req → ¬ with_logic req →
  usual_log2 log2 → usual_history io (mjoin recs ++ pipeProg (mjoin progs)) → sane_scoring (ScoringCriteria (rqOpts req)) →
  ∃ full out late, faResp ans = mkResp (rqTokens req) late (zlen full) (Some out) ∧ page_of req full out ∧
    heard_from (Z.to_nat n) req (heardOf (faGot ans)) late ∧
    answers_in_time only X stop o (stored_or_given murmur nS decode dbs (mjoin progs)) (one_source murmur nS dbs (mjoin progs))
      (fWorlds fs) t0 (faEnd ans) req (heardOf (faGot ans)) full ∧
    scored_meanwhile log2 io murmur n only X stop o (stored_or_given murmur nS decode dbs (mjoin progs)) (fWorlds fs) t0 (faEnd ans) req full.
Proof.
  intros Hn HnS Hit HX Hv HI Hpl Hz Hr Hm Hnew Hvb Hf HW Ha Hq Hpr Hnl Hlog Hu Hsc.
  exact (growing_session murmur n only reqsFirst cap Hn accepts encode nS HnS reqsFirst2 iter Hit decode X stop o HX
    sortDocs io s0 nseg recs progs dbs Hv HI Hpl Hz Hr Hm Hnew log2 sortBy Hvb ccap clients tl tr shards ls fs ss ans req t0 Hf HW Ha Hq Hpr Hnl
    (growing_session_numbers murmur n only reqsFirst cap Hn accepts encode nS HnS reqsFirst2 iter Hit decode X stop o HX
      sortDocs io s0 nseg recs progs dbs Hv HI Hpl Hz Hr Hm log2 _ ss req HW Hpr Hsc Hlog Hu)).
Qed.
Print Assumptions C120_usual_scores_beside_a_session.

(** "a" and "bb" are in the files; after a first Flush a client searches for "cat" three
    times, while another one indexes "ccc", a longer document, to the shard of "a": the
    third search gives "a" the score of the shorter one of two. *)
Definition catReq : SearchReq := mkReq ["cat"] [] (mkLogic false false false [] [] []) None (mkRankOpts RankByBM25 false 0 0) 0 false false.
Definition bwProgs : list (list wcall) := [wprogram [[]; [wix "ccc" "dog pig owl" false]]].
Definition bwStart : wstate := sessionInit 2 2 (sesStart true (sesRecs mwDbs)) bwProgs.
Definition bwStates : list wstate := let s0 := wRun hashLen 2 true true 2 wOrder 30 bwStart in let s1 := wRun hashLen 2 true true 2 wOrder 5 s0 in
  [s0; s1; wRun hashLen 2 true true 2 wOrder 400 s1].
Definition bwWorlds : list (list Shard) := endShards <$> (pipePart <$> bwStates).
Definition bwInit : fstate := fInit 2 [[catReq; catReq; catReq]] 1 1 (match bwWorlds with w :: _ => w | [] => [] end).
Definition bwWrite (t i : nat) (r : list flabel * fstate) : option (list flabel * fstate) :=
  w ← bwWorlds !! t; sh ← w !! i; s ← bmRun [LWrite i sh] (snd r); Some (fst r ++ [LWrite i sh], s).
Definition bwRun (a b : nat) : option (list flabel * fstate) :=
  r0 ← bmTurns a ([], bwInit); r1 ← bwWrite 1 0 r0; r2 ← bmTurns b r1; r3 ← bwWrite 2 0 r2; bmTurns 200 r3.
Definition bwSeen : list (list (string * list F) * nat) :=
  [([("bb", [bmOf 1 4 2 4]); ("a", [bmOf 1 2 2 2])], 1%nat); ([("bb", [bmOf 1 4 2 4]); ("a", [bmOf 1 2 2 2])], 2%nat);
   ([("a", [bmOf 2 8 2 2]); ("bb", [bmOf 1 4 2 4])], 2%nat)].
Definition bwCheck (r : list flabel * fstate) : bool :=
  bool_decide (scoresSeen (snd r) = bwSeen) && bool_decide (snd <$> fReqs (snd r) = [0; 1; 2]%nat).
Lemma bw_computed : match bwRun 30 50 with
  | Some r => bmRun (fst r) bwInit = Some (snd r) ∧ fWorlds (snd r) = bwWorlds ∧ fst <$> fReqs (snd r) = [catReq; catReq; catReq] ∧ bwCheck r = true
  | None => False end.
Proof. vm_compute. repeat split; reflexivity. Qed.
Lemma bw_written s0 : Init (optsF 2) = Some s0 →
  written_in (session_reach hashLen 2 false true PropPipe.cap1 accT encB 2 true 1 (sesRecs mwDbs) bwProgs)
    (wholeStep hashLen 2 false true PropPipe.cap1 accT encB 2 true) stableSort s0 false 2 bwWorlds bwStates.
Proof.
  intros HI. pose proof (worlds_ok s0 bwStates HI ltac:(vm_compute; reflexivity)) as HF. unfold bwWorlds. unfold bwStates in *. cbv zeta in *.
  apply written_three; [|apply wRun_reach|apply wRun_reach|exact HF]. clear HF.
  destruct mw_recs as (_ & p & Hp & Hrec & _). assert (Hl : length (sesRecs mwDbs) = 2%nat) by by vm_compute.
  assert (H : sesOkb true true mwDbs sesTwo = true) by by vm_compute. apply sesOk in H as (_ & Hrec' & Hp' & _).
  exists (sesStart true (sesRecs mwDbs)). split; [exact Hp'|]. rewrite Hl. split; [exact Hrec'|]. apply wRun_reach.
Qed.
Lemma bw_docs : made_of exX ∅ noGse (mjoin bwProgs) ∧ new_ids hashLen 2 mwDbs (mjoin bwProgs) ∧
  stored_or_given hashLen 2 decT mwDbs (mjoin bwProgs) "bb" (txt "cat dog") ∧
  stored_or_given hashLen 2 decT mwDbs (mjoin bwProgs) "ccc" (txt "dog pig owl").
Proof.
  split; [|split; [|split]].
  - intros doc d fo. unfold bwProgs, wprogram. cbn [fmap list_fmap mjoin list_join app]. rewrite !elem_of_cons, elem_of_nil. unfold wix.
    intros [?|[[= -> -> ->]|[?|[]]]]; try done; by vm_compute.
  - split; [|split].
    + intros c id. unfold bwProgs, wprogram. cbn [fmap list_fmap mjoin list_join app]. rewrite !elem_of_cons, elem_of_nil. unfold wix.
      intros [->|[->|[->|[]]]]; try done. cbn [pipeCall call_id]. intros [= <-]. by vm_compute.
    + change (omap call_id (pipeProg (mjoin bwProgs))) with ["ccc"]. apply NoDup_singleton.
    + change (omap call_id (pipeProg (mjoin bwProgs))) with ["ccc"]. intros H%elem_of_list_singleton. discriminate H.
  - left. exists "cat dog". split; by vm_compute.
  - right. exists (wdoc "ccc" (txt "dog pig owl")), false. split; [|done]. unfold bwProgs, wprogram. cbn [fmap list_fmap mjoin list_join app].
    apply elem_of_list_further, elem_of_list_here.
Qed.
Definition bwCalls : list ecall := mjoin (sesRecs mwDbs) ++ pipeProg (mjoin bwProgs).
Definition bwDocs : list DocIndex := Eval vm_compute in indexed bwCalls.
Lemma bwDocs_ok : indexed bwCalls = bwDocs.
Proof. vm_compute. reflexivity. Qed.
Definition zlBw (d : DocIndex) : Z := if seqb (DocId d) "a" then 2 else if seqb (DocId d) "bb" then 4 else 6.
Lemma bw_usual : usual_history (optsF 2) bwCalls.
Proof.
  split; [intros p [= <-]; by vm_compute|]. split; [vm_compute; reflexivity|]. rewrite bwDocs_ok. split; [repeat constructor|].
  exists zlBw. split; [repeat constructor; by vm_compute|by vm_compute].
Qed.
Lemma cat_request : timed_request (optsF 2) catReq ∧ ¬ with_logic catReq ∧ sane_scoring (ScoringCriteria (rqOpts catReq)).
Proof.
  assert (Hnl : ¬ with_logic catReq). { intros H. destruct H as [(_ & H)|H]; cbn in H; [destruct H as [H|[H|H]]; discriminate H|destruct H as [H|H]; by apply H]. }
  split; [|split; [exact Hnl|]].
  - repeat split; try done; try (by left); by apply plain_answerable.
  - intros x f [H _]; apply Forall_cons; split; [exact H|apply Forall_nil; exact I].
Qed.
Example C120_case : ∃ s0 ls fs, Init (optsF 2) = Some s0 ∧
  bmRun ls bwInit = Some fs ∧ fst <$> fReqs fs = [catReq; catReq; catReq] ∧
  written_in (session_reach hashLen 2 false true PropPipe.cap1 accT encB 2 true 1 (sesRecs mwDbs) bwProgs)
    (wholeStep hashLen 2 false true PropPipe.cap1 accT encB 2 true) stableSort s0 false 2 (fWorlds fs) bwStates ∧
  placed hashLen 2 mwDbs ∧ no_zero 2 mwDbs ∧ recoverProgs map_to_list decT exX ∅ noGse 2 mwDbs = Some (sesRecs mwDbs) ∧
  made_of exX ∅ noGse (mjoin bwProgs) ∧ new_ids hashLen 2 mwDbs (mjoin bwProgs) ∧
  stored_or_given hashLen 2 decT mwDbs (mjoin bwProgs) "bb" (txt "cat dog") ∧
  stored_or_given hashLen 2 decT mwDbs (mjoin bwProgs) "ccc" (txt "dog pig owl") ∧
  timed_request (optsF 2) catReq ∧ ¬ with_logic catReq ∧ sane_scoring (ScoringCriteria (rqOpts catReq)) ∧
  usual_log2 log2c ∧ usual_history (optsF 2) (mjoin (sesRecs mwDbs) ++ pipeProg (mjoin bwProgs)) ∧
  snd <$> fReqs fs = [0; 1; 2]%nat ∧ scoresSeen fs = bwSeen ∧ bmOf 1 2 2 2 ≠ bmOf 2 8 2 2.
Proof.
  pose proof bw_computed as H. destruct (bwRun 30 50) as [[ls fs]|]; [|destruct H]. cbn [fst snd] in H. destruct H as (Hr & Hw & Hf & Hc).
  destruct (Init (optsF 2)) as [s0|] eqn:HI; [|discriminate HI]. exists s0, ls, fs. unfold bwCheck in Hc. cbn [snd] in Hc.
  rewrite andb_true_iff, !bool_decide_eq_true in Hc. destruct Hc as [Ha Hq]. rewrite Hw.
  split; [reflexivity|]. split; [exact Hr|]. clear Hr Hw. split; [exact Hf|]. split; [exact (bw_written s0 HI)|].
  split; [exact (proj1 mw_files)|]. split; [exact (proj2 mw_files)|]. split; [exact (proj1 mw_recs)|].
  destruct bw_docs as (D1 & D2 & D3 & D4). split; [exact D1|]. split; [exact D2|]. split; [exact D3|]. split; [exact D4|].
  destruct cat_request as (Q1 & Q2 & Q3). split; [exact Q1|]. split; [exact Q2|]. split; [exact Q3|].
  split; [exact log2c_usual|]. split; [exact bw_usual|]. split; [exact Hq|]. split; [exact Ha|].
  apply (bool_decide_unpack _). by vm_compute.
Qed.
