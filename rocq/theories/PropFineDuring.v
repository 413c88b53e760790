(** C107: searches over the whole engine beside writes, with the indexers at the level of
    their locks: a search may see a shard in the middle of a call. *)
From Verif Require Import ModelPipe ModelEngine ModelFlight SpecIndexer SpecSearch SpecRank SpecRoute SpecPipe SpecEngine SpecFlight SpecEnd SpecDuring SpecDeadline
  SpecFine SpecFineSearch SpecFineDuring ProofIxThms ProofSortBy ProofFlushThms ProofEnd ProofFits ProofNumbers ProofFineSim ProofFineCycle ProofFineLive ProofMoments ProofDuring ProofFine ProofFineThms ProofFineSearch ProofFineDuring
  ExampleTools PropPipe PropEngine PropEnd PropFlight PropDuring PropDeadline PropLocks PropFine PropFineSearch.

(** C84 and C94 without the assumption that a call of an indexer method is one step.  A
    search without a deadline: the documents that one call concerns are found if they were
    in when it started, and only documents that were given are found. *)
Theorem C107_settled_documents_are_found murmur n only reqsFirst cap wlog2 sortDocs nseg progs io x0 stale looks log2 sortBy ccap clients tl tr shards ls fs ss
    ans req t0 :
  1 <= n < 2^32 → kept_apart progs → valid_sort sortDocs → Init io = Some x0 → Forall good_call (mjoin progs) →
  frun log2 sortBy (Z.to_nat n) ccap ls (fInit (Z.to_nat n) clients tl tr shards) = Some fs →
  written_fine (fineStep murmur n only reqsFirst cap wlog2 sortDocs) (fineInit n nseg progs x0 stale looks) only n (fWorlds fs) ss →
  valid_sortBy sortBy →
  ans ∈ fAnswers fs → fReqs fs !! faSearch ans = Some (req, t0) →
  plain_request io req → Forall (scores_numbers log2 req) (fWorlds fs) →
  ∃ full out, faResp ans = mkResp (rqTokens req) false (zlen full) (Some out) ∧ page_of req full out ∧
    answers_during only (mjoin progs) (fWorlds fs) t0 (faEnd ans) req full.
Proof.
  intros Hn Hap Hv HI Hg Hf HW Hvb. apply written_lock in HW.
  exact (during_mo _ _ _ _ _ _ _ (at_lock murmur n only reqsFirst cap wlog2 sortDocs Hn nseg progs Hap io x0 stale looks Hv HI Hg)
    log2 sortBy ccap clients tl tr shards ls fs ss ans req t0 Hvb Hf HW).
Qed.
Print Assumptions C107_settled_documents_are_found.

(** A later search misses none of the documents that one call concerns and that an
    earlier one found. *)
Theorem C107_nothing_disappears murmur n only reqsFirst cap wlog2 sortDocs nseg progs io x0 stale looks log2 sortBy ccap clients tl tr shards ls fs ss
    a1 a2 req t1 t2 :
  1 <= n < 2^32 → kept_apart progs → valid_sort sortDocs → Init io = Some x0 → Forall good_call (mjoin progs) →
  frun log2 sortBy (Z.to_nat n) ccap ls (fInit (Z.to_nat n) clients tl tr shards) = Some fs →
  written_fine (fineStep murmur n only reqsFirst cap wlog2 sortDocs) (fineInit n nseg progs x0 stale looks) only n (fWorlds fs) ss →
  valid_sortBy sortBy →
  a1 ∈ fAnswers fs → fReqs fs !! faSearch a1 = Some (req, t1) →
  a2 ∈ fAnswers fs → fReqs fs !! faSearch a2 = Some (req, t2) → (faEnd a1 <= t2)%nat →
  plain_request io req → Forall (scores_numbers log2 req) (fWorlds fs) →
  ∃ full1 out1 full2 out2,
    faResp a1 = mkResp (rqTokens req) false (zlen full1) (Some out1) ∧ page_of req full1 out1 ∧
    faResp a2 = mkResp (rqTokens req) false (zlen full2) (Some out2) ∧ page_of req full2 out2 ∧
    answers_during only (mjoin progs) (fWorlds fs) t1 (faEnd a1) req full1 ∧
    answers_during only (mjoin progs) (fWorlds fs) t2 (faEnd a2) req full2 ∧
    ∀ d f ct a fo, only_call (mjoin progs) (DocId d) (EIndex d f ct a fo) →
      score_accepts (ScoringCriteria (rqOpts req)) (DocId d) f →
      DocId d ∈ sdDocId <$> full1 → DocId d ∈ sdDocId <$> full2.
Proof.
  intros Hn Hap Hv HI Hg Hf HW Hvb. apply written_lock in HW.
  exact (later_mo _ _ _ _ _ _ _ (at_lock murmur n only reqsFirst cap wlog2 sortDocs Hn nseg progs Hap io x0 stale looks Hv HI Hg)
    log2 sortBy ccap clients tl tr shards ls fs ss a1 a2 req t1 t2 Hvb Hf HW).
Qed.
Print Assumptions C107_nothing_disappears.

(** A search with a deadline: its answer is about the shards it has heard from, and it says
    so if there is one it has not heard from. *)
Theorem C107_answers_in_time murmur n only reqsFirst cap wlog2 sortDocs nseg progs io x0 stale looks log2 sortBy ccap clients tl tr shards ls fs ss
    ans req t0 :
  1 <= n < 2^32 → kept_apart progs → valid_sort sortDocs → Init io = Some x0 → Forall good_call (mjoin progs) →
  frun log2 sortBy (Z.to_nat n) ccap ls (fInit (Z.to_nat n) clients tl tr shards) = Some fs →
  written_fine (fineStep murmur n only reqsFirst cap wlog2 sortDocs) (fineInit n nseg progs x0 stale looks) only n (fWorlds fs) ss →
  valid_sortBy sortBy →
  ans ∈ fAnswers fs → fReqs fs !! faSearch ans = Some (req, t0) →
  timed_request io req → Forall (scores_numbers log2 req) (fWorlds fs) →
  ∃ full out late, faResp ans = mkResp (rqTokens req) late (zlen full) (Some out) ∧ page_of req full out ∧
    heard_from (Z.to_nat n) req (heardOf (faGot ans)) late ∧
    answers_heard only (mjoin progs) (fWorlds fs) t0 (faEnd ans) req (heardOf (faGot ans)) full.
Proof.
  intros Hn Hap Hv HI Hg Hf HW Hvb. apply written_lock in HW.
  exact (timed_heard_mo _ _ _ _ _ _ _ (at_lock murmur n only reqsFirst cap wlog2 sortDocs Hn nseg progs Hap io x0 stale looks Hv HI Hg)
    log2 sortBy ccap clients tl tr shards ls fs ss ans req t0 Hvb Hf HW).
Qed.
Print Assumptions C107_answers_in_time.

(** A search for the number of documents, or for the documents in any order. *)
Theorem C107_counts_and_lists murmur n only reqsFirst cap wlog2 sortDocs nseg progs io x0 stale looks log2 sortBy ccap clients tl tr shards ls fs ss
    ans req t0 :
  1 <= n < 2^32 → kept_apart progs → valid_sort sortDocs → Init io = Some x0 → Forall good_call (mjoin progs) →
  frun log2 sortBy (Z.to_nat n) ccap ls (fInit (Z.to_nat n) clients tl tr shards) = Some fs →
  written_fine (fineStep murmur n only reqsFirst cap wlog2 sortDocs) (fineInit n nseg progs x0 stale looks) only n (fWorlds fs) ss →
  ans ∈ fAnswers fs → fReqs fs !! faSearch ans = Some (req, t0) →
  index_request io req →
  ∃ ids late, tells_ids req ids late (faResp ans) ∧ heard_from (Z.to_nat n) req (heardOf (faGot ans)) late ∧
    lists_heard (mjoin progs) (fWorlds fs) t0 (faEnd ans) req (heardOf (faGot ans)) ids.
Proof.
  intros Hn Hap Hv HI Hg Hf HW. apply written_lock in HW.
  exact (index_heard_mo _ _ _ _ _ _ _ (at_lock murmur n only reqsFirst cap wlog2 sortDocs Hn nseg progs Hap io x0 stale looks Hv HI Hg)
    log2 sortBy ccap clients tl tr shards ls fs ss ans req t0 Hf HW).
Qed.
Print Assumptions C107_counts_and_lists.

(** With one call for each id, the number of documents counted never falls, as long as the
    deadline is met. *)
Theorem C107_count_never_falls murmur n only reqsFirst cap wlog2 sortDocs nseg progs io x0 stale looks log2 sortBy ccap clients tl tr shards ls fs ss
    a1 a2 req t1 t2 :
  1 <= n < 2^32 → kept_apart progs → valid_sort sortDocs → Init io = Some x0 → Forall good_call (mjoin progs) →
  frun log2 sortBy (Z.to_nat n) ccap ls (fInit (Z.to_nat n) clients tl tr shards) = Some fs →
  written_fine (fineStep murmur n only reqsFirst cap wlog2 sortDocs) (fineInit n nseg progs x0 stale looks) only n (fWorlds fs) ss →
  NoDup (omap call_id (mjoin progs)) →
  a1 ∈ fAnswers fs → fReqs fs !! faSearch a1 = Some (req, t1) →
  a2 ∈ fAnswers fs → fReqs fs !! faSearch a2 = Some (req, t2) → (faEnd a1 <= t2)%nat →
  index_request io req → rsTimeout (faResp a2) = false →
  rsNumDocs (faResp a1) <= rsNumDocs (faResp a2).
Proof.
  intros Hn Hap Hv HI Hg Hf HW Hnd. apply written_lock in HW.
  exact (index_count_mo _ _ _ _ _ _ _ (at_lock murmur n only reqsFirst cap wlog2 sortDocs Hn nseg progs Hap io x0 stale looks Hv HI Hg)
    log2 sortBy ccap clients tl tr shards ls fs ss a1 a2 req t1 t2 Hnd Hf HW).
Qed.
Print Assumptions C107_count_never_falls.

(** ** Cases *)
(** The shard of [s] as the searches over the engine find it *)
Definition shardOf (s : fine) : Shard :=
  ModelEngine.mkShard (index_of (sh1 s)) (default (RankerInit [false]) (rrun (rkCalls 0 (sLog (fPipe s))) (RankerInit [false]))).
Definition settleds (s : fine) : bool :=
  (length (fShards s) =? 1)%nat && match rrun (rkCalls 0 (sLog (fPipe s))) (RankerInit [false]) with Some _ => true | None => false end.
Lemma shardOf_ok s : settleds s = true → shards_now false 1 s [shardOf s].
Proof.
  intros [H1 H2]%andb_true_iff. split; [reflexivity|]. intros [|i] sh Hi; [|by rewrite lookup_cons, lookup_nil in Hi].
  injection Hi as <-. split.
  - exists (sh1 s). by rewrite (sh1_ok s H1).
  - unfold shardOf. cbn [shRk]. by destruct (rrun _ _).
Qed.
Lemma written1 prog looks s0 s1 s2 : reach1 prog looks s0 → rtc (fineStep hash0 1 false true PropPipe.cap1 (λ x, x) stableSort) s0 s1 →
  rtc (fineStep hash0 1 false true PropPipe.cap1 (λ x, x) stableSort) s1 s2 → forallb settleds [s0; s1; s2] = true →
  written_fine (fineStep hash0 1 false true PropPipe.cap1 (λ x, x) stableSort) (start1 prog looks) false 1 ((λ s, [shardOf s]) <$> [s0; s1; s2]) [s0; s1; s2].
Proof.
  intros H0 H1 H2 Hs. split; [|split].
  - intros s Ha. injection Ha as <-. exact H0.
  - intros [|[|[|t]]] p q Ha Hb; try discriminate Ha; try discriminate Hb; injection Ha as <-; injection Hb as <-; assumption.
  - rewrite forallb_forall in Hs. rewrite <- (list_fmap_id [s0; s1; s2]) at 1.
    apply Forall2_fmap. apply Forall_Forall2_diag, Forall_forall. intros s Hin. apply shardOf_ok, Hs. by apply elem_of_list_In.
Qed.
Definition turns1 (k : nat) (r : list flabel * fstate) : option (list flabel * fstate) :=
  let ls := driven 1 (take k (PropFlight.rounds 40 3)) (snd r) in s ← exRun 1 ls (snd r); Some (fst r ++ ls, s).
Definition write1 (p : fine) (r : list flabel * fstate) : option (list flabel * fstate) :=
  s ← exStep 1 (LWrite 0 (shardOf p)) (snd r); Some (fst r ++ [LWrite 0 (shardOf p)], s).
Definition flabels (init : fstate) (s1 s2 : fine) (a b c : nat) : option (list flabel) :=
  r0 ← turns1 a ([], init); r1 ← write1 s1 r0; r2 ← turns1 b r1; r3 ← write1 s2 r2; r4 ← turns1 c r3; Some (fst r4).
Definition init1 (reqs : list SearchReq) (s : fine) : fstate := fInit 1 [reqs] 1 1 [shardOf s].
Definition fineRun (reqs : list SearchReq) (s0 s1 s2 : fine) (a b c : nat) (P : fstate → Prop) : Prop :=
  match flabels (init1 reqs s0) s1 s2 a b c with
  | Some ls => match exRun 1 ls (init1 reqs s0) with Some fs => P fs | None => False end
  | None => False
  end.
Lemma fineRun_some reqs s0 s1 s2 a b c P : fineRun reqs s0 s1 s2 a b c P → ∃ ls fs, exRun 1 ls (init1 reqs s0) = Some fs ∧ P fs.
Proof. unfold fineRun. destruct (flabels _ _ _ _ _ _) as [ls|]; [|done]. destruct (exRun 1 ls _) as [fs|] eqn:E; [|done]. intros H. by exists ls, fs. Qed.
(** The requests run against the shard in its first state, in the middle of the call that
    adds "a" and "b", and in the middle of the call that removes "b".  The second search
    starts when "a" and "b" are in; it finds "a", and "b" no more. *)
Definition startG : fine := start1 (program phasesG) looksF.
Definition reqsG : list SearchReq := [exReq 0 0 false 0; exReq 0 0 false 5; exReq 0 0 true 5].
Definition fineCheck (ss : list fine) (fs : fstate) (answers : list (option (list string) * Z * bool * list nat * nat)) (starts : list nat) : bool :=
  forallb settleds ss && bool_decide (heardAnswers fs = answers) && bool_decide (snd <$> fReqs fs = starts).
Definition answersG : list (option (list string) * Z * bool * list nat * nat) :=
  [(Some ["b"; "a"], 2, false, [0]%nat, 1%nat); (Some ["a"], 1, false, [0]%nat, 2%nat); (None, 1, false, [0]%nat, 2%nat)].
Lemma fine_computed : fineRun reqsG startG seenG laterG 1 30 100 (λ fs, fWorlds fs = (λ s, [shardOf s]) <$> [startG; seenG; laterG] ∧
  fineCheck [startG; seenG; laterG] fs answersG [0; 1; 2]%nat && inShard (fWorlds fs) 1 0 "a" && inShard (fWorlds fs) 1 0 "b" = true).
Proof. vm_compute. split; reflexivity. Qed.
Lemma fine_requests : plain_request (optsL 8) (exReq 0 0 false 0) ∧ timed_request (optsL 8) (exReq 0 0 false 5) ∧ index_request (optsL 8) (exReq 0 0 true 5).
Proof. repeat split; try done; try (by left); try (by right); by apply plain_answerable. Qed.
Example C107_case : ∃ ls fs, kept_apart [program phasesG] ∧ Forall good_call (mjoin [program phasesG]) ∧ Init (optsL 8) = Some emptyIx ∧
  exRun 1 ls (fInit 1 [[exReq 0 0 false 0; exReq 0 0 false 5; exReq 0 0 true 5]] 1 1 [shardOf startG]) = Some fs ∧
  written_fine (fineStep hash0 1 false true PropPipe.cap1 (λ x, x) stableSort) (start1 (program phasesG) looksF) false 1 (fWorlds fs) [startG; seenG; laterG] ∧
  fsAdding (sh1 seenG) = Some 2%nat ∧ fsRemoving (sh1 laterG) = Some 3%nat ∧
  plain_request (optsL 8) (exReq 0 0 false 0) ∧ timed_request (optsL 8) (exReq 0 0 false 5) ∧ index_request (optsL 8) (exReq 0 0 true 5) ∧
  score_nan_free numScore ∧ only_call (mjoin [program phasesG]) "a" (idxA false) ∧
  settled_in (fWorlds fs) 1 0 "a" ∧ settled_in (fWorlds fs) 1 0 "b" ∧ snd <$> fReqs fs = [0; 1; 2]%nat ∧
  (* what is found, the number, whether it is late, the shards heard from, the end *)
  heardAnswers fs =
    [(Some ["b"; "a"], 2, false, [0]%nat, 1%nat); (Some ["a"], 1, false, [0]%nat, 2%nat); (None, 1, false, [0]%nat, 2%nat)].
Proof.
  destruct (fineRun_some _ _ _ _ _ _ _ _ fine_computed) as (ls & fs & Hr & Hw & Hc). exists ls, fs.
  unfold fineCheck in Hc. rewrite !andb_true_iff, !bool_decide_eq_true in Hc. destruct Hc as ((((Hs & Ha) & Hq) & S0) & S1).
  destruct phasesG_ok as [H1 H2]. destruct fine_requests as (D1 & D2 & D3).
  split; [exact (phases_apart phasesG H1 H2)|]. split; [exact (program_good phasesG H1)|]. split; [exact emptyIx_ok|]. split; [exact Hr|].
  split; [rewrite Hw; apply written1; [apply rtc_refl|apply runTo_reach|apply runTo_reach|exact Hs]|].
  split; [vm_compute; reflexivity|]. split; [vm_compute; reflexivity|]. split; [exact D1|]. split; [exact D2|]. split; [exact D3|].
  split; [exact (proj2 plain_ex)|]. split; [vm_compute; reflexivity|]. split; [exact (inShard_ok _ _ _ _ S0)|]. split; [exact (inShard_ok _ _ _ _ S1)|].
  split; [exact Hq|exact Ha].
Qed.
(** Two documents, one call each: counted before, in the middle of and after the call that
    adds them. *)
Definition phasesH : list (list ecall) := [[idxA false; idxB true]].
Lemma phasesH_ok : Forall good_phase phasesH ∧ Forall apart phasesH.
Proof. destruct phasesF_ok as [H1 H2]. split; [exact (Forall_take _ 1 phasesF H1)|exact (Forall_take _ 1 phasesF H2)]. Qed.
Definition startH : fine := start1 (program phasesH) looksF.
Definition seenH : fine := runTo (λ s, HasDoc (index_of (sh1 s)) "a") (PropFine.rounds 150 (everybody 1)) startH.
Definition endH : fine := runTo never (PropFine.rounds 50 (everybody 1)) seenH.
Definition reqsH : list SearchReq := [exReq 0 0 true 5; exReq 0 0 true 5; exReq 0 0 true 5].
Definition answersH : list (option (list string) * Z * bool * list nat * nat) :=
  [(None, 0, false, [0]%nat, 1%nat); (None, 2, false, [0]%nat, 2%nat); (None, 2, false, [0]%nat, 2%nat)].
Lemma count_computed : fineRun reqsH startH seenH endH 10 10 100 (λ fs, fWorlds fs = (λ s, [shardOf s]) <$> [startH; seenH; endH] ∧
  fineCheck [startH; seenH; endH] fs answersH [0; 1; 2]%nat = true).
Proof. vm_compute. split; reflexivity. Qed.
Example C107_case_count : ∃ ls fs, kept_apart [program phasesH] ∧ Forall good_call (mjoin [program phasesH]) ∧ NoDup (omap call_id (mjoin [program phasesH])) ∧
  exRun 1 ls (fInit 1 [[exReq 0 0 true 5; exReq 0 0 true 5; exReq 0 0 true 5]] 1 1 [shardOf startH]) = Some fs ∧
  written_fine (fineStep hash0 1 false true PropPipe.cap1 (λ x, x) stableSort) (start1 (program phasesH) looksF) false 1 (fWorlds fs) [startH; seenH; endH] ∧
  fsAdding (sh1 seenH) = Some 2%nat ∧ index_request (optsL 8) (exReq 0 0 true 5) ∧ snd <$> fReqs fs = [0; 1; 2]%nat ∧
  heardAnswers fs = [(None, 0, false, [0]%nat, 1%nat); (None, 2, false, [0]%nat, 2%nat); (None, 2, false, [0]%nat, 2%nat)].
Proof.
  destruct (fineRun_some _ _ _ _ _ _ _ _ count_computed) as (ls & fs & Hr & Hw & Hc). exists ls, fs.
  unfold fineCheck in Hc. rewrite !andb_true_iff, !bool_decide_eq_true in Hc. destruct Hc as ((Hs & Ha) & Hq).
  destruct phasesH_ok as [H1 H2].
  split; [exact (phases_apart phasesH H1 H2)|]. split; [exact (program_good phasesH H1)|]. split; [apply (bool_decide_unpack _); by vm_compute|]. split; [exact Hr|].
  split; [rewrite Hw; apply written1; [apply rtc_refl|apply runTo_reach|apply runTo_reach|exact Hs]|].
  split; [vm_compute; reflexivity|]. split; [exact (proj2 (proj2 fine_requests))|]. split; [exact Hq|exact Ha].
Qed.
