(** Theorems about searches with deadlines, and about searches that ask the indexers only,
    while documents are being written. *)
From Verif Require Import ModelSession ModelEngine ModelFlight SpecIndexer SpecSearch SpecRank SpecRoute SpecPipe SpecSegment SpecEngine SpecFlight
  SpecStore SpecEnd SpecLife SpecClose SpecWhole SpecSession SpecDuring SpecSessionDuring SpecDeadline ProofIxThms ProofSortBy ProofFlushThms
  ProofSessionThms ProofFits ProofDuring ProofSessionDuring ProofDeadline
  ExampleTools PropPipe PropEngine PropEnd PropFlight PropStore PropSegment PropLife PropWhole PropSession PropDuring PropSessionDuring.

(** * C94: searches with deadlines, and searches that ask the indexers only, beside writes *)
(** A search with a deadline: its answer is about the shards it has heard from, and it says so
    if there is one it has not heard from. *)
Theorem C94_answers_in_time murmur n only reqsFirst cap sortDocs o s0 nseg progs log2 sortBy ccap clients tl tr shards ls fs ps ans req t0 :
  1 <= n < 2^32 → valid_sort sortDocs → Init o = Some s0 → Forall good_call (mjoin progs) →
  frun log2 sortBy (Z.to_nat n) ccap ls (fInit (Z.to_nat n) clients tl tr shards) = Some fs →
  written_by (pipeStep murmur n only reqsFirst cap) (pipeInit n nseg progs) sortDocs s0 only n (fWorlds fs) ps →
  valid_sortBy sortBy →
  ans ∈ fAnswers fs → fReqs fs !! faSearch ans = Some (req, t0) →
  timed_request o req → Forall (scores_numbers log2 req) (fWorlds fs) →
  ∃ full out late, faResp ans = mkResp (rqTokens req) late (zlen full) (Some out) ∧ page_of req full out ∧
    heard_from (Z.to_nat n) req (heardOf (faGot ans)) late ∧
    answers_heard only (mjoin progs) (fWorlds fs) t0 (faEnd ans) req (heardOf (faGot ans)) full.
Proof.
  intros Hn Hv HI Hg Hf HW Hvb . apply written_by_log in HW.
  exact (timed_heard murmur n only reqsFirst cap Hn sortDocs o s0 nseg progs Hv HI Hg log2 sortBy ccap clients tl tr shards ls fs ps ans req t0 Hvb Hf HW).
Qed.
Print Assumptions C94_answers_in_time.

(** A later search that hears from all shards misses nothing that an earlier one found. *)
Theorem C94_complete_answers_keep_all murmur n only reqsFirst cap sortDocs o s0 nseg progs log2 sortBy ccap clients tl tr shards ls fs ps a1 a2 req t1 t2 :
  1 <= n < 2^32 → valid_sort sortDocs → Init o = Some s0 → Forall good_call (mjoin progs) →
  frun log2 sortBy (Z.to_nat n) ccap ls (fInit (Z.to_nat n) clients tl tr shards) = Some fs →
  written_by (pipeStep murmur n only reqsFirst cap) (pipeInit n nseg progs) sortDocs s0 only n (fWorlds fs) ps →
  valid_sortBy sortBy →
  a1 ∈ fAnswers fs → fReqs fs !! faSearch a1 = Some (req, t1) →
  a2 ∈ fAnswers fs → fReqs fs !! faSearch a2 = Some (req, t2) → (faEnd a1 <= t2)%nat →
  timed_request o req → Forall (scores_numbers log2 req) (fWorlds fs) → rsTimeout (faResp a2) = false →
  ∃ full1 full2 out1 out2 late1,
    faResp a1 = mkResp (rqTokens req) late1 (zlen full1) (Some out1) ∧ page_of req full1 out1 ∧
    heard_from (Z.to_nat n) req (heardOf (faGot a1)) late1 ∧
    answers_heard only (mjoin progs) (fWorlds fs) t1 (faEnd a1) req (heardOf (faGot a1)) full1 ∧
    faResp a2 = mkResp (rqTokens req) false (zlen full2) (Some out2) ∧ page_of req full2 out2 ∧
    heard_from (Z.to_nat n) req (heardOf (faGot a2)) false ∧
    answers_heard only (mjoin progs) (fWorlds fs) t2 (faEnd a2) req (heardOf (faGot a2)) full2 ∧
    ∀ d f ct a fo, only_call (mjoin progs) (DocId d) (EIndex d f ct a fo) →
      score_accepts (ScoringCriteria (rqOpts req)) (DocId d) f →
      DocId d ∈ sdDocId <$> full1 → DocId d ∈ sdDocId <$> full2.
Proof.
  intros Hn Hv HI Hg Hf HW Hvb . apply written_by_log in HW.
  exact (timed_later murmur n only reqsFirst cap Hn sortDocs o s0 nseg progs Hv HI Hg log2 sortBy ccap clients tl tr shards ls fs ps a1 a2 req t1 t2 Hvb Hf HW).
Qed.
Print Assumptions C94_complete_answers_keep_all.

(** A search for the number of documents, or for the documents in any order. *)
Theorem C94_counts_and_lists murmur n only reqsFirst cap sortDocs o s0 nseg progs log2 sortBy ccap clients tl tr shards ls fs ps ans req t0 :
  1 <= n < 2^32 → valid_sort sortDocs → Init o = Some s0 → Forall good_call (mjoin progs) →
  frun log2 sortBy (Z.to_nat n) ccap ls (fInit (Z.to_nat n) clients tl tr shards) = Some fs →
  written_by (pipeStep murmur n only reqsFirst cap) (pipeInit n nseg progs) sortDocs s0 only n (fWorlds fs) ps →
  ans ∈ fAnswers fs → fReqs fs !! faSearch ans = Some (req, t0) →
  index_request o req →
  ∃ ids late, tells_ids req ids late (faResp ans) ∧ heard_from (Z.to_nat n) req (heardOf (faGot ans)) late ∧
    lists_heard (mjoin progs) (fWorlds fs) t0 (faEnd ans) req (heardOf (faGot ans)) ids.
Proof.
  intros Hn Hv HI Hg Hf HW . apply written_by_log in HW.
  exact (index_heard murmur n only reqsFirst cap Hn sortDocs o s0 nseg progs Hv HI Hg log2 sortBy ccap clients tl tr shards ls fs ps ans req t0 Hf HW).
Qed.
Print Assumptions C94_counts_and_lists.

(** If each id is in one call, the number of documents counted never falls, as long as the
    deadline is met. *)
Theorem C94_count_never_falls murmur n only reqsFirst cap sortDocs o s0 nseg progs log2 sortBy ccap clients tl tr shards ls fs ps a1 a2 req t1 t2 :
  1 <= n < 2^32 → valid_sort sortDocs → Init o = Some s0 → Forall good_call (mjoin progs) →
  frun log2 sortBy (Z.to_nat n) ccap ls (fInit (Z.to_nat n) clients tl tr shards) = Some fs →
  written_by (pipeStep murmur n only reqsFirst cap) (pipeInit n nseg progs) sortDocs s0 only n (fWorlds fs) ps →
  NoDup (omap call_id (mjoin progs)) →
  a1 ∈ fAnswers fs → fReqs fs !! faSearch a1 = Some (req, t1) →
  a2 ∈ fAnswers fs → fReqs fs !! faSearch a2 = Some (req, t2) → (faEnd a1 <= t2)%nat →
  index_request o req → rsTimeout (faResp a2) = false →
  rsNumDocs (faResp a1) <= rsNumDocs (faResp a2).
Proof.
  intros Hn Hv HI Hg Hf HW Hnd . apply written_by_log in HW.
  exact (index_count murmur n only reqsFirst cap Hn sortDocs o s0 nseg progs Hv HI Hg log2 sortBy ccap clients tl tr shards ls fs ps a1 a2 req t1 t2 Hnd Hf HW).
Qed.
Print Assumptions C94_count_never_falls.

(** Two clients write to two shards while a third one searches for "x": twice with a
    deadline that passes when shard 1 has not answered, twice for the number of documents,
    and once for the documents in any order. *)
Definition bareReq (timeout : Z) : SearchReq :=
  mkReq ["x"] [] noLogic None (mkRankOpts numScore false 0 0) timeout false true.
Definition exLate (r : list flabel * fstate) : option (list flabel * fstate) :=
  s ← exStep 2 (LProc 0 true) (snd r); Some (fst r ++ [LProc 0 true], s).
Definition deadReqs : list SearchReq := [exReq 0 0 false 5; exReq 0 0 false 5; exReq 0 0 true 5; exReq 0 0 true 5; bareReq 0].
Definition deadInit (p : pstate) : fstate := fInit 2 [deadReqs] 1 1 (endShards p).
Definition deadRun (ps : list pstate) (a b c d : nat) : option (list flabel) :=
  match ps with
  | [p0; p1; p2; p3] =>
    r0 ← exTurns a ([], deadInit p0); q0 ← exLate r0;
    r1 ← exWrite 0 p1 q0; r2 ← exTurns b r1; r3 ← exWrite 0 p2 r2; r4 ← exTurns c r3; q4 ← exLate r4; r5 ← exWrite 1 p3 q4;
    r6 ← exTurns d r5; Some (fst r6)
  | _ => None
  end.
Definition heardAnswers (fs : fstate) : list (option (list string) * Z * bool * list nat * nat) :=
  (λ a, (respIds (faResp a), rsTimeout (faResp a), heardOf (faGot a), faEnd a)) <$> fAnswers fs.
Definition inShard (ws : list (list Shard)) (t i : nat) (id : string) : bool :=
  match ws !! t with Some w => match w !! i with Some sh => has_rk sh id | None => false end | None => false end.
Lemma inShard_ok ws t i id : inShard ws t i id = true → settled_in ws t i id.
Proof.
  unfold inShard. destruct (ws !! t) as [w|] eqn:Hw; [|discriminate]. destruct (w !! i) as [sh|] eqn:Hi; [|discriminate].
  intros [Hh Hk]%andb_true_iff. exists w, sh. repeat (split; [assumption|]). destruct (rDocs (shRk sh) !! id); [eexists; reflexivity|discriminate].
Qed.
Definition deadCheck (ps : list pstate) (fs : fstate) : bool :=
  forallb (λ p, Nat.eqb (length (endShards p)) 2) ps &&
  bool_decide (heardAnswers fs =
    [(Some [], 0, true, [0]%nat, 2%nat); (Some ["a"], 1, true, [0]%nat, 3%nat); (None, 3, false, [0; 1]%nat, 3%nat); (None, 3, false, [0; 1]%nat, 3%nat);
     (Some ["a"; "c"; "b"], 3, false, [0; 1]%nat, 3%nat)]) &&
  bool_decide (snd <$> fReqs fs = [0; 2; 3; 3; 3]%nat) && inShard (fWorlds fs) 0 1 "b" && inShard (fWorlds fs) 2 0 "a".
Lemma dead_computed : withRun duringStates (λ ps, deadRun ps 16 10 40 200) (λ ls p0, exRun 2 ls (deadInit p0))
  (λ ps fs, fWorlds fs = endShards <$> ps ∧ deadCheck ps fs = true).
Proof. vm_compute. split; reflexivity. Qed.
Lemma dead_requests : timed_request (optsF 2) (exReq 0 0 false 5) ∧ index_request (optsF 2) (exReq 0 0 true 5) ∧ index_request (optsF 2) (bareReq 0).
Proof. repeat split; try done; try (by left); try (by right); by apply plain_answerable. Qed.
Example C94_case : ∃ s0 ps p0 ls fs, Init (optsF 2) = Some s0 ∧ Forall good_call (mjoin endProgs) ∧
  NoDup (omap call_id (mjoin endProgs)) ∧
  exRun 2 ls (fInit 2 [[exReq 0 0 false 5; exReq 0 0 false 5; exReq 0 0 true 5; exReq 0 0 true 5; bareReq 0]] 1 1 (endShards p0)) = Some fs ∧
  written_by (pipeStep hashAB 2 false true PropPipe.cap1) (pipeInit 2 1 endProgs) stableSort s0 false 2 (fWorlds fs) ps ∧
  timed_request (optsF 2) (exReq 0 0 false 5) ∧ index_request (optsF 2) (exReq 0 0 true 5) ∧ index_request (optsF 2) (bareReq 0) ∧
  score_nan_free numScore ∧
  (∀ d f ct a fo, EIndex d f ct a fo ∈ mjoin endProgs → score_accepts numScore (DocId d) f) ∧
  only_call (mjoin endProgs) "b" (idxB true) ∧
  settled_in (fWorlds fs) 0 1 "b" ∧ settled_in (fWorlds fs) 2 0 "a" ∧ snd <$> fReqs fs = [0; 2; 3; 3; 3]%nat ∧
  (* what is found, the number, whether it is late, the shards heard from, the end *)
  heardAnswers fs =
    [(Some [], 0, true, [0]%nat, 2%nat); (Some ["a"], 1, true, [0]%nat, 3%nat); (None, 3, false, [0; 1]%nat, 3%nat); (None, 3, false, [0; 1]%nat, 3%nat);
     (Some ["a"; "c"; "b"], 3, false, [0; 1]%nat, 3%nat)].
Proof.
  destruct (withRun_some _ _ _ _ dead_computed) as (ps & p0 & ls & fs & Hp & H0 & Hr & Hw & Hc).
  destruct (Init (optsF 2)) as [s0|] eqn:HI; [|discriminate HI]. exists s0, ps, p0, ls, fs.
  unfold deadCheck in Hc. rewrite !andb_true_iff, !bool_decide_eq_true in Hc. destruct Hc as ((((Hl & Ha) & Hq) & S0) & S1).
  split; [reflexivity|]. split; [exact endProgs_good|]. split; [exact (proj1 endProgs_once)|]. split; [exact Hr|].
  split; [rewrite Hw; exact (during_written s0 ps HI Hp Hl)|]. destruct dead_requests as (D1 & D2 & D3).
  split; [exact D1|]. split; [exact D2|]. split; [exact D3|]. split; [exact (proj2 plain_ex)|].
  split; [exact endProgs_scored|]. split; [exact (proj2 endProgs_once)|].
  split; [exact (inShard_ok _ _ _ _ S0)|]. split; [exact (inShard_ok _ _ _ _ S1)|]. split; [exact Hq|exact Ha].
Qed.

(** * C95: the same beside the writes of a session on existing files *)
(** A search with a deadline: its answer is about the shards it has heard from, and it says so
    if there is one it has not heard from. *)
Theorem C95_answers_in_time murmur n only reqsFirst cap accepts encode nS reqsFirst2 iter decode X stop o
    sortDocs io s0 nseg recs progs dbs log2 sortBy ccap clients tl tr shards ls fs ss ans req t0 :
  1 <= n < 2^32 → 1 <= nS < 2^32 → valid_iter iter → valid_range X → valid_sort sortDocs → Init io = Some s0 →
  placed murmur nS dbs → no_zero nS dbs → recoverProgs iter decode X stop o nS dbs = Some recs →
  made_of X stop o (mjoin progs) →
  frun log2 sortBy (Z.to_nat n) ccap ls (fInit (Z.to_nat n) clients tl tr shards) = Some fs →
  written_in (session_reach murmur n only reqsFirst cap accepts encode nS reqsFirst2 nseg recs progs)
    (wholeStep murmur n only reqsFirst cap accepts encode nS reqsFirst2) sortDocs s0 only n (fWorlds fs) ss →
  valid_sortBy sortBy →
  ans ∈ fAnswers fs → fReqs fs !! faSearch ans = Some (req, t0) →
  timed_request io req → Forall (scores_numbers log2 req) (fWorlds fs) →
  ∃ full out late, faResp ans = mkResp (rqTokens req) late (zlen full) (Some out) ∧ page_of req full out ∧
    heard_from (Z.to_nat n) req (heardOf (faGot ans)) late ∧
    answers_in_time only X stop o (stored_or_given murmur nS decode dbs (mjoin progs))
      (one_source murmur nS dbs (mjoin progs)) (fWorlds fs) t0 (faEnd ans) req (heardOf (faGot ans)) full.
Proof.
  intros Hn HnS Hit HX Hv HI Hpl Hz Hr Hm Hf HW. exact (session_timed murmur n only reqsFirst cap Hn accepts encode nS HnS reqsFirst2 iter Hit decode X stop o HX
    sortDocs io s0 nseg recs progs dbs Hv HI Hpl Hz Hr Hm log2 sortBy ccap clients tl tr shards ls fs ss Hf HW ans req t0).
Qed.
Print Assumptions C95_answers_in_time.

(** A later search that hears from all shards misses nothing that an earlier one found. *)
Theorem C95_complete_answers_keep_all murmur n only reqsFirst cap accepts encode nS reqsFirst2 iter decode X stop o
    sortDocs io s0 nseg recs progs dbs log2 sortBy ccap clients tl tr shards ls fs ss a1 a2 req t1 t2 :
  1 <= n < 2^32 → 1 <= nS < 2^32 → valid_iter iter → valid_range X → valid_sort sortDocs → Init io = Some s0 →
  placed murmur nS dbs → no_zero nS dbs → recoverProgs iter decode X stop o nS dbs = Some recs →
  made_of X stop o (mjoin progs) →
  frun log2 sortBy (Z.to_nat n) ccap ls (fInit (Z.to_nat n) clients tl tr shards) = Some fs →
  written_in (session_reach murmur n only reqsFirst cap accepts encode nS reqsFirst2 nseg recs progs)
    (wholeStep murmur n only reqsFirst cap accepts encode nS reqsFirst2) sortDocs s0 only n (fWorlds fs) ss →
  valid_sortBy sortBy →
  a1 ∈ fAnswers fs → fReqs fs !! faSearch a1 = Some (req, t1) →
  a2 ∈ fAnswers fs → fReqs fs !! faSearch a2 = Some (req, t2) → (faEnd a1 <= t2)%nat →
  timed_request io req → Forall (scores_numbers log2 req) (fWorlds fs) → rsTimeout (faResp a2) = false →
  ∃ full1 full2 out1 out2 late1,
    faResp a1 = mkResp (rqTokens req) late1 (zlen full1) (Some out1) ∧ page_of req full1 out1 ∧
    heard_from (Z.to_nat n) req (heardOf (faGot a1)) late1 ∧
    answers_in_time only X stop o (stored_or_given murmur nS decode dbs (mjoin progs))
      (one_source murmur nS dbs (mjoin progs)) (fWorlds fs) t1 (faEnd a1) req (heardOf (faGot a1)) full1 ∧
    faResp a2 = mkResp (rqTokens req) false (zlen full2) (Some out2) ∧ page_of req full2 out2 ∧
    heard_from (Z.to_nat n) req (heardOf (faGot a2)) false ∧
    answers_in_time only X stop o (stored_or_given murmur nS decode dbs (mjoin progs))
      (one_source murmur nS dbs (mjoin progs)) (fWorlds fs) t2 (faEnd a2) req (heardOf (faGot a2)) full2 ∧
    ∀ id d, stored_or_given murmur nS decode dbs (mjoin progs) id d → one_source murmur nS dbs (mjoin progs) id →
      score_accepts (ScoringCriteria (rqOpts req)) id (ddFields d) →
      id ∈ sdDocId <$> full1 → id ∈ sdDocId <$> full2.
Proof.
  intros Hn HnS Hit HX Hv HI Hpl Hz Hr Hm Hf HW. exact (session_timed_later murmur n only reqsFirst cap Hn accepts encode nS HnS reqsFirst2 iter Hit decode X stop o HX
    sortDocs io s0 nseg recs progs dbs Hv HI Hpl Hz Hr Hm log2 sortBy ccap clients tl tr shards ls fs ss Hf HW a1 a2 req t1 t2).
Qed.
Print Assumptions C95_complete_answers_keep_all.

(** A search for the number of documents, or for the documents in any order. *)
Theorem C95_counts_and_lists murmur n only reqsFirst cap accepts encode nS reqsFirst2 iter decode X stop o
    sortDocs io s0 nseg recs progs dbs log2 sortBy ccap clients tl tr shards ls fs ss ans req t0 :
  1 <= n < 2^32 → 1 <= nS < 2^32 → valid_iter iter → valid_range X → valid_sort sortDocs → Init io = Some s0 →
  placed murmur nS dbs → no_zero nS dbs → recoverProgs iter decode X stop o nS dbs = Some recs →
  made_of X stop o (mjoin progs) →
  frun log2 sortBy (Z.to_nat n) ccap ls (fInit (Z.to_nat n) clients tl tr shards) = Some fs →
  written_in (session_reach murmur n only reqsFirst cap accepts encode nS reqsFirst2 nseg recs progs)
    (wholeStep murmur n only reqsFirst cap accepts encode nS reqsFirst2) sortDocs s0 only n (fWorlds fs) ss →
  ans ∈ fAnswers fs → fReqs fs !! faSearch ans = Some (req, t0) →
  index_request io req →
  ∃ ids late, tells_ids req ids late (faResp ans) ∧ heard_from (Z.to_nat n) req (heardOf (faGot ans)) late ∧
    lists_in_time X stop o (stored_or_given murmur nS decode dbs (mjoin progs))
      (one_source murmur nS dbs (mjoin progs)) (fWorlds fs) t0 (faEnd ans) req (heardOf (faGot ans)) ids.
Proof.
  intros Hn HnS Hit HX Hv HI Hpl Hz Hr Hm Hf HW. exact (session_index murmur n only reqsFirst cap Hn accepts encode nS HnS reqsFirst2 iter Hit decode X stop o HX
    sortDocs io s0 nseg recs progs dbs Hv HI Hpl Hz Hr Hm log2 sortBy ccap clients tl tr shards ls fs ss Hf HW ans req t0).
Qed.
Print Assumptions C95_counts_and_lists.

(** If every id has one source, the number of documents counted never falls, as long as the
    deadline is met. *)
Theorem C95_count_never_falls murmur n only reqsFirst cap accepts encode nS reqsFirst2 iter decode X stop o
    sortDocs io s0 nseg recs progs dbs log2 sortBy ccap clients tl tr shards ls fs ss a1 a2 req t1 t2 :
  1 <= n < 2^32 → 1 <= nS < 2^32 → valid_iter iter → valid_range X → valid_sort sortDocs → Init io = Some s0 →
  placed murmur nS dbs → no_zero nS dbs → recoverProgs iter decode X stop o nS dbs = Some recs →
  made_of X stop o (mjoin progs) →
  frun log2 sortBy (Z.to_nat n) ccap ls (fInit (Z.to_nat n) clients tl tr shards) = Some fs →
  written_in (session_reach murmur n only reqsFirst cap accepts encode nS reqsFirst2 nseg recs progs)
    (wholeStep murmur n only reqsFirst cap accepts encode nS reqsFirst2) sortDocs s0 only n (fWorlds fs) ss →
  (∀ id d, stored_or_given murmur nS decode dbs (mjoin progs) id d → one_source murmur nS dbs (mjoin progs) id) →
  a1 ∈ fAnswers fs → fReqs fs !! faSearch a1 = Some (req, t1) →
  a2 ∈ fAnswers fs → fReqs fs !! faSearch a2 = Some (req, t2) → (faEnd a1 <= t2)%nat →
  index_request io req → rsTimeout (faResp a2) = false →
  rsNumDocs (faResp a1) <= rsNumDocs (faResp a2).
Proof.
  intros Hn HnS Hit HX Hv HI Hpl Hz Hr Hm Hf HW. exact (session_index_count murmur n only reqsFirst cap Hn accepts encode nS HnS reqsFirst2 iter Hit decode X stop o HX
    sortDocs io s0 nseg recs progs dbs Hv HI Hpl Hz Hr Hm log2 sortBy ccap clients tl tr shards ls fs ss Hf HW a1 a2 req t1 t2).
Qed.
Print Assumptions C95_count_never_falls.

(** "a" and "bb" are in the files; after a first Flush a client searches for "dog" with a
    deadline that passes, then counts twice, while another one indexes "ccc". *)
Definition late2 (req : SearchReq) : SearchReq :=
  mkReq (rqTokens req) (rqLabels req) (rqLogic req) (rqDocIds req) (rqOpts req) 5 (rqCountOnly req) (rqOrderless req).
Definition count2 (req : SearchReq) : SearchReq :=
  mkReq (rqTokens req) (rqLabels req) (rqLogic req) (rqDocIds req) (rqOpts req) 5 true (rqOrderless req).
Definition mdReqs : list SearchReq := [late2 (lifeReq "dog"); count2 (lifeReq "dog"); count2 (lifeReq "dog")].
Definition mdInit : fstate := fInit 2 [mdReqs] 1 1 (match mwWorlds with w :: _ => w | [] => [] end).
Definition mdRun : option (list flabel * fstate) :=
  r0 ← exTurns 16 ([], mdInit); q0 ← exLate r0; r1 ← mwWrite 1 0 q0; r2 ← exTurns 20 r1; r3 ← mwWrite 2 0 r2; exTurns 200 r3.
Definition mdAnswers : list (option (list string) * Z * bool * list nat * nat) :=
  [(Some [], 0, true, [0]%nat, 1%nat); (None, 2, false, [0; 1]%nat, 2%nat); (None, 2, false, [0; 1]%nat, 2%nat)].
Definition mdCheck (r : list flabel * fstate) : bool :=
  bool_decide (heardAnswers (snd r) = mdAnswers) && bool_decide (snd <$> fReqs (snd r) = [0; 1; 2]%nat) && inShard (fWorlds (snd r)) 0 1 "bb".
Lemma md_computed : match mdRun with Some r => exRun 2 (fst r) mdInit = Some (snd r) ∧ fWorlds (snd r) = mwWorlds ∧ mdCheck r = true | None => False end.
Proof. vm_compute. repeat split; reflexivity. Qed.
Lemma md_requests : timed_request (optsF 2) (late2 (lifeReq "dog")) ∧ index_request (optsF 2) (count2 (lifeReq "dog")).
Proof. repeat split; try done; try (by left); try (by right); by apply plain_answerable. Qed.
Example C95_case : ∃ s0 ls fs, Init (optsF 2) = Some s0 ∧
  exRun 2 ls mdInit = Some fs ∧
  written_in (session_reach hashLen 2 false true PropPipe.cap1 accT encB 2 true 1 (sesRecs mwDbs) mwProgs)
    (wholeStep hashLen 2 false true PropPipe.cap1 accT encB 2 true) stableSort s0 false 2 (fWorlds fs) mwStates ∧
  placed hashLen 2 mwDbs ∧ no_zero 2 mwDbs ∧ recoverProgs map_to_list decT exX ∅ noGse 2 mwDbs = Some (sesRecs mwDbs) ∧
  made_of exX ∅ noGse (mjoin mwProgs) ∧
  stored_or_given hashLen 2 decT mwDbs (mjoin mwProgs) "bb" (txt "cat dog") ∧ one_source hashLen 2 mwDbs (mjoin mwProgs) "bb" ∧
  stored_or_given hashLen 2 decT mwDbs (mjoin mwProgs) "ccc" (txt "Dog") ∧ one_source hashLen 2 mwDbs (mjoin mwProgs) "ccc" ∧
  timed_request (optsF 2) (late2 (lifeReq "dog")) ∧ index_request (optsF 2) (count2 (lifeReq "dog")) ∧
  settled_in (fWorlds fs) 0 1 "bb" ∧ snd <$> fReqs fs = [0; 1; 2]%nat ∧ heardAnswers fs = mdAnswers.
Proof.
  pose proof md_computed as H. destruct mdRun as [[ls fs]|]; [|destruct H]. cbn [fst snd] in H. destruct H as (Hr & Hw & Hc).
  destruct (Init (optsF 2)) as [s0|] eqn:HI; [|discriminate HI]. exists s0, ls, fs. unfold mdCheck in Hc. cbn [snd] in Hc.
  rewrite !andb_true_iff, !bool_decide_eq_true in Hc. destruct Hc as [[Ha Hq] Hs]. apply inShard_ok in Hs.
  split; [reflexivity|]. split; [exact Hr|]. clear Hr. split; [rewrite Hw; exact (mw_written s0 HI)|]. clear Hw.
  split; [exact (proj1 mw_files)|]. split; [exact (proj2 mw_files)|]. split; [exact (proj1 mw_recs)|].
  destruct mw_docs as (D1 & D2 & D3 & D4 & D5). split; [exact D1|]. split; [exact D2|]. split; [exact D3|]. split; [exact D4|]. split; [exact D5|].
  split; [exact (proj1 md_requests)|]. split; [exact (proj2 md_requests)|]. split; [exact Hs|]. split; [exact Hq|exact Ha].
Qed.
