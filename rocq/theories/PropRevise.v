(** Theorems about searches after updates and removals, with any number of segmenters. *)
From Verif Require Import ModelSession ModelEngine ModelFlight SpecIndexer SpecSearch SpecLogic SpecRank SpecRoute SpecPipe SpecSegment SpecEngine SpecFlight
  SpecStore SpecEnd SpecFits SpecUpdate SpecLife SpecClose SpecWhole SpecSession SpecRevise ProofIxThms ProofSortBy ProofFlushThms ProofEnd ProofRevise
  ExampleTools PropPipe PropStore PropSegment PropEngine PropEnd PropLife PropUpdate PropWhole PropWholeLive PropSession.

(** * C97: updates and removals, any number of segmenters *)
(** One client that calls Flush between updates, without storage.  Once its last Flush
    has returned, searches find nothing but current versions; when all has come to rest,
    they find all of them whose documents were never removed. *)
Theorem C97_search_sees_the_revisions murmur n only reqsFirst cap sortDocs sortBy o s0 nseg phases s shards log2 req order :
  1 <= n < 2^32 → valid_sort sortDocs → valid_sortBy sortBy → Init o = Some s0 →
  pipe_reach murmur n only reqsFirst cap nseg [program phases] s → returned 0 s → Forall good_phase phases →
  engine_shards sortDocs s0 only n s shards →
  open_request o req → scores_numbers log2 req shards → all_arrive (length shards) order →
  ∃ full out, Search log2 sortBy req shards order = Some (mkResp (rqTokens req) false (zlen full) (Some out)) ∧
    answers_revised n only (called murmur n (program phases)) req (quiescent s) full out.
Proof.
  intros Hn. exact (revised_search murmur n only Hn reqsFirst cap sortDocs sortBy o s0 nseg phases s shards log2 req order).
Qed.
Print Assumptions C97_search_sees_the_revisions.

(** The same for searches of any number of clients at the same time. *)
Theorem C97_searches_see_the_revisions murmur n only reqsFirst cap sortDocs sortBy o s0 nseg phases s shards log2 nn ccap
    clients tl tr ls fs a req t0 :
  1 <= n < 2^32 → valid_sort sortDocs → valid_sortBy sortBy → Init o = Some s0 →
  pipe_reach murmur n only reqsFirst cap nseg [program phases] s → returned 0 s → Forall good_phase phases →
  engine_shards sortDocs s0 only n s shards →
  frun log2 sortBy nn ccap ls (fInit nn clients tl tr shards) = Some fs → Forall read_only ls → length shards = nn →
  a ∈ fAnswers fs → fReqs fs !! faSearch a = Some (req, t0) →
  open_request o req → scores_numbers log2 req shards →
  ∃ full out, faResp a = mkResp (rqTokens req) false (zlen full) (Some out) ∧
    answers_revised n only (called murmur n (program phases)) req (quiescent s) full out.
Proof.
  intros Hn. exact (revised_flight murmur n only Hn reqsFirst cap sortDocs sortBy o s0 nseg phases s shards log2 nn ccap
    clients tl tr ls fs a req t0).
Qed.
Print Assumptions C97_searches_see_the_revisions.

(** * C98: updates and removals in a session on existing files *)
(** The client leaves the documents of the files alone until its first Flush; then it may
    update and remove them. *)
Theorem C98_search_in_a_session_sees_the_revisions murmur n only reqsFirst cap accepts encode nS reqsFirst2 iter decode X stop o
    sortDocs sortBy io s0 nseg recs dbs ph1 rest s shards log2 req order :
  1 <= n < 2^32 → 1 <= nS < 2^32 → valid_iter iter → valid_range X →
  valid_sort sortDocs → valid_sortBy sortBy → Init io = Some s0 → placed murmur nS dbs → no_zero nS dbs →
  recoverProgs iter decode X stop o nS dbs = Some recs →
  Forall (λ ph, good_phase (pipeProg ph)) (ph1 :: rest) → fresh_ids murmur nS dbs ph1 →
  session_reach murmur n only reqsFirst cap accepts encode nS reqsFirst2 nseg recs [wprogram (ph1 :: rest)] s → wreturned 0 s →
  engine_shards sortDocs s0 only n (pipePart s) shards →
  open_request io req → scores_numbers log2 req shards → all_arrive (length shards) order →
  ∃ full out, Search log2 sortBy req shards order = Some (mkResp (rqTokens req) false (zlen full) (Some out)) ∧
    answers_revised n only (in_session murmur n nS decode X stop o dbs (wprogram (ph1 :: rest))) req (pipe_rest s) full out.
Proof.
  intros Hn HnS Hit HX Hv Hvb HI Hpl Hz Hp Hg Hf Hr Hret Hsh.
  exact (ses_search murmur n only reqsFirst cap Hn accepts encode nS HnS reqsFirst2 iter Hit decode X stop o HX
    sortDocs io s0 nseg recs dbs ph1 rest s shards Hv HI Hpl Hz Hp Hg Hf Hr Hret Hsh sortBy log2 req order Hvb).
Qed.
Print Assumptions C98_search_in_a_session_sees_the_revisions.

Theorem C98_searches_in_a_session_see_the_revisions murmur n only reqsFirst cap accepts encode nS reqsFirst2 iter decode X stop o
    sortDocs sortBy io s0 nseg recs dbs ph1 rest s shards log2 nn ccap clients tl tr ls fs a req t0 :
  1 <= n < 2^32 → 1 <= nS < 2^32 → valid_iter iter → valid_range X →
  valid_sort sortDocs → valid_sortBy sortBy → Init io = Some s0 → placed murmur nS dbs → no_zero nS dbs →
  recoverProgs iter decode X stop o nS dbs = Some recs →
  Forall (λ ph, good_phase (pipeProg ph)) (ph1 :: rest) → fresh_ids murmur nS dbs ph1 →
  session_reach murmur n only reqsFirst cap accepts encode nS reqsFirst2 nseg recs [wprogram (ph1 :: rest)] s → wreturned 0 s →
  engine_shards sortDocs s0 only n (pipePart s) shards →
  frun log2 sortBy nn ccap ls (fInit nn clients tl tr shards) = Some fs → Forall read_only ls → length shards = nn →
  a ∈ fAnswers fs → fReqs fs !! faSearch a = Some (req, t0) →
  open_request io req → scores_numbers log2 req shards →
  ∃ full out, faResp a = mkResp (rqTokens req) false (zlen full) (Some out) ∧
    answers_revised n only (in_session murmur n nS decode X stop o dbs (wprogram (ph1 :: rest))) req (pipe_rest s) full out.
Proof.
  intros Hn HnS Hit HX Hv Hvb HI Hpl Hz Hp Hg Hf Hr Hret Hsh.
  exact (ses_flight murmur n only reqsFirst cap Hn accepts encode nS HnS reqsFirst2 iter Hit decode X stop o HX
    sortDocs io s0 nseg recs dbs ph1 rest s shards Hv HI Hpl Hz Hp Hg Hf Hr Hret Hsh sortBy log2 nn ccap clients tl tr ls fs a req t0 Hvb).
Qed.
Print Assumptions C98_searches_in_a_session_see_the_revisions.

(** Two segmenters, the case of C81: the answer has the words of the new version and may
    have the data of the old one.  [revSched] ends when the last Flush has returned and a
    segmenter still holds the old data; [revLate] is the rest. *)
Definition revPhases : list (list ecall) :=
  [[EIndex docA (IOther 1) "old" INil false; idxB true]; [EIndex docA2 (IOther 2) "new" INil false; ERemove "b" false]].
Definition revShards (s : pstate) : list Shard := omap (λ i, endShard i s) [0].
Definition revReq (tok : string) : SearchReq := lifeReq tok.
Definition revSearch (s : pstate) (tok : string) : option (option (list (string * string)) * Z) :=
  match Search (λ x, x) insSortBy (revReq tok) (revShards s) [Some 0%nat] with
  | Some r => Some (fmap (M:=list) (λ h, (sdDocId h, sdContent h)) <$> rsDocs r, rsNumDocs r)
  | None => None
  end.
(** The first segmenter gets the first document and hands it to the indexer; then it gets
    no more turns until the end. *)
Definition revFirst rf : pstate := pRun hash0 1 rf [0]%nat 3 (pipeInit 1 2 [program revPhases]).
Definition revMid rf : pstate := pRun hash0 1 rf [6; 5; 4; 3; 2; 0]%nat 400 (pRun hash0 1 rf [1]%nat 2 (revFirst rf)).
Definition revLate rf : pstate := pRun hash0 1 rf [6; 5; 4; 3; 2; 1; 0]%nat 400 (revMid rf).
Lemma revShards_ok s0 s : Init (optsF 2) = Some s0 → length (revShards s) = 1%nat →
  engine_shards stableSort s0 false 1 s (revShards s).
Proof.
  intros HI. unfold revShards. cbn [omap list_omap].
  assert (HE : ∀ i sh, endShard i s = Some sh → run stableSort (ixCalls i (sLog s)) s0 = Some (shIx sh) ∧
    rrun (rkCalls i (sLog s)) (RankerInit [false]) = Some (shRk sh)).
  { intros i sh. unfold endShard, st, shardRk. rewrite HI. cbn [mbind option_bind].
    destruct (run stableSort (ixCalls i (sLog s)) s0); [|done]. destruct (rrun _ _); [|done]. by intros [= <-]. }
  destruct (endShard 0 s) as [x|] eqn:E0; [|done]. intros _.
  split; [done|]. intros [|i] sh; [intros [= <-]; by apply HE|done].
Qed.
Lemma revReq_open tok : open_request (optsF 2) (revReq tok) ∧ score_nan_free (ScoringCriteria (rqOpts (revReq tok))) ∧ ¬ with_logic (revReq tok).
Proof.
  assert (H : ¬ with_logic (revReq tok)). { unfold with_logic, is_logic. cbn. naive_solver. }
  split; [|split; [|done]].
  - split; [done|]. split; [by vm_compute|]. split; [by vm_compute|]. left. by repeat split.
  - intros x f. by repeat constructor.
Qed.
Lemma revReq_ok tok : open_request (optsF 2) (lifeReq tok) ∧ score_nan_free (ScoringCriteria (rqOpts (lifeReq tok))).
Proof. destruct (revReq_open tok) as (? & ? & _). done. Qed.
Example C97_case rf : ∃ s0, Init (optsF 2) = Some s0 ∧ Forall good_phase revPhases ∧
  rvCurrent (called hash0 1 (program revPhases)) 0 docA2 ∧ ¬ rvCurrent (called hash0 1 (program revPhases)) 0 docA ∧
  ¬ rvRemoved (called hash0 1 (program revPhases)) "a" ∧ rvRemoved (called hash0 1 (program revPhases)) "b" ∧
  (∀ tok, open_request (optsF 2) (revReq tok) ∧ score_nan_free (ScoringCriteria (rqOpts (revReq tok)))) ∧
  (pipe_reach hash0 1 false rf PropPipe.cap1 2 [program revPhases] (revMid rf) ∧ returned 0 (revMid rf) ∧ quiescentb (revMid rf) = false ∧
   engine_shards stableSort s0 false 1 (revMid rf) (revShards (revMid rf)) ∧
   revSearch (revMid rf) "x" = Some (Some [], 0) ∧ revSearch (revMid rf) "z" = Some (Some [("a", "new")], 1)) ∧
  (pipe_reach hash0 1 false rf PropPipe.cap1 2 [program revPhases] (revLate rf) ∧ returned 0 (revLate rf) ∧ quiescent (revLate rf) ∧
   engine_shards stableSort s0 false 1 (revLate rf) (revShards (revLate rf)) ∧
   revSearch (revLate rf) "x" = Some (Some [], 0) ∧ revSearch (revLate rf) "z" = Some (Some [("a", "old")], 1)).
Proof.
  destruct (Init (optsF 2)) as [s0|] eqn:EI; [|done]. exists s0. split; [reflexivity|].
  split. { repeat (apply Forall_cons; split); [..|apply Forall_nil; done];
      (split; [|apply (bool_decide_unpack _); by vm_compute]);
      repeat (apply Forall_cons; split); try (apply Forall_nil; done); cbn; try (split; [apply (bool_decide_unpack _); by vm_compute|]); done. }
  split. { exists (IOther 2), "new", INil, false, [EIndex docA (IOther 1) "old" INil false; idxB true; EFlush], [ERemove "b" false; EFlush].
    split; [done|]. split; [done|]. by repeat constructor. }
  split. { intros (f & ct & a & fo & b & af & E & _ & HF).
    destruct b as [|? [|? [|? [|? [|? [|? [|? b]]]]]]]; cbn in E; try discriminate E.
    injection E as _ _ _ _ <-. rewrite Forall_forall in HF.
    specialize (HF (EIndex docA2 (IOther 2) "new" INil false)). by discriminate HF; do 2 right; left. }
  split. { intros [fo H]. cbn in H. rewrite !elem_of_cons, elem_of_nil in H. by destruct H as [[=]|[[=]|[[=]|[[=]|[[=]|[[=]|[]]]]]]]. }
  split. { exists false. do 4 right. by left. }
  split. { intros tok. by destruct (revReq_open tok) as (? & ? & _). }
  assert (R1 : pipe_reach hash0 1 false rf PropPipe.cap1 2 [program revPhases] (revMid rf)).
  { unfold revMid, revFirst. eapply rtc_transitive; [|apply pRun_reach]. eapply rtc_transitive; [|apply pRun_reach]. apply pRun_reach. }
  split.
  - split; [exact R1|]. split; [apply returnedb_ok; destruct rf; by vm_compute|]. split; [destruct rf; by vm_compute|].
    split; [apply revShards_ok; [exact EI|destruct rf; by vm_compute]|]. split; destruct rf; by vm_compute.
  - split; [unfold revLate; eapply rtc_transitive; [exact R1|apply pRun_reach]|]. split; [apply returnedb_ok; destruct rf; by vm_compute|].
    split; [apply quiescentb_ok; destruct rf; by vm_compute|].
    split; [apply revShards_ok; [exact EI|destruct rf; by vm_compute]|]. split; destruct rf; by vm_compute.
Qed.

(** The second session of C89 goes on: "a" gets other words, "bb" is removed. *)
Definition revTwo : list (list wcall) := [[wix "ccc" "Dog" false]; [wix "a" "Dog" false; WRemove "bb" false]].
Lemma revCalls : Forall (λ ph, good_phase (pipeProg ph)) revTwo.
Proof.
  repeat (apply Forall_cons; split); [..|apply Forall_nil; done];
    (split; [|apply (bool_decide_unpack _); by vm_compute]);
    repeat (apply Forall_cons; split); try (apply Forall_nil; done); try done; (split; [apply (bool_decide_unpack _); by vm_compute|by vm_compute]).
Qed.
Lemma revFiles_gen rf rf2 dbs : sessions hashLen 2 false rf PropPipe.cap1 accT encB 2 rf2 map_to_list decT exX ∅ noGse 1 [sesOne] dbs →
  placed hashLen 2 dbs ∧ no_zero 2 dbs ∧ stored hashLen 2 decT dbs "a" (txt "Cat").
Proof.
  intros Hs. destruct sesCalls as (_ & _ & Ho & Hg & Hr).
  assert (Hall : all_calls ([sesOne] ++ [sesTwo]) = all_calls [sesOne] ++ wprogram sesTwo) by reflexivity.
  rewrite Hall in Ho, Hg, Hr.
  destruct (C89_files_hold_all_sessions hashLen 2 false rf PropPipe.cap1 accT encB 2 rf2 map_to_list decT exX ∅ noGse 1 [sesOne] dbs)
    as (H1 & H2 & _ & H3).
  1, 2: lia.
  - exact iter_ok.
  - exact exX_range.
  - exact codec_ok.
  - exact Hs.
  - unfold pipeProg in Ho |- *. rewrite fmap_app in Ho. destruct Ho as [Hf Hnd]. apply Forall_app in Hf as [Hf _]. rewrite omap_app in Hnd.
    apply NoDup_app in Hnd as [Hnd _]. split; [exact Hf|exact Hnd].
  - intros doc d fo Hd. apply (Hg doc d fo), elem_of_app. left. exact Hd.
  - intros id fo Hd. apply (Hr id fo), elem_of_app. left. exact Hd.
  - split; [exact H1|]. split; [exact H2|].
    apply H3. exists (wdoc "a" (txt "Cat")), false. split; [left|reflexivity].
Qed.
Lemma revFiles rf rf2 : placed hashLen 2 (sesDbs rf rf2) ∧ no_zero 2 (sesDbs rf rf2) ∧
  stored hashLen 2 decT (sesDbs rf rf2) "a" (txt "Cat") ∧ fresh_ids hashLen 2 (sesDbs rf rf2) [wix "ccc" "Dog" false].
Proof.
  destruct (C89_case rf rf2) as (s0 & _ & Hs & _). apply revFiles_gen in Hs as (H1 & H2 & H3).
  split; [exact H1|]. split; [exact H2|]. split; [exact H3|].
  clear. intros c id Hc%elem_of_list_singleton. subst c. cbn. intros [= <-]. destruct rf, rf2; vm_compute; reflexivity.
Qed.
Example C98_case rf rf2 : ∃ s0, let dbs := sesDbs rf rf2 in let s := sesRun rf rf2 dbs revTwo in
  let R := in_session hashLen 2 2 decT exX ∅ noGse dbs (wprogram revTwo) in
  Init (optsF 2) = Some s0 ∧ placed hashLen 2 dbs ∧ no_zero 2 dbs ∧
  recoverProgs map_to_list decT exX ∅ noGse 2 dbs = Some (sesRecs dbs) ∧
  Forall (λ ph, good_phase (pipeProg ph)) revTwo ∧ fresh_ids hashLen 2 dbs [wix "ccc" "Dog" false] ∧
  session_reach hashLen 2 false rf PropPipe.cap1 accT encB 2 rf2 1 (sesRecs dbs) [wprogram revTwo] s ∧ wreturned 0 s ∧ pipe_rest s ∧
  engine_shards stableSort s0 false 2 (pipePart s) (endShards (pipePart s)) ∧
  (∀ tok, open_request (optsF 2) (lifeReq tok) ∧ score_nan_free (ScoringCriteria (rqOpts (lifeReq tok)))) ∧
  rvVersion R 0 "a" (ddFields (txt "Cat")) "Cat" (ddAttri (txt "Cat")) ∧ rvCurrent R 0 (wdoc "a" (txt "Dog")) ∧
  rvRemoved R "bb" ∧
  lifeSearch "cat" (pipePart s) = Some (Some [], 0) ∧
  lifeSearch "dog" (pipePart s) = Some (Some [("ccc", "Dog"); ("a", "Dog")], 2).
Proof.
  assert (H2 : sesOkb rf rf2 (sesDbs rf rf2) revTwo = true) by (destruct rf, rf2; by vm_compute).
  apply sesOk in H2 as (R2 & _ & _ & S2 & T2). destruct (revFiles rf rf2) as (F1 & F2 & F3 & F4).
  destruct (Init (optsF 2)) as [s0|] eqn:EI; [|done]. exists s0. cbv zeta. split; [reflexivity|].
  split; [exact F1|]. split; [exact F2|]. split; [exact R2|]. split; [exact revCalls|]. split; [exact F4|].
  split; [exact S2|]. split; [exact T2|].
  split; [apply pipe_restb_ok; destruct rf, rf2; by vm_compute|].
  split; [apply endShards_ok; [exact EI|destruct rf, rf2; by vm_compute]|].
  split; [exact revReq_ok|].
  clear - F3. split. { exists (txt "Cat"). split; [left; exact F3|]. split; [vm_compute; reflexivity|]. split; [reflexivity|]. split; reflexivity. }
  clear F3. split. { exists (txt "Dog"). split; [vm_compute; reflexivity|]. left. exists false, [wix "ccc" "Dog" false; WFlush], [WRemove "bb" false; WFlush].
    split; [reflexivity|]. constructor; [vm_compute; reflexivity|]. constructor; [vm_compute; reflexivity|constructor]. }
  split. { exists false. do 3 right. left. }
  split; destruct rf, rf2; vm_compute; reflexivity.
Qed.
