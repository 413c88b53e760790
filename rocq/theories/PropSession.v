(** C88, C89, C90: sessions of the engine on files that already hold documents. *)
From Verif Require Import ModelSession ModelEngine SpecLive SpecIndexer SpecSearch SpecRank SpecRoute SpecPipe SpecSegment SpecEngine SpecFlight SpecStore SpecEnd SpecLife SpecClose SpecWhole SpecSession
  ProofSession ProofSessionThms ProofSessionLost ProofIxThms ProofSortBy ProofEnd ExampleTools PropPipe PropStore PropSegment PropEnd PropLife PropLive PropWhole PropWholeLive.

(** * C88: one session *)
(** Init on existing files comes to its end, if every goroutine keeps getting turns. *)
Theorem C88_init_ends murmur n only reqsFirst cap nseg recs s ks :
  1 <= n < 2^32 → (∀ ch, (1 <= cap ch)%nat) → (1 <= nseg)%nat →
  pipe_reach murmur n only reqsFirst cap nseg recs s →
  fair (length recs + nseg + 4 * Z.to_nat n) ks →
  ∃ i, recovered (length recs) (after (pstep murmur n only reqsFirst cap) ks s i).
Proof. intros Hn. exact (recovery_ends murmur n only reqsFirst cap Hn nseg recs s ks). Qed.
Print Assumptions C88_init_ends.

(** Whenever it ends, every stored document is with the indexer of its shard. *)
Theorem C88_init_hands_over_every_document murmur n only reqsFirst cap nS iter decode X stop o nseg recs dbs p :
  1 <= n < 2^32 → 1 <= nS < 2^32 → valid_iter iter → valid_range X → placed murmur nS dbs → no_zero nS dbs →
  recoverProgs iter decode X stop o nS dbs = Some recs →
  pipe_reach murmur n only reqsFirst cap nseg recs p → recovered (length recs) p →
  ∀ id d, stored murmur nS decode dbs id d → ∃ doc, segDoc X stop o id d = Some doc ∧
    OpAdd (Some doc) false ∈ ixCalls (u32 (murmur (String.append id (ddContent d))) `mod` n) (sLog p).
Proof.
  intros Hn HnS Hit HX. exact (recovery_complete murmur n only reqsFirst cap Hn nS HnS iter Hit decode X stop o HX nseg recs dbs p).
Qed.
Print Assumptions C88_init_hands_over_every_document.

(** After Flush the indexers show the documents of the files and of the calls, none
    waits, and the files hold what the calls wrote over what was there before. *)
Theorem C88_flush_in_a_session murmur n only reqsFirst cap accepts encode nS reqsFirst2 iter decode X stop o
    sortDocs io s0 nseg recs dbs ph1 rest s :
  1 <= n < 2^32 → 1 <= nS < 2^32 → valid_iter iter → valid_range X →
  valid_sort sortDocs → Init io = Some s0 → placed murmur nS dbs → no_zero nS dbs →
  recoverProgs iter decode X stop o nS dbs = Some recs →
  Forall (λ ph, good_phase (pipeProg ph)) (ph1 :: rest) → fresh_ids murmur nS dbs ph1 →
  session_reach murmur n only reqsFirst cap accepts encode nS reqsFirst2 nseg recs [wprogram (ph1 :: rest)] s → wreturned 0 s →
  (∀ i, 0 <= i < n → ∃ ix M, run sortDocs (ixCalls i (wLog s)) s0 = Some ix ∧ shows ix M ∧ clean ix M ∧
     addCache ix = [] ∧ removeCache ix = [] ∧ ∀ id, M !! id = version murmur n i (mjoin recs ++ pipeProg (wprogram (ph1 :: rest))) id) ∧
  (∀ id, id ≠ "0" → closed_value accepts encode (dbs (storeShard murmur nS id) !! id) (storeProg (wprogram (ph1 :: rest))) id
     (dbAfter murmur nS dbs (wSLog s) (storeShard murmur nS id) !! id)) ∧
  Forall (eq WIdle) (wWork s).
Proof.
  intros Hn HnS Hit HX. exact (C88_flush_lem murmur n only reqsFirst cap Hn accepts encode nS HnS reqsFirst2 iter Hit decode X stop o HX
    sortDocs io s0 nseg recs dbs ph1 rest s).
Qed.
Print Assumptions C88_flush_in_a_session.

(** Every call of every client returns, whatever has happened so far in the session. *)
Theorem C88_every_call_returns murmur n only reqsFirst cap accepts encode nS reqsFirst2 nseg recs progs s ms :
  1 <= n < 2^32 → (∀ ch, (1 <= cap ch)%nat) → 1 <= nS → (1 <= nseg)%nat →
  session_reach murmur n only reqsFirst cap accepts encode nS reqsFirst2 nseg recs progs s →
  wfair (length progs) (nseg + 4 * Z.to_nat n) (Z.to_nat nS) ms →
  let step := wmoveStep murmur n only reqsFirst cap accepts encode nS reqsFirst2 in
  ∃ i, at_rest (wafter step ms s i) ∧ ∀ m, step m (wafter step ms s i) = None.
Proof. exact (session_rest murmur n only reqsFirst cap accepts encode nS reqsFirst2 nseg recs progs s ms). Qed.
Print Assumptions C88_every_call_returns.

(** * C89: any number of sessions *)
(** The files hold exactly the documents of all sessions. *)
Theorem C89_files_hold_all_sessions murmur n only reqsFirst cap accepts encode nS reqsFirst2 iter decode X stop o nseg hist dbs :
  1 <= n < 2^32 → 1 <= nS < 2^32 → valid_iter iter → valid_range X → round_trip encode decode →
  sessions murmur n only reqsFirst cap accepts encode nS reqsFirst2 iter decode X stop o nseg hist dbs →
  once_each (pipeProg (all_calls hist)) → segmented X stop o accepts encode (all_calls hist) → no_removal (all_calls hist) →
  placed murmur nS dbs ∧ no_zero nS dbs ∧ (∀ id v, dbs (storeShard murmur nS id) !! id = Some v → ∃ d, given (all_calls hist) id d) ∧
  ∀ id d, stored murmur nS decode dbs id d ↔ given (all_calls hist) id d.
Proof.
  intros Hn HnS Hit HX. exact (sessions_files murmur n only reqsFirst cap Hn accepts encode nS HnS reqsFirst2 iter Hit decode X stop o nseg hist dbs).
Qed.
Print Assumptions C89_files_hold_all_sessions.

(** A search in the latest session finds the documents of all sessions. *)
Theorem C89_search_finds_all_sessions murmur n only reqsFirst cap accepts encode nS reqsFirst2 iter decode X stop o
    sortDocs sortBy io s0 nseg hist recs dbs phases s log2 req order shards :
  1 <= n < 2^32 → 1 <= nS < 2^32 → valid_iter iter → valid_range X →
  valid_sort sortDocs → valid_sortBy sortBy → Init io = Some s0 → round_trip encode decode →
  sessions murmur n only reqsFirst cap accepts encode nS reqsFirst2 iter decode X stop o nseg hist dbs →
  recoverProgs iter decode X stop o nS dbs = Some recs →
  Forall (λ ph, good_phase (pipeProg ph)) phases → phases ≠ [] → once_each (pipeProg (all_calls (hist ++ [phases]))) →
  segmented X stop o accepts encode (all_calls (hist ++ [phases])) → no_removal (all_calls (hist ++ [phases])) →
  session_reach murmur n only reqsFirst cap accepts encode nS reqsFirst2 nseg recs [wprogram phases] s → wreturned 0 s → pipe_rest s →
  engine_shards sortDocs s0 only n (pipePart s) shards →
  plain_request io req → scores_numbers log2 req shards → all_arrive (length shards) order →
  ∃ full out, Search log2 sortBy req shards order = Some (mkResp (rqTokens req) false (zlen full) (Some out)) ∧
    answers_docs only X stop o (given (all_calls (hist ++ [phases]))) req full out.
Proof.
  intros Hn HnS Hit HX. exact (sessions_search murmur n only reqsFirst cap Hn accepts encode nS HnS reqsFirst2 iter Hit decode X stop o HX
    sortDocs sortBy io s0 nseg hist recs dbs phases s log2 req order shards).
Qed.
Print Assumptions C89_search_finds_all_sessions.

(** * C90: removals before the first Flush of a session *)
(** With fewer documents in the files than fit into the cache of an indexer: whatever the
    client removes before its first Flush, with or without force, every indexer still has
    all documents afterwards; the files have lost those that were removed. *)
Theorem C90_removals_are_lost_in_the_index murmur n only reqsFirst cap accepts encode nS reqsFirst2 iter decode X stop o
    sortDocs io s0 nseg recs dbs ph s :
  1 <= n < 2^32 → 1 <= nS < 2^32 → valid_iter iter → valid_range X →
  valid_sort sortDocs → Init io = Some s0 → placed murmur nS dbs → no_zero nS dbs →
  recoverProgs iter decode X stop o nS dbs = Some recs →
  zlen (mjoin recs) < DocCacheSize (initOptions s0) → Forall (λ c, ∃ id fo, c = WRemove id fo ∧ id ≠ "0") ph →
  session_reach murmur n only reqsFirst cap accepts encode nS reqsFirst2 nseg recs [wprogram [ph]] s → wreturned 0 s →
  (∀ id d, stored murmur nS decode dbs id d → ∃ ix M doc,
     run sortDocs (ixCalls (u32 (murmur (String.append id (ddContent d))) `mod` n) (wLog s)) s0 = Some ix ∧ shows ix M ∧
     addCache ix = [] ∧ segDoc X stop o id d = Some doc ∧ M !! id = Some doc) ∧
  (store_rest s → ∀ id fo, WRemove id fo ∈ ph → dbAfter murmur nS dbs (wSLog s) (storeShard murmur nS id) !! id = None).
Proof.
  intros Hn HnS Hit HX. exact (removals_lost murmur n only reqsFirst cap Hn accepts encode nS HnS reqsFirst2 iter Hit decode X stop o HX
    sortDocs io s0 nseg recs dbs ph s).
Qed.
Print Assumptions C90_removals_are_lost_in_the_index.

(** Two sessions, two shards of each kind.  The second one starts while the rankers have
    not seen the recovered documents yet. *)
Definition sesRecs (dbs : Z → kv) : list (list ecall) :=
  match recoverProgs map_to_list decT exX ∅ noGse 2 dbs with Some r => r | None => [] end.
Definition sesStart rf recs : pstate := pRun hashLen 2 rf [7; 3; 2; 0; 1]%nat 400 (pipeInit 2 1 recs).
Definition sesRun rf rf2 (dbs : Z → kv) phases : wstate :=
  wRun hashLen 2 rf rf2 2 wOrder 400 (sessionInit 2 2 (sesStart rf (sesRecs dbs)) [wprogram phases]).
Definition sesAfter rf rf2 dbs phases : Z → kv := dbAfter hashLen 2 dbs (wSLog (sesRun rf rf2 dbs phases)).
Definition recoveredb (p : pstate) : bool :=
  forallb (λ c, match pActs c, pCalls c with [], [] => true | _, _ => false end) (take 2 (sProcs p)) &&
  (value (sLog p) NumIndexingReqs =? value (sLog p) NumDocsIndexed).
Lemma recoveredb_ok p : recoveredb p = true → recovered 2 p.
Proof.
  unfold recoveredb. rewrite andb_true_iff. intros [H1 H2%Z.eqb_eq]. split; [|done]. apply Forall_forall. intros c Hc.
  rewrite forallb_forall in H1. apply elem_of_list_In in Hc. specialize (H1 c Hc). by destruct (pActs c), (pCalls c).
Qed.
Definition sesOkb rf rf2 dbs phases : bool :=
  match recoverProgs map_to_list decT exX ∅ noGse 2 dbs with Some r => Nat.eqb (length r) 2 | None => false end &&
  recoveredb (sesStart rf (sesRecs dbs)) && wreturnedb (sesRun rf rf2 dbs phases).
Lemma sesOk rf rf2 dbs phases : sesOkb rf rf2 dbs phases = true →
  recoverProgs map_to_list decT exX ∅ noGse 2 dbs = Some (sesRecs dbs) ∧ recovered 2 (sesStart rf (sesRecs dbs)) ∧
  pipe_reach hashLen 2 false rf PropPipe.cap1 1 (sesRecs dbs) (sesStart rf (sesRecs dbs)) ∧
  session_reach hashLen 2 false rf PropPipe.cap1 accT encB 2 rf2 1 (sesRecs dbs) [wprogram phases] (sesRun rf rf2 dbs phases) ∧
  wreturned 0 (sesRun rf rf2 dbs phases).
Proof.
  unfold sesOkb. rewrite !andb_true_iff. intros [[H1 H2%recoveredb_ok] H3%wreturnedb_ok].
  assert (HE : recoverProgs map_to_list decT exX ∅ noGse 2 dbs = Some (sesRecs dbs) ∧ length (sesRecs dbs) = 2%nat).
  { unfold sesRecs. destruct (recoverProgs _ _ _ _ _ _ dbs); [|done]. by apply Nat.eqb_eq in H1. }
  destruct HE as [HE Hl]. assert (Hp : pipe_reach hashLen 2 false rf PropPipe.cap1 1 (sesRecs dbs) (sesStart rf (sesRecs dbs))) by apply pRun_reach.
  split; [exact HE|]. split; [exact H2|]. split; [exact Hp|]. split; [|exact (proj1 H3)].
  exists (sesStart rf (sesRecs dbs)). split; [exact Hp|]. rewrite Hl. split; [exact H2|]. unfold sesRun. apply wRun_reach.
Qed.
Definition sesOne : list (list wcall) := [[wix "a" "Cat" false; wix "bb" "cat dog" true]].
Definition sesTwo : list (list wcall) := [[wix "ccc" "Dog" false]].
Definition sesDbs rf rf2 : Z → kv := sesAfter rf rf2 (λ _, ∅) sesOne.

Example C88_case rf rf2 : let p := sesStart rf (sesRecs (sesDbs rf rf2)) in
  recovered 2 p ∧ sNet p ≠ [] ∧
  fair (length (sesRecs (sesDbs rf rf2)) + 1 + 4 * Z.to_nat 2) (PropLive.robin 11) ∧
  fresh_ids hashLen 2 (sesDbs rf rf2) [wix "ccc" "Dog" false] ∧
  value (sLog p) NumIndexingReqs = 2 ∧ numStored (wSLog (sessionInit 2 2 p [])) = 2.
Proof.
  assert (H : sesOkb rf rf2 (sesDbs rf rf2) sesTwo = true) by (destruct rf, rf2; by vm_compute).
  apply sesOk in H as (_ & Hrec & _). split; [exact Hrec|].
  split; [destruct rf, rf2; by vm_compute|].
  split; [replace (length (sesRecs (sesDbs rf rf2)) + 1 + 4 * Z.to_nat 2)%nat with 11%nat by (destruct rf, rf2; by vm_compute); apply PropLive.robin_fair; lia|].
  split; [|split; destruct rf, rf2; by vm_compute].
  intros c id Hc%elem_of_list_singleton. subst c. cbn. intros [= <-]. destruct rf, rf2; by vm_compute.
Qed.

Lemma sesCalls : Forall (λ ph, good_phase (pipeProg ph)) sesOne ∧ Forall (λ ph, good_phase (pipeProg ph)) sesTwo ∧
  once_each (pipeProg (all_calls ([sesOne] ++ [sesTwo]))) ∧
  segmented exX ∅ noGse accT encB (all_calls ([sesOne] ++ [sesTwo])) ∧ no_removal (all_calls ([sesOne] ++ [sesTwo])).
Proof.
  split; [|split; [|split; [|split]]].
  1, 2: repeat (apply Forall_cons; split); [..|apply Forall_nil; done];
      (split; [|apply (bool_decide_unpack _); by vm_compute]);
      repeat (apply Forall_cons; split); try (apply Forall_nil; done); (split; [apply (bool_decide_unpack _); by vm_compute|by vm_compute]).
  { split; [|apply (bool_decide_unpack _); by vm_compute].
    repeat (apply Forall_cons; split); try (apply Forall_nil; done); (split; [first [apply (bool_decide_unpack _); by vm_compute|done]|by vm_compute]). }
  { intros doc d fo. unfold all_calls, wprogram. cbn [sesOne sesTwo fmap list_fmap mjoin list_join app]. rewrite !elem_of_cons, elem_of_nil. unfold wix.
    intros [[= -> -> ->]|[[= -> -> ->]|[?|[[= -> -> ->]|[?|[]]]]]]; try done; (split; [by vm_compute|eexists; split; by vm_compute]). }
  { intros id fo. unfold all_calls, wprogram. cbn [sesOne sesTwo fmap list_fmap mjoin list_join app]. rewrite !elem_of_cons, elem_of_nil. unfold wix.
    by intros [[=]|[[=]|[[=]|[[=]|[[=]|[]]]]]]. }
Qed.
Example C89_case rf rf2 : ∃ s0, let s := sesRun rf rf2 (sesDbs rf rf2) sesTwo in
  Init (optsF 2) = Some s0 ∧
  sessions hashLen 2 false rf PropPipe.cap1 accT encB 2 rf2 map_to_list decT exX ∅ noGse 1 [sesOne] (sesDbs rf rf2) ∧
  recoverProgs map_to_list decT exX ∅ noGse 2 (sesDbs rf rf2) = Some (sesRecs (sesDbs rf rf2)) ∧
  Forall (λ ph, good_phase (pipeProg ph)) sesTwo ∧ sesTwo ≠ [] ∧
  once_each (pipeProg (all_calls ([sesOne] ++ [sesTwo]))) ∧
  segmented exX ∅ noGse accT encB (all_calls ([sesOne] ++ [sesTwo])) ∧ no_removal (all_calls ([sesOne] ++ [sesTwo])) ∧
  session_reach hashLen 2 false rf PropPipe.cap1 accT encB 2 rf2 1 (sesRecs (sesDbs rf rf2)) [wprogram sesTwo] s ∧ wreturned 0 s ∧ pipe_rest s ∧
  engine_shards stableSort s0 false 2 (pipePart s) (endShards (pipePart s)) ∧
  lifeSearch "cat" (pipePart s) = Some (Some [("a", "Cat"); ("bb", "cat dog")], 2) ∧
  lifeSearch "dog" (pipePart s) = Some (Some [("ccc", "Dog"); ("bb", "cat dog")], 2).
Proof.
  assert (H1 : sesOkb rf rf2 (λ _, ∅) sesOne = true) by (destruct rf, rf2; by vm_compute).
  assert (H2 : sesOkb rf rf2 (sesDbs rf rf2) sesTwo = true) by (destruct rf, rf2; by vm_compute).
  apply sesOk in H1 as (R1 & _ & _ & S1 & T1). apply sesOk in H2 as (R2 & _ & _ & S2 & T2).
  destruct (Init (optsF 2)) as [s0|] eqn:EI; [|done]. exists s0. cbv zeta.
  split; [reflexivity|].
  destruct sesCalls as (G1 & G2 & G3 & G4 & G5).
  split. { apply (sessions_more hashLen 2 false rf PropPipe.cap1 accT encB 2 rf2 map_to_list decT exX ∅ noGse 1 [] (λ _, ∅) (sesRecs (λ _, ∅)) sesOne (sesRun rf rf2 (λ _, ∅) sesOne));
    [apply sessions_none|exact R1|done|exact G1|exact S1|exact T1]. }
  split; [exact R2|]. split; [exact G2|]. split; [done|]. split; [exact G3|]. split; [exact G4|]. split; [exact G5|].
  split; [exact S2|]. split; [exact T2|].
  split; [apply pipe_restb_ok; destruct rf, rf2; by vm_compute|].
  split; [apply endShards_ok; [exact EI|destruct rf, rf2; by vm_compute]|].
  split; destruct rf, rf2; by vm_compute.
Qed.

(** Only "a" in the files; it is removed, then Flush: a search without ranking still
    finds it, one with ranking does not, and the file has lost it. *)
Definition sesRem : list wcall := [WRemove "a" true].
Definition looseSearch (tok : string) (s : pstate) : option (option (list string)) :=
  match Search (λ x, x) insSortBy (mkReq [tok] [] noLogic None (mkRankOpts score1 false 0 0) 0 false true) (endShards s) [Some 1%nat; Some 0%nat] with
  | Some r => Some (fmap (M:=list) sdDocId <$> rsDocs r)
  | None => None
  end.
Example C90_case rf rf2 : let dbs := sesAfter rf rf2 (λ _, ∅) [[wix "a" "Cat" false]] in let s := sesRun rf rf2 dbs [sesRem] in
  recoverProgs map_to_list decT exX ∅ noGse 2 dbs = Some (sesRecs dbs) ∧ zlen (mjoin (sesRecs dbs)) = 1 ∧
  stored hashLen 2 decT dbs "a" (txt "Cat") ∧ placed hashLen 2 dbs ∧ no_zero 2 dbs ∧
  Forall (λ c, ∃ id fo, c = WRemove id fo ∧ id ≠ "0") sesRem ∧
  session_reach hashLen 2 false rf PropPipe.cap1 accT encB 2 rf2 1 (sesRecs dbs) [wprogram [sesRem]] s ∧ wreturned 0 s ∧ store_rest s ∧
  looseSearch "cat" (pipePart s) = Some (Some ["a"]) ∧ lifeSearch "cat" (pipePart s) = Some (Some [], 0).
Proof.
  cbv zeta. assert (H1 : sesOkb rf rf2 (sesAfter rf rf2 (λ _, ∅) [[wix "a" "Cat" false]]) [sesRem] = true) by (destruct rf, rf2; by vm_compute).
  apply sesOk in H1 as (R1 & _ & _ & S1 & T1).
  split; [exact R1|]. split; [destruct rf, rf2; by vm_compute|].
  split. { clear. exists "Cat". destruct rf, rf2; (split; vm_compute; reflexivity). }
  clear R1. assert (HD : ∀ j, sesAfter rf rf2 (λ _, ∅) [[wix "a" "Cat" false]] j = if decide (j = 1) then {["a" := "Cat"]} else ∅).
  { clear. intros j. unfold sesAfter. destruct (decide (j = 1)) as [->|Hj]; [destruct rf, rf2; by vm_compute|].
    assert (HL : wSLog (sesRun rf rf2 (λ _, ∅) [[wix "a" "Cat" false]]) = [EvReq; EvSent "a" (txt "Cat"); EvWrite "a" (Some "Cat"); EvStored] ∨
      wSLog (sesRun rf rf2 (λ _, ∅) [[wix "a" "Cat" false]]) = [EvReq; EvSent "a" (txt "Cat"); EvStored; EvWrite "a" (Some "Cat")]).
    { destruct rf, rf2; (left; by vm_compute) || (right; by vm_compute). }
    unfold dbAfter. destruct HL as [-> | ->]; cbn [foldl dbEvent]; (replace (storeShard hashLen 2 "a" =? j) with false; [done|symmetry; apply Z.eqb_neq; intros E; by vm_compute in E; subst j]). }
  split. { intros j id Hj. rewrite HD. destruct (decide (j = 1)) as [->|]; [|intros [? ?]; done]. intros [v Hv]. apply lookup_singleton_Some in Hv as [<- _]. by vm_compute. }
  split. { intros j Hj. rewrite HD. by destruct (decide (j = 1)). }
  split; [by repeat constructor; eexists _, _|]. split; [exact S1|]. split; [exact T1|].
  split; [apply store_restb_ok; destruct rf, rf2; by vm_compute|].
  split; destruct rf, rf2; by vm_compute.
Qed.
