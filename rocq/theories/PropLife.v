(** Theorems about searches after a restart, through store, segmenter, pipeline and search. *)
From Verif Require Import ModelPipe ModelEngine ModelStore SpecIndexer SpecSearch SpecRank SpecRoute SpecPipe SpecSegment SpecEngine
  SpecFlight SpecStore SpecEnd SpecLife ProofIxThms ProofSortBy ProofFlushThms ProofEnd ProofLife ExampleTools PropPipe PropSegment PropEngine PropStore PropEnd.

(** * C79: after a restart and a Flush a search sees exactly the stored documents *)
Theorem C79_search_sees_the_stored_documents murmur n only reqsFirst cap iter decode X stop o sortDocs sortBy io s0 nseg nS
    dbs progs s shards log2 req order :
  1 <= n < 2^32 → valid_iter iter → valid_range X → valid_sort sortDocs → valid_sortBy sortBy → Init io = Some s0 →
  1 <= nS < 2^32 → placed murmur nS dbs → no_zero nS dbs →
  recoverProgs iter decode X stop o nS dbs = Some progs →
  pipe_reach murmur n only reqsFirst cap nseg (progs ++ [[EFlush]]) s → quiescent s →
  engine_shards sortDocs s0 only n s shards → Forall nothing_waits shards →
  plain_request io req → scores_numbers log2 req shards → all_arrive (length shards) order →
  ∃ full out, Search log2 sortBy req shards order = Some (mkResp (rqTokens req) false (zlen full) (Some out)) ∧
    answers_docs only X stop o (stored murmur nS decode dbs) req full out.
Proof.
  intros Hn Hit HX. exact (life_search murmur n only reqsFirst cap Hn iter Hit decode X stop o HX sortDocs sortBy io s0 nseg nS
    dbs progs s shards log2 req order).
Qed.
Print Assumptions C79_search_sees_the_stored_documents.

(** The whole life of the documents: one client indexes (the store ran in the state
    [ss]), the engine is started again, flushed and searched. *)
Theorem C79_indexed_documents_survive_a_restart murmur n only reqsFirst cap iter decode X stop o accepts encode sortDocs sortBy io s0 nseg nS
    dbs cs ss progs s shards log2 req order :
  1 <= n < 2^32 → valid_iter iter → valid_range X → valid_sort sortDocs → valid_sortBy sortBy → Init io = Some s0 →
  1 <= nS < 2^32 → round_trip encode decode → placed murmur nS dbs → no_zero nS dbs →
  (∀ id, SRemove id ∉ cs) → (∀ id d, SIndex id d ∈ cs → ∃ v, writable accepts encode id d v) →
  store_reach accepts encode murmur nS [cs] ss → store_quiet ss →
  recoverProgs iter decode X stop o nS (dbAfter murmur nS dbs (ssLog ss)) = Some progs →
  pipe_reach murmur n only reqsFirst cap nseg (progs ++ [[EFlush]]) s → quiescent s →
  engine_shards sortDocs s0 only n s shards → Forall nothing_waits shards →
  plain_request io req → scores_numbers log2 req shards → all_arrive (length shards) order →
  ∃ full out, Search log2 sortBy req shards order = Some (mkResp (rqTokens req) false (zlen full) (Some out)) ∧
    answers_docs only X stop o (survives murmur nS decode dbs cs) req full out.
Proof.
  intros Hn Hit HX. exact (life_whole murmur n only reqsFirst cap Hn iter Hit decode X stop o HX accepts encode sortDocs sortBy io s0 nseg nS
    dbs cs ss progs s shards log2 req order).
Qed.
Print Assumptions C79_indexed_documents_survive_a_restart.

(** "a" is indexed twice, "bb" once; two store shards, two index shards, hash = length. *)
Definition lifeCalls : list scall := [SIndex "a" (txt "dog"); SIndex "bb" (txt "cat dog"); SIndex "a" (txt "Cat"); SFlush].
Definition lifeMoves : list smove :=
  [cl; cl; cl; MWorker 1; MWorker 1; cl; cl; cl; MWorker 0; MWorker 0; cl; cl; cl; MWorker 1; MWorker 1; cl; cl; cl].
Definition lifeSched : list nat :=
  [1; 1; 1; 3; 3; 4; 4; 4; 3; 6; 6; 0; 0; 0; 3; 3; 8; 8; 8; 3; 10; 10; 2; 2; 2; 2; 2; 2; 2; 2; 2; 3; 3; 4; 4; 4; 3; 8; 8; 8;
   2; 2; 2; 2]%nat.
Definition lifeReq (tok : string) : SearchReq :=
  mkReq [tok] [] noLogic None (mkRankOpts score1 false 0 0) 0 false false.
Definition lifeSearch (tok : string) (s : pstate) : option (option (list (string * string)) * Z) :=
  match Search (λ x, x) insSortBy (lifeReq tok) (endShards s) [Some 1%nat; Some 0%nat] with
  | Some r => Some (fmap (M:=list) (λ h, (sdDocId h, sdContent h)) <$> rsDocs r, rsNumDocs r)
  | None => None
  end.
Definition lifeDbs (ss : sstate) : Z → kv := dbAfter hashLen 2 noDbs (ssLog ss).
Definition lifeCheck (P : pstate → bool) : bool :=
  match ssched accT encB hashLen 2 lifeMoves (storeStart 2 [lifeCalls]) with
  | Some ss => quietb ss &&
    match recoverProgs map_to_list decT exX ∅ noGse 2 (lifeDbs ss) with
    | Some pg => sched_check hashLen 2 true (pg ++ [[EFlush]]) lifeSched P
    | None => false
    end
  | None => false
  end.
Example C79_case : ∃ s0 ss progs s, Init (optsF 2) = Some s0 ∧ placed hashLen 2 noDbs ∧ no_zero 2 noDbs ∧ round_trip encB decT ∧
  (∀ id, SRemove id ∉ lifeCalls) ∧ (∀ id d, SIndex id d ∈ lifeCalls → ∃ v, writable accT encB id d v) ∧
  store_reach accT encB hashLen 2 [lifeCalls] ss ∧ store_quiet ss ∧
  recoverProgs map_to_list decT exX ∅ noGse 2 (dbAfter hashLen 2 noDbs (ssLog ss)) = Some progs ∧
  pipe_reach hashLen 2 false true cap1 1 (progs ++ [[EFlush]]) s ∧ quiescent s ∧
  engine_shards stableSort s0 false 2 s (endShards s) ∧ Forall nothing_waits (endShards s) ∧
  plain_request (optsF 2) (lifeReq "cat") ∧ plain_request (optsF 2) (lifeReq "dog") ∧ score_nan_free score1 ∧
  survives hashLen 2 decT noDbs lifeCalls "a" (txt "Cat") ∧ survives hashLen 2 decT noDbs lifeCalls "bb" (txt "cat dog") ∧
  lifeSearch "cat" s = Some (Some [("a", "Cat"); ("bb", "cat dog")], 2) ∧
  lifeSearch "dog" s = Some (Some [("bb", "cat dog")], 1).
Proof.
  assert (H : lifeCheck (λ s, quiescentb s && Nat.eqb (length (endShards s)) 2 && forallb idle (endShards s) &&
    bool_decide (lifeSearch "cat" s = Some (Some [("a", "Cat"); ("bb", "cat dog")], 2)) &&
    bool_decide (lifeSearch "dog" s = Some (Some [("bb", "cat dog")], 1))) = true) by by vm_compute.
  unfold lifeCheck in H. destruct (ssched accT encB hashLen 2 lifeMoves (storeStart 2 [lifeCalls])) as [ss|] eqn:Ess; [|done].
  apply andb_true_iff in H as [Hsq%quietb_ok H].
  destruct (recoverProgs map_to_list decT exX ∅ noGse 2 (lifeDbs ss)) as [pg|] eqn:Epg; [|done].
  destruct (sched_check_ok _ _ _ _ _ _ H) as (s & Hs & HP).
  rewrite !andb_true_iff, !bool_decide_eq_true in HP. destruct HP as ((((Hq%quiescentb_ok & Hl%Nat.eqb_eq) & Hi) & H1) & H2).
  destruct (Init (optsF 2)) as [s0|] eqn:EI; [|done]. exists s0, ss, pg, s.
  split; [reflexivity|].
  split. { intros j id _ [v Hv]. unfold noDbs in Hv. by rewrite lookup_empty in Hv. }
  split. { intros j _. unfold noDbs. by rewrite lookup_empty. }
  split; [apply codec_ok|].
  split. { intros id. unfold lifeCalls. rewrite !elem_of_cons, elem_of_nil. by intros [[=]|[[=]|[[=]|[[=]|[]]]]]. }
  split. { intros id d. unfold lifeCalls. rewrite !elem_of_cons, elem_of_nil.
    intros [[= -> ->]|[[= -> ->]|[[= -> ->]|[?|[]]]]]; [..|done]; eexists; (split; [reflexivity|reflexivity]). }
  split. { unfold store_reach. eapply ssched_reach. exact Ess. }
  split; [exact Hsq|]. split; [exact Epg|]. split; [exact Hs|]. split; [exact Hq|]. split; [by apply endShards_ok|].
  split. { apply Forall_forall. intros sh Hsh. rewrite forallb_forall in Hi. apply elem_of_list_In in Hsh. specialize (Hi sh Hsh).
    unfold idle in Hi. apply andb_true_iff in Hi as [Ha%Z.eqb_eq Hr%Z.eqb_eq]. unfold zlen in *.
    split; [by destruct (addCache (shIx sh))|by destruct (removeCache (shIx sh))]. }
  split; [by repeat split|]. split; [by repeat split|].
  split. { intros x f. by repeat constructor. }
  split. { left. split; [done|]. exists [SIndex "a" (txt "dog"); SIndex "bb" (txt "cat dog")], [SFlush]. split; [done|].
    intros d'. rewrite elem_of_list_singleton. by intros [=]. }
  split. { left. split; [done|]. exists [SIndex "a" (txt "dog")], [SIndex "a" (txt "Cat"); SFlush]. split; [done|].
    intros d'. rewrite !elem_of_cons, elem_of_nil. by intros [[=]|[[=]|[]]]. }
  exact (conj H1 H2).
Qed.
