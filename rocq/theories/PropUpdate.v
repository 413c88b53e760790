(** Theorems about updates: several Index calls for the same document. *)
From Verif Require Import ModelPipe ModelEngine SpecIndexer SpecSearch SpecRank SpecRoute SpecPipe SpecEngine
  SpecFlight SpecEnd SpecUpdate ProofIxThms ProofSortBy ProofFlushThms ProofEnd ProofUpdate ExampleTools PropPipe PropEngine PropEnd.

(** * C81: with one segmenter, additions take effect in one order *)
(** When all is done, there is an order of the Index and Flush calls of all clients, which
    keeps the order of each client, such that the indexer and the ranker of every shard
    got the additions in this order. *)
Theorem C81_additions_have_one_order murmur n only reqsFirst cap progs s :
  1 <= n < 2^32 → pipe_reach murmur n only reqsFirst cap 1 progs s → quiescent s →
  ∃ cs, interleaved (filter (λ c, not_removal c = true) <$> progs) cs ∧
    ∀ i, 0 <= i < n →
      filter (λ o, ix_addition o = true) (ixCalls i (sLog s)) = ixStream murmur n i cs ∧
      filter (λ o, rk_addition o = true) (rkCalls i (sLog s)) = rkStream murmur n only i cs.
Proof. intros Hn. exact (order_lem murmur n only reqsFirst cap Hn progs s). Qed.
Print Assumptions C81_additions_have_one_order.
(** At any moment they have got beginnings of it. *)
Theorem C81_additions_so_far murmur n only reqsFirst cap progs s :
  1 <= n < 2^32 → pipe_reach murmur n only reqsFirst cap 1 progs s →
  ∃ ls cs, interleaved ls cs ∧ Forall2 prefix ls (filter (λ c, not_removal c = true) <$> progs) ∧
    ∀ i, 0 <= i < n →
      filter (λ o, ix_addition o = true) (ixCalls i (sLog s)) `prefix_of` ixStream murmur n i cs ∧
      filter (λ o, rk_addition o = true) (rkCalls i (sLog s)) `prefix_of` rkStream murmur n only i cs.
Proof. intros Hn. exact (so_far_lem murmur n only reqsFirst cap Hn progs s). Qed.
Print Assumptions C81_additions_so_far.

(** One client that calls Flush between updates, and one segmenter: a search sees in each
    shard the last version that was sent there, with the data of that very call. *)
Theorem C81_search_sees_the_updates murmur n only reqsFirst cap sortDocs sortBy o s0 phases s shards log2 req order :
  1 <= n < 2^32 → valid_sort sortDocs → valid_sortBy sortBy → Init o = Some s0 →
  pipe_reach murmur n only reqsFirst cap 1 [program phases] s → quiescent s →
  Forall good_phase phases → removed_for_good (program phases) →
  engine_shards sortDocs s0 only n s shards →
  plain_request o req → scores_numbers log2 req shards → all_arrive (length shards) order →
  ∃ full out, Search log2 sortBy req shards order = Some (mkResp (rqTokens req) false (zlen full) (Some out)) ∧
    answers_current murmur n only (program phases) req full out.
Proof. intros Hn. exact (update_search murmur n only reqsFirst cap Hn sortDocs sortBy o s0 phases s shards log2 req order). Qed.
Print Assumptions C81_search_sees_the_updates.
(** Any number of clients that make forced calls: the same, for one order of all calls. *)
Theorem C81_search_sees_forced_updates murmur n only reqsFirst cap sortDocs sortBy o s0 progs s shards log2 req order :
  1 <= n < 2^32 → valid_sort sortDocs → valid_sortBy sortBy → Init o = Some s0 →
  pipe_reach murmur n only reqsFirst cap 1 progs s → quiescent s →
  Forall good_call (mjoin progs) → Forall forced_call (mjoin progs) → removes_others (mjoin progs) →
  engine_shards sortDocs s0 only n s shards →
  plain_request o req → scores_numbers log2 req shards → all_arrive (length shards) order →
  ∃ cs full out, interleaved (filter (λ c, not_removal c = true) <$> progs) cs ∧
    Search log2 sortBy req shards order = Some (mkResp (rqTokens req) false (zlen full) (Some out)) ∧
    answers_current murmur n only cs req full out.
Proof. intros Hn. exact (forced_search murmur n only reqsFirst cap Hn sortDocs sortBy o s0 progs s shards log2 req order). Qed.
Print Assumptions C81_search_sees_forced_updates.

(** "b" gets a new version, "a" is removed. *)
Definition docB2 : DocIndex := mkDoc "b" (f32_of_Z 2) [kw "x" [0]; kw "w" [2]].
Definition updPhases : list (list ecall) :=
  [[idxA false; idxB true; EIndex docC (IOther 3) "z" INil false]; [EIndex docB2 (IOther 1) "newer" INil false; ERemove "a" false]].
Definition updSched : list nat :=
  [0; 0; 0; 1; 1; 2; 2; 2; 1; 4; 4; 0; 0; 0; 0; 1; 1; 6; 6; 6; 6; 1; 2; 2; 2; 1; 8; 8; 0; 0; 0; 1; 1; 6; 6; 6; 1; 8; 8; 0; 0;
   0; 0; 0; 0; 0; 0; 0; 1; 1; 2; 2; 2; 1; 6; 6; 6; 0; 0; 0; 0; 0; 0; 0; 1; 1; 6; 6; 6; 1; 8; 8; 0; 0; 0; 3; 3; 3; 0; 5; 5; 0;
   7; 7; 7; 0; 9; 9; 0; 0; 0; 0; 0; 0; 0; 0; 0; 1; 1; 2; 2; 2; 1; 6; 6; 6; 0; 0; 0; 0]%nat.
Definition updSearch (s : pstate) : option (option (list (string * string)) * Z) :=
  match Search (λ x, x) insSortBy (exReq 0 0 false 0) (endShards s) [Some 1%nat; Some 0%nat] with
  | Some r => Some (fmap (M:=list) (λ h, (sdDocId h, sdContent h)) <$> rsDocs r, rsNumDocs r)
  | None => None
  end.
Fixpoint removed_for_goodb (cs : list ecall) : bool :=
  match cs with
  | [] => true
  | ERemove id _ :: cs' =>
    forallb (λ c, match c with EIndex d _ _ _ _ => negb (String.eqb (DocId d) id) | _ => true end) cs' && removed_for_goodb cs'
  | _ :: cs' => removed_for_goodb cs'
  end.
Lemma removed_for_goodb_ok cs : removed_for_goodb cs = true → removed_for_good cs.
Proof.
  intros H before. revert cs H. induction before as [|c before IH]; intros cs H id fo after -> d f ct a fo' Hin.
  - cbn in H. apply andb_true_iff in H as [H _]. rewrite forallb_forall in H. apply elem_of_list_In in Hin. specialize (H _ Hin).
    cbn in H. apply negb_true_iff, String.eqb_neq in H. done.
  - eapply (IH (before ++ ERemove id fo :: after)); [|done|exact Hin]. cbn in H.
    destruct c; [done| |done]. by apply andb_true_iff in H as [_ H].
Qed.
Example C81_updates_case : ∃ s0 s shards, Init (optsF 2) = Some s0 ∧
  pipe_reach hashAB 2 false true cap1 1 [program updPhases] s ∧ quiescent s ∧
  Forall good_phase updPhases ∧ removed_for_good (program updPhases) ∧
  engine_shards stableSort s0 false 2 s shards ∧ shards = endShards s ∧
  plain_request (optsF 2) (exReq 0 0 false 0) ∧ score_nan_free numScore ∧
  updSearch s = Some (Some [("c", "z"); ("b", "newer")], 2).
Proof.
  destruct (sched_check_ok hashAB 2 true [program updPhases] updSched
    (λ s, quiescentb s && Nat.eqb (length (endShards s)) 2 &&
          bool_decide (updSearch s = Some (Some [("c", "z"); ("b", "newer")], 2))))
    as (s & Hs & H); [by vm_compute|].
  rewrite !andb_true_iff, !bool_decide_eq_true in H. destruct H as ((Hq%quiescentb_ok & Hl%Nat.eqb_eq) & H1).
  destruct (Init (optsF 2)) as [s0|] eqn:EI; [|done]. exists s0, s, (endShards s).
  split; [done|]. split; [done|]. split; [done|].
  split. { repeat (apply Forall_cons; split); [..|apply Forall_nil; done];
      (split; [|apply (bool_decide_unpack _); by vm_compute]);
      repeat (apply Forall_cons; split); try (apply Forall_nil; done); cbn; try (split; [apply (bool_decide_unpack _); by vm_compute|]); done. }
  split; [by apply removed_for_goodb_ok|].
  split; [by apply endShards_ok|]. split; [done|]. split; [by repeat split|]. split; [|done].
  intros x f. apply numScore_num.
Qed.

(** Two clients with forced calls.  The new version of "a" goes to the other shard, so
    that the old one stays (see C36). *)
Definition updProgs : list (list ecall) :=
  [[idxB true; EIndex docB2 (IOther 1) "newer" INil true; ERemove "d" true]; [idxA true; idxB true; EIndex docA2 (IOther 4) "newa" INil true]].
Definition updSched2 : list nat :=
  [1; 1; 1; 1; 1; 1; 1; 2; 1; 1; 1; 1; 2; 3; 3; 3; 3; 2; 7; 7; 7; 2; 5; 5; 2; 1; 2; 7; 7; 7; 7; 2; 3; 3; 3; 2; 9; 9; 2; 2; 7;
   7; 7; 7; 2; 3; 3; 3; 2; 9; 9; 0; 0; 0; 0; 2; 2; 7; 7; 7; 7; 2; 3; 3; 3; 2; 9; 9; 0; 0; 0; 0; 2; 2; 7; 7; 7; 7; 2; 3; 3; 3;
   2; 9; 9; 0; 0; 0; 0; 4; 4; 4; 4; 0; 6; 6; 0; 8; 8; 8; 8; 0; 10; 10]%nat.
Example C81_forced_case : ∃ s0 s shards, Init (optsF 2) = Some s0 ∧
  pipe_reach hashAB 2 false true cap1 1 updProgs s ∧ quiescent s ∧
  Forall good_call (mjoin updProgs) ∧ Forall forced_call (mjoin updProgs) ∧ removes_others (mjoin updProgs) ∧
  engine_shards stableSort s0 false 2 s shards ∧ shards = endShards s ∧
  plain_request (optsF 2) (exReq 0 0 false 0) ∧ score_nan_free numScore ∧
  updSearch s = Some (Some [("a", "x"); ("b", "newer")], 2).
Proof.
  destruct (sched_check_ok hashAB 2 true updProgs updSched2
    (λ s, quiescentb s && Nat.eqb (length (endShards s)) 2 &&
          bool_decide (updSearch s = Some (Some [("a", "x"); ("b", "newer")], 2))))
    as (s & Hs & H); [by vm_compute|].
  rewrite !andb_true_iff, !bool_decide_eq_true in H. destruct H as ((Hq%quiescentb_ok & Hl%Nat.eqb_eq) & H1).
  destruct (Init (optsF 2)) as [s0|] eqn:EI; [|done]. exists s0, s, (endShards s).
  split; [done|]. split; [done|]. split; [done|].
  split. { repeat (apply Forall_cons; split); try (apply Forall_nil; done); try done; apply (bool_decide_unpack _); by vm_compute. }
  split. { repeat (apply Forall_cons; split); try (apply Forall_nil; done); done. }
  split. { intros id fo d f ct a fo' H2 H3. cbn in H2, H3. rewrite !elem_of_cons, elem_of_nil in H2. rewrite !elem_of_cons, elem_of_nil in H3.
    destruct H2 as [[=]|[[=]|[[= -> ->]|[[=]|[[=]|[[=]|[]]]]]]].
    by destruct H3 as [[= -> ? ? ? ?]|[[= -> ? ? ? ?]|[[=]|[[= -> ? ? ? ?]|[[= -> ? ? ? ?]|[[= -> ? ? ? ?]|[]]]]]]]. }
  split; [by apply endShards_ok|]. split; [done|]. split; [by repeat split|]. split; [|done].
  intros x f. apply numScore_num.
Qed.

(** With two segmenters this is false.  The client indexes "a", flushes, indexes a new
    version of "a", flushes; all is processed.  The first segmenter was slow to send the
    old data to the ranker: the index has the new version, the ranker has the old data,
    for ever. *)
Definition shownIn (i : Z) (s : pstate) (tok : string) : option (list (string * string)) :=
  match shardIx i s, shardRk i s with
  | Some ix, Some rk =>
    match Lookup (λ x, x) ix [tok] [] None false None with
    | Some (docs, _) => match Rank insSortBy rk docs (mkRankOpts score1 false 0 0) false with
                        | Some (out, _) => Some (map (λ h, (sdDocId h, sdContent h)) out) | None => None end
    | None => None end
  | _, _ => None end.
Theorem C81_old_data_wins_refuted reqsFirst : let progs := [program
    [[EIndex docA (IOther 1) "old" INil false]; [EIndex docA2 (IOther 2) "new" INil false]]] in
  ∃ s, pipe_reach hash0 1 false reqsFirst cap1 2 progs s ∧ quiescent s ∧
    foundIn 0 s "x" = Some [] ∧ foundIn 0 s "z" = Some ["a"] ∧ shownIn 0 s "z" = Some [("a", "old")].
Proof.
  intros progs.
  assert (H : match psched hash0 1 false reqsFirst cap1
      [0; 0; 0; 1; 1; 3; 3; 3; 0; 0; 0; 0; 0; 0; 0; 0; 0; 2; 2; 3; 3; 3; 0; 0; 0; 0; 0; 0; 0; 2; 2; 3; 3; 3; 2; 5; 5;
       0; 0; 0; 0; 0; 0; 0; 0; 0; 2; 2; 3; 3; 3; 0; 0; 0; 0; 1; 5; 5]%nat (pipeInit 1 2 progs) with
    | Some s => quiescentb s && bool_decide (foundIn 0 s "x" = Some []) && bool_decide (foundIn 0 s "z" = Some ["a"]) &&
        bool_decide (shownIn 0 s "z" = Some [("a", "old")])
    | None => false end = true) by (destruct reqsFirst; by vm_compute).
  destruct (psched _ _ _ _ _ _ _) as [s|] eqn:E; [|done]. rewrite !andb_true_iff, !bool_decide_eq_true in H.
  destruct H as [[[?%quiescentb_ok ?] ?] ?]. exists s. split; [by eapply psched_reach|]. done.
Qed.
Print Assumptions C81_old_data_wins_refuted.
