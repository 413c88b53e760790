(** Theorems about searches after writes, through the whole engine. *)
From Verif Require Import ModelPipe ModelEngine ModelFlight SpecIndexer SpecSearch SpecRank SpecRoute SpecPipe SpecEngine
  SpecFlight SpecEnd ProofIxThms ProofSortBy ProofFlushThms ProofEnd ExampleTools PropPipe PropEngine.

(** * C78: once the pipeline is at rest and no document waits, a search sees exactly the
    documents that the clients indexed *)
Theorem C78_search_sees_the_writes murmur n only reqsFirst cap sortDocs sortBy o s0 nseg progs s shards log2 req order :
  1 <= n < 2^32 → valid_sort sortDocs → valid_sortBy sortBy → Init o = Some s0 →
  pipe_reach murmur n only reqsFirst cap nseg progs s → quiescent s → once_each (mjoin progs) →
  engine_shards sortDocs s0 only n s shards → Forall nothing_waits shards →
  plain_request o req → scores_numbers log2 req shards → all_arrive (length shards) order →
  ∃ full out, Search log2 sortBy req shards order = Some (mkResp (rqTokens req) false (zlen full) (Some out)) ∧
    answers_calls only (mjoin progs) req full out.
Proof.
  intros Hn. exact (end_search murmur n only reqsFirst cap Hn sortDocs sortBy o s0 nseg progs s shards log2 req order).
Qed.
Print Assumptions C78_search_sees_the_writes.

(** The same for searches of any number of clients at the same time. *)
Theorem C78_searches_see_the_writes murmur n only reqsFirst cap sortDocs sortBy o s0 nseg progs s shards log2 nn ccap
    clients tl tr ls fs a req t0 :
  1 <= n < 2^32 → valid_sort sortDocs → valid_sortBy sortBy → Init o = Some s0 →
  pipe_reach murmur n only reqsFirst cap nseg progs s → quiescent s → once_each (mjoin progs) →
  engine_shards sortDocs s0 only n s shards → Forall nothing_waits shards →
  frun log2 sortBy nn ccap ls (fInit nn clients tl tr shards) = Some fs → Forall read_only ls → length shards = nn →
  a ∈ fAnswers fs → fReqs fs !! faSearch a = Some (req, t0) →
  plain_request o req → scores_numbers log2 req shards →
  ∃ full out, faResp a = mkResp (rqTokens req) false (zlen full) (Some out) ∧
    answers_calls only (mjoin progs) req full out.
Proof.
  intros Hn. exact (end_flight murmur n only reqsFirst cap Hn sortDocs sortBy o s0 nseg progs s shards log2 nn ccap
    clients tl tr ls fs a req t0).
Qed.
Print Assumptions C78_searches_see_the_writes.

(** Nothing waits after forced calls, by any number of clients; *)
Theorem C78_forced_writes_do_not_wait murmur n only reqsFirst cap sortDocs o s0 nseg progs s :
  1 <= n < 2^32 → valid_sort sortDocs → Init o = Some s0 →
  pipe_reach murmur n only reqsFirst cap nseg progs s → quiescent s → once_each (mjoin progs) →
  Forall forced_call (mjoin progs) →
  ∃ shards, engine_shards sortDocs s0 only n s shards ∧ Forall nothing_waits shards.
Proof. intros Hn. exact (end_forced murmur n only reqsFirst cap Hn sortDocs o s0 nseg progs s). Qed.
Print Assumptions C78_forced_writes_do_not_wait.
(** nor after the calls of one client that end with Flush. *)
Theorem C78_flushed_writes_do_not_wait murmur n only reqsFirst cap sortDocs o s0 nseg phases s :
  1 <= n < 2^32 → valid_sort sortDocs → Init o = Some s0 →
  pipe_reach murmur n only reqsFirst cap nseg [program phases] s → quiescent s → Forall good_phase phases →
  ∃ shards, engine_shards sortDocs s0 only n s shards ∧ Forall nothing_waits shards.
Proof. intros Hn. exact (end_flushed murmur n only reqsFirst cap Hn sortDocs o s0 nseg phases s). Qed.
Print Assumptions C78_flushed_writes_do_not_wait.
(** nor if, after calls of any number of clients, a Flush was handled last. *)
Theorem C78_nothing_waits_after_a_last_flush murmur n only reqsFirst cap sortDocs o s0 nseg progs s :
  1 <= n < 2^32 → valid_sort sortDocs → Init o = Some s0 →
  pipe_reach murmur n only reqsFirst cap nseg progs s → quiescent s → once_each (mjoin progs) → flushed_last n s →
  ∃ shards, engine_shards sortDocs s0 only n s shards ∧ Forall nothing_waits shards.
Proof. intros Hn. exact (end_last_flush murmur n only reqsFirst cap Hn sortDocs o s0 nseg progs s). Qed.
Print Assumptions C78_nothing_waits_after_a_last_flush.

(** Two clients write to two shards ("a" goes to the first one), then a search for "x". *)
Definition hashAB (s : string) : Z := if String.eqb s "ax" then 0 else 1.
Definition endProgs : list (list ecall) := [[idxA true; EIndex docC (IOther 3) "z" INil true]; [idxB true; EFlush]].
Definition endSched : list nat :=
  [1; 1; 1; 1; 2; 2; 7; 7; 7; 7; 2; 3; 3; 3; 2; 9; 9; 1; 1; 1; 1; 1; 1; 1; 1; 1; 2; 2; 3; 3; 3; 2; 7; 7; 7; 1; 1; 1; 1; 0;
   0; 0; 0; 2; 2; 3; 3; 3; 3; 2; 7; 7; 7; 2; 5; 5; 0; 0; 0; 0; 2; 2; 7; 7; 7; 7; 2; 3; 3; 3; 2; 9; 9]%nat.
Definition endShard (i : Z) (s : pstate) : option Shard :=
  match st (optsF 2) (ixCalls i (sLog s)), shardRk i s with Some ix, Some r => Some (mkShard ix r) | _, _ => None end.
Definition endShards (s : pstate) : list Shard := omap (λ i, endShard i s) [0; 1].
Definition idle (sh : Shard) : bool := (zlen (addCache (shIx sh)) =? 0) && (zlen (removeCache (shIx sh)) =? 0).
Definition endSearch (off lim : Z) (s : pstate) : option (option (list string) * Z) :=
  match Search (λ x, x) insSortBy (exReq off lim false 0) (endShards s) [Some 1%nat; Some 0%nat] with
  | Some r => Some (fmap (M:=list) sdDocId <$> rsDocs r, rsNumDocs r)
  | None => None
  end.
Lemma endShards_ok s0 s : Init (optsF 2) = Some s0 → length (endShards s) = 2%nat →
  engine_shards stableSort s0 false 2 s (endShards s).
Proof.
  intros HI. unfold endShards. cbn [omap list_omap].
  assert (HE : ∀ i sh, endShard i s = Some sh → run stableSort (ixCalls i (sLog s)) s0 = Some (shIx sh) ∧
    rrun (rkCalls i (sLog s)) (RankerInit [false]) = Some (shRk sh)).
  { intros i sh. unfold endShard, st, shardRk. rewrite HI. cbn [mbind option_bind].
    destruct (run stableSort (ixCalls i (sLog s)) s0); [|done]. destruct (rrun _ _); [|done]. by intros [= <-]. }
  destruct (endShard 0 s) as [x|] eqn:E0; destruct (endShard 1 s) as [y|] eqn:E1; try done. intros _.
  split; [done|]. intros [|[|i]] sh; [intros [= <-]; by apply HE|intros [= <-]; by apply HE|done].
Qed.
Example C78_case : ∃ s0 s shards, Init (optsF 2) = Some s0 ∧
  pipe_reach hashAB 2 false true cap1 1 endProgs s ∧ quiescent s ∧ once_each (mjoin endProgs) ∧
  Forall forced_call (mjoin endProgs) ∧
  engine_shards stableSort s0 false 2 s shards ∧ Forall nothing_waits shards ∧ shards = endShards s ∧
  plain_request (optsF 2) (exReq 0 0 false 0) ∧ plain_request (optsF 2) (exReq 1 1 false 0) ∧ score_nan_free numScore ∧
  endSearch 0 0 s = Some (Some ["c"; "b"; "a"], 3) ∧ endSearch 1 1 s = Some (Some ["b"], 3).
Proof.
  destruct (sched_check_ok hashAB 2 true endProgs endSched
    (λ s, quiescentb s && Nat.eqb (length (endShards s)) 2 && forallb idle (endShards s) &&
          bool_decide (endSearch 0 0 s = Some (Some ["c"; "b"; "a"], 3)) && bool_decide (endSearch 1 1 s = Some (Some ["b"], 3))))
    as (s & Hs & H); [by vm_compute|].
  rewrite !andb_true_iff, !bool_decide_eq_true in H. destruct H as ((((Hq%quiescentb_ok & Hl%Nat.eqb_eq) & Hi) & H1) & H2).
  destruct (Init (optsF 2)) as [s0|] eqn:EI; [|done]. exists s0, s, (endShards s).
  split; [done|]. split; [done|]. split; [done|].
  split. { split; [|apply (bool_decide_unpack _); by vm_compute].
    repeat (apply Forall_cons; split); try (apply Forall_nil; done); (split; [|done]); try done;
      apply (bool_decide_unpack _); by vm_compute. }
  split. { repeat (apply Forall_cons; split); try (apply Forall_nil; done); done. }
  split; [by apply endShards_ok|].
  split. { apply Forall_forall. intros sh Hsh. rewrite forallb_forall in Hi. apply elem_of_list_In in Hsh. specialize (Hi sh Hsh).
    unfold idle in Hi. apply andb_true_iff in Hi as [Ha%Z.eqb_eq Hr%Z.eqb_eq]. unfold zlen in *.
    split; [by destruct (addCache (shIx sh))|by destruct (removeCache (shIx sh))]. }
  split; [done|]. split; [by repeat split|]. split; [by repeat split|]. split; [|done].
  intros x f. apply numScore_num.
Qed.
