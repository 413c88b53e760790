(** Theorems about searches with a logic expression, through the whole engine. *)
From Verif Require Import ModelPipe ModelEngine ModelFlight SpecIndexer SpecSearch SpecLogic SpecRank SpecRoute SpecPipe SpecEngine SpecFlight
  SpecEnd SpecFits SpecDuring SpecDeadline ProofIxThms ProofSortBy ProofFlushThms ProofFits ProofEnd ProofDuring
  ExampleTools PropPipe PropEngine PropEnd PropFlight PropDuring PropDeadline.

(** * C96: searches with a logic expression see the writes *)
(** After the writes have come to rest, a search with a logic expression finds exactly the
    documents whose words do what its parts ask for, over all shards. *)
Theorem C96_logic_search_sees_the_writes murmur n only reqsFirst cap sortDocs sortBy o s0 nseg progs s shards log2 req order :
  1 <= n < 2^32 → valid_sort sortDocs → valid_sortBy sortBy → Init o = Some s0 →
  pipe_reach murmur n only reqsFirst cap nseg progs s → quiescent s → once_each (mjoin progs) →
  engine_shards sortDocs s0 only n s shards → Forall nothing_waits shards →
  open_request o req → scores_numbers log2 req shards → all_arrive (length shards) order →
  ∃ full out, Search log2 sortBy req shards order = Some (mkResp (rqTokens req) false (zlen full) (Some out)) ∧
    answers_fitting only (mjoin progs) req full out.
Proof.
  intros Hn. exact (rest_search murmur n only reqsFirst cap Hn sortDocs sortBy o s0 nseg progs s shards log2 req order).
Qed.
Print Assumptions C96_logic_search_sees_the_writes.

(** The same for searches of any number of clients at the same time. *)
Theorem C96_logic_searches_see_the_writes murmur n only reqsFirst cap sortDocs sortBy o s0 nseg progs s shards log2 nn ccap
    clients tl tr ls fs a req t0 :
  1 <= n < 2^32 → valid_sort sortDocs → valid_sortBy sortBy → Init o = Some s0 →
  pipe_reach murmur n only reqsFirst cap nseg progs s → quiescent s → once_each (mjoin progs) →
  engine_shards sortDocs s0 only n s shards → Forall nothing_waits shards →
  frun log2 sortBy nn ccap ls (fInit nn clients tl tr shards) = Some fs → Forall read_only ls → length shards = nn →
  a ∈ fAnswers fs → fReqs fs !! faSearch a = Some (req, t0) →
  open_request o req → scores_numbers log2 req shards →
  ∃ full out, faResp a = mkResp (rqTokens req) false (zlen full) (Some out) ∧
    answers_fitting only (mjoin progs) req full out.
Proof.
  intros Hn. exact (rest_flight murmur n only reqsFirst cap Hn sortDocs sortBy o s0 nseg progs s shards log2 nn ccap
    clients tl tr ls fs a req t0).
Qed.
Print Assumptions C96_logic_searches_see_the_writes.

(** "x" and not "y"; and "y" or "z", with the document ids "a" which do not count there. *)
Definition mustReq (count : bool) (timeout : Z) : SearchReq :=
  mkReq ["x"] [] (mkLogic true false true [] [] ["y"]) None (mkRankOpts numScore false 0 0) timeout count false.
Definition shouldReq (timeout : Z) : SearchReq :=
  mkReq ["y"; "z"] [] (mkLogic false true false [] [] []) (Some {["a"]}) (mkRankOpts numScore false 0 0) timeout false false.
Lemma must_answerable count timeout : answerable (optsF 2) (mustReq count timeout) ∧ with_logic (mustReq count timeout).
Proof. assert (H : with_logic (mustReq count timeout)) by (left; split; [done|by left]). split; [|done]. right. split; [done|]. left. by exists "x", []. Qed.
Lemma should_answerable timeout : answerable (optsF 2) (shouldReq timeout) ∧ with_logic (shouldReq timeout).
Proof.
  assert (H : with_logic (shouldReq timeout)) by (left; split; [done|right; by left]). split; [|done]. right. split; [done|]. right.
  split; [done|]. by exists ["y"; "z"].
Qed.
Definition logicSearch (req : SearchReq) (s : pstate) : option (option (list string) * Z) :=
  match Search (λ x, x) insSortBy req (endShards s) [Some 1%nat; Some 0%nat] with
  | Some r => Some (fmap (M:=list) sdDocId <$> rsDocs r, rsNumDocs r)
  | None => None
  end.
Example C96_case : ∃ s0 s shards, Init (optsF 2) = Some s0 ∧
  pipe_reach hashAB 2 false true PropPipe.cap1 1 endProgs s ∧ quiescent s ∧ once_each (mjoin endProgs) ∧
  engine_shards stableSort s0 false 2 s shards ∧ Forall nothing_waits shards ∧ shards = endShards s ∧
  open_request (optsF 2) (mustReq false 0) ∧ with_logic (mustReq false 0) ∧
  open_request (optsF 2) (shouldReq 0) ∧ with_logic (shouldReq 0) ∧ score_nan_free numScore ∧
  fits (mustReq false 0) docB ∧ ¬ fits (mustReq false 0) docA ∧ fits (shouldReq 0) docB ∧ ¬ fits (shouldReq 0) docC ∧
  logicSearch (mustReq false 0) s = Some (Some ["c"; "b"], 2) ∧ logicSearch (shouldReq 0) s = Some (Some ["b"; "a"], 2).
Proof.
  destruct (sched_check_ok hashAB 2 true endProgs endSched
    (λ s, quiescentb s && Nat.eqb (length (endShards s)) 2 && forallb idle (endShards s) &&
          bool_decide (logicSearch (mustReq false 0) s = Some (Some ["c"; "b"], 2)) && bool_decide (logicSearch (shouldReq 0) s = Some (Some ["b"; "a"], 2))))
    as (s & Hs & H); [by vm_compute|].
  rewrite !andb_true_iff, !bool_decide_eq_true in H. destruct H as ((((Hq%quiescentb_ok & Hl%Nat.eqb_eq) & Hi) & H1) & H2).
  destruct (Init (optsF 2)) as [s0|] eqn:EI; [|done]. exists s0, s, (endShards s).
  split; [done|]. split; [done|]. split; [done|].
  split. { split; [|apply (bool_decide_unpack _); by vm_compute].
    repeat (apply Forall_cons; split); try (apply Forall_nil; done); (split; [|done]); try done;
      apply (bool_decide_unpack _); by vm_compute. }
  split; [by apply endShards_ok|].
  split. { apply Forall_forall. intros sh Hsh. rewrite forallb_forall in Hi. apply elem_of_list_In in Hsh. specialize (Hi sh Hsh).
    unfold idle in Hi. apply andb_true_iff in Hi as [Ha%Z.eqb_eq Hr%Z.eqb_eq]. unfold zlen in *.
    split; [by destruct (addCache (shIx sh))|by destruct (removeCache (shIx sh))]. }
  destruct (must_answerable false 0) as [M1 M2]. destruct (should_answerable 0) as [S1 S2].
  split; [done|]. split; [by repeat split|]. split; [done|]. split; [by repeat split|]. split; [done|]. split; [exact (proj2 plain_ex)|].
  split; [|split; [|split; [|split; [|done]]]].
  - split; [done|]. intros _. split; [|done]. split; [|split]; [|done|].
    + intros ws [= <-] k ->%elem_of_list_singleton. apply (bool_decide_unpack _). by vm_compute.
    + intros ws [= <-] k ->%elem_of_list_singleton. apply (bool_decide_unpack _). by vm_compute.
  - intros [_ Hf]. destruct (Hf M2) as [(_ & _ & Hnot) _]. apply (Hnot ["y"] eq_refl "y"); [left|]. apply (bool_decide_unpack _). by vm_compute.
  - split; [done|]. intros _. split; [|done]. split; [done|]. split; [|done].
    intros ws [= <-]. exists "z". split; apply (bool_decide_unpack _); by vm_compute.
  - intros [_ Hf]. destruct (Hf S2) as [(_ & Hsh & _) _]. destruct (Hsh ["y"; "z"] eq_refl) as (k & Hk & Hkd).
    apply elem_of_list_In in Hk. destruct Hk as [<-|[<-|[]]]; revert Hkd; apply (bool_decide_unpack _); by vm_compute.
Qed.

(** C94 for such searches: while two clients write, "x" and not "y" with a deadline that
    passes, "y" or "z", and twice the number of documents with "x" and not "y". *)
Definition logReqs : list SearchReq := [mustReq false 5; shouldReq 5; mustReq true 0; mustReq true 0].
Definition logInit (p : pstate) : fstate := fInit 2 [logReqs] 1 1 (endShards p).
Definition logRun (ps : list pstate) (a b c d : nat) : option (list flabel) :=
  match ps with
  | [p0; p1; p2; p3] =>
    r0 ← exTurns a ([], logInit p0); q0 ← exLate r0;
    r1 ← exWrite 0 p1 q0; r2 ← exTurns b r1; r3 ← exWrite 0 p2 r2; r4 ← exTurns c r3; r5 ← exWrite 1 p3 r4;
    r6 ← exTurns d r5; Some (fst r6)
  | _ => None
  end.
Definition logAnswers : list (option (list string) * Z * bool * list nat * nat) :=
  [(Some [], 0, true, [0]%nat, 2%nat); (Some ["b"; "a"], 2, false, [0; 1]%nat, 3%nat); (None, 2, false, [0; 1]%nat, 3%nat); (None, 2, false, [0; 1]%nat, 3%nat)].
Definition logCheck (ps : list pstate) (fs : fstate) : bool :=
  forallb (λ p, Nat.eqb (length (endShards p)) 2) ps && bool_decide (heardAnswers fs = logAnswers) &&
  bool_decide (snd <$> fReqs fs = [0; 2; 3; 3]%nat) && inShard (fWorlds fs) 0 1 "b" && inShard (fWorlds fs) 2 0 "a".
Lemma log_computed : withRun duringStates (λ ps, logRun ps 16 10 40 200) (λ ls p0, exRun 2 ls (logInit p0))
  (λ ps fs, fWorlds fs = endShards <$> ps ∧ logCheck ps fs = true).
Proof. vm_compute. split; reflexivity. Qed.
Lemma log_requests : timed_request (optsF 2) (mustReq false 5) ∧ timed_request (optsF 2) (shouldReq 5) ∧ index_request (optsF 2) (mustReq true 0).
Proof.
  split; [|split].
  - split; [done|]. split; [done|]. apply must_answerable.
  - split; [done|]. split; [done|]. apply should_answerable.
  - split; [by left|]. apply must_answerable.
Qed.
Example C94_logic_case : ∃ s0 ps p0 ls fs, Init (optsF 2) = Some s0 ∧ Forall good_call (mjoin endProgs) ∧
  NoDup (omap call_id (mjoin endProgs)) ∧
  exRun 2 ls (fInit 2 [[mustReq false 5; shouldReq 5; mustReq true 0; mustReq true 0]] 1 1 (endShards p0)) = Some fs ∧
  written_by (pipeStep hashAB 2 false true PropPipe.cap1) (pipeInit 2 1 endProgs) stableSort s0 false 2 (fWorlds fs) ps ∧
  timed_request (optsF 2) (mustReq false 5) ∧ timed_request (optsF 2) (shouldReq 5) ∧ index_request (optsF 2) (mustReq true 0) ∧
  score_nan_free numScore ∧
  (∀ d f ct a fo, EIndex d f ct a fo ∈ mjoin endProgs → score_accepts numScore (DocId d) f) ∧
  only_call (mjoin endProgs) "b" (idxB true) ∧
  settled_in (fWorlds fs) 0 1 "b" ∧ settled_in (fWorlds fs) 2 0 "a" ∧ snd <$> fReqs fs = [0; 2; 3; 3]%nat ∧
  heardAnswers fs = logAnswers.
Proof.
  destruct (withRun_some _ _ _ _ log_computed) as (ps & p0 & ls & fs & Hp & H0 & Hr & Hw & Hc).
  destruct (Init (optsF 2)) as [s0|] eqn:HI; [|discriminate HI]. exists s0, ps, p0, ls, fs.
  unfold logCheck in Hc. rewrite !andb_true_iff, !bool_decide_eq_true in Hc. destruct Hc as ((((Hl & Ha) & Hq) & S0) & S1).
  split; [reflexivity|]. split; [exact endProgs_good|]. split; [exact (proj1 endProgs_once)|]. split; [exact Hr|].
  split; [rewrite Hw; exact (during_written s0 ps HI Hp Hl)|]. destruct log_requests as (D1 & D2 & D3).
  split; [exact D1|]. split; [exact D2|]. split; [exact D3|]. split; [exact (proj2 plain_ex)|].
  split; [exact endProgs_scored|]. split; [exact (proj2 endProgs_once)|].
  split; [exact (inShard_ok _ _ _ _ S0)|]. split; [exact (inShard_ok _ _ _ _ S1)|]. split; [exact Hq|exact Ha].
Qed.
