(** Theorems about concurrent searches (engine.go Search, NotTimeOut, TimeOut;
    indexer_worker.go indexerLookup; ranker_worker.go rankerRank). *)
From Verif Require Import ModelFlight SpecFlight SpecRank SpecEngine ProofFlight ProofFlightSafe ProofFlightLive ProofFlightCrash
  ExampleTools ProofSortBy ProofScore ProofRanker ProofEngine PropRanker PropEngine.

(** * Example executions *)
Definition cap1 (_ : schan) : nat := 1.
Notation exStep n := (fstep (λ x, x) insSortBy n cap1).
Notation exRun n := (frun (λ x, x) insSortBy n cap1).
(** The steps taken when the goroutines get turns in the order [ks] *)
Fixpoint driven (n : nat) (ks : list nat) (s : fstate) : list flabel :=
  match ks with
  | [] => []
  | k :: ks' =>
    match exStep n (LProc k false) s with
    | Some s' => LProc k false :: driven n ks' s'
    | None => driven n ks' s
    end
  end.
Definition rounds (m N : nat) : list nat := mjoin (replicate m (seq 0 N)).
Definition exPrograms : list (list SearchReq) := [[exReq 0 2 false 0; exReq 0 0 true 0]; [exReq 1 3 false 5]].
(** Three shards, two clients; goroutines 2 to 7 are the workers. *)
Definition exFlight (m : nat) : option (list flabel * fstate) :=
  match exShards with
  | Some shs =>
    let s0 := fInit 3 exPrograms 1 1 shs in
    let ls := driven 3 (rounds m 8) s0 in
    match exRun 3 ls s0 with Some s => Some (ls, s) | None => None end
  | None => None
  end.
Definition respIds (r : SearchResp) : option (list string) * Z :=
  (match rsDocs r with Some l => Some (sdDocId <$> l) | None => None end, rsNumDocs r).

(** * C75: every search returns *)
(** In every fair execution, whatever is written to the shards meanwhile, all searches
    of all clients return, each with one answer, unless a goroutine panics. *)
Theorem C75_every_search_returns log2 sortBy n cap programs tl tr shards ls :
  (∀ ch, (0 < cap ch)%nat) → (0 < tl)%nat → (0 < tr)%nat →
  ffair (length (fProcs (fInit n programs tl tr shards))) ls →
  ∃ i, ∀ j, (i <= j)%nat → let s := fafter (fstep log2 sortBy n cap) ls (fInit n programs tl tr shards) j in
    fCrash s = true ∨ all_answered programs s.
Proof. intros Hc. exact (returns_lem log2 sortBy n cap Hc programs tl tr shards ls). Qed.
Print Assumptions C75_every_search_returns.

(** No goroutine panics if the paging parameters are sane and the lookups in the index
    come back; then all searches return. *)
Theorem C75_searches_survive log2 sortBy n cap programs tl tr shards (Q : Shard → Prop) ls s :
  length shards = n → Forall Q shards → Forall (writes_in Q) ls →
  (∀ req, req ∈ mjoin programs → paging_ok req ∧ ∀ sh, Q sh → looks_up log2 req sh) →
  frun log2 sortBy n cap ls (fInit n programs tl tr shards) = Some s → fCrash s = false.
Proof. exact (survives_lem log2 sortBy n cap programs tl tr shards Q ls s). Qed.
Print Assumptions C75_searches_survive.
Theorem C75_every_search_returns_if_calm log2 sortBy n cap programs tl tr shards (Q : Shard → Prop) ls :
  (∀ ch, (0 < cap ch)%nat) → (0 < tl)%nat → (0 < tr)%nat →
  length shards = n → Forall Q shards → (∀ j, writes_in Q (ls j)) →
  (∀ req, req ∈ mjoin programs → paging_ok req ∧ ∀ sh, Q sh → looks_up log2 req sh) →
  ffair (length (fProcs (fInit n programs tl tr shards))) ls →
  ∃ i, ∀ j, (i <= j)%nat → all_answered programs (fafter (fstep log2 sortBy n cap) ls (fInit n programs tl tr shards) j).
Proof. exact (returns_calm_lem log2 sortBy n cap programs tl tr shards Q ls). Qed.
Print Assumptions C75_every_search_returns_if_calm.

Lemma round_robin_fair N : ffair N (λ j, LProc (j mod N) false).
Proof.
  intros k Hk i. exists (i * N + k)%nat, false. split; [nia|]. f_equal.
  rewrite Nat.add_comm, Nat.mod_add by lia. by apply Nat.mod_small.
Qed.
Example C75_case : ∃ shs, exShards = Some shs ∧ length shs = 3%nat ∧
  (∀ req, req ∈ mjoin exPrograms → paging_ok req) ∧
  (∀ req sh, req ∈ mjoin exPrograms → sh ∈ shs → looks_up (λ x, x) req sh) ∧
  ffair (length (fProcs (fInit 3 exPrograms 1 1 shs))) (λ j, LProc (j mod 8) false).
Proof.
  set (lk := λ sh, forallb (λ req, bool_decide (is_Some (Lookup (λ x, x) (shIx sh) (rqTokens req) (rqLabels req) (rqDocIds req)
     (rqCountOnly req) (Some (rqLogic req))))) (mjoin exPrograms)).
  assert (H : match exShards with Some shs => Nat.eqb (length shs) 3 && forallb lk shs | None => false end = true) by by vm_compute.
  destruct exShards as [shs|]; [|done]. apply andb_true_iff in H as [H1 H2]. exists shs. split; [done|].
  split; [by apply Nat.eqb_eq|]. split; [|split].
  - intros req Hr. cbn in Hr. rewrite !elem_of_cons in Hr. destruct Hr as [->|[->|[->|Hr]]]; [..|by apply elem_of_nil in Hr];
      unfold paging_ok; cbn; lia.
  - intros req sh Hr Hs. rewrite forallb_forall in H2. apply elem_of_list_In in Hs. specialize (H2 sh Hs). unfold lk in H2.
    rewrite forallb_forall in H2. apply elem_of_list_In in Hr. specialize (H2 req Hr). by apply bool_decide_eq_true in H2.
  - apply round_robin_fair.
Qed.
(** What these searches answer under the round-robin schedule *)
Example C75_answers : match exFlight 40 with
  | Some (_, s) => fCrash s = false ∧ length (fNet s) = 0%nat ∧
      (λ a, (faSearch a, respIds (faResp a))) <$> fAnswers s =
        [(0%nat, (Some ["e"; "d"], 4)); (1%nat, (Some ["e"; "d"; "a"], 4)); (2%nat, (None, 5))]
  | None => False
  end.
Proof. by vm_compute. Qed.

(** * C76: concurrent searches do not disturb each other *)
(** If nobody writes, each search gets the answer that it would get alone, for some
    order in which the shards answer: a permutation of the shards if there is no
    timeout, otherwise one without repetitions. *)
Theorem C76_as_if_alone log2 sortBy n cap programs tl tr shards ls s a :
  frun log2 sortBy n cap ls (fInit n programs tl tr shards) = Some s → Forall read_only ls →
  a ∈ fAnswers s → length shards = n →
  ∃ req t0 order, fReqs s !! faSearch a = Some (req, t0) ∧
    ((∀ sh, sh ∈ shards → is_Some (shardReply log2 sortBy req sh)) →
      Search log2 sortBy req shards order = Some (faResp a)) ∧
    length order = n ∧ NoDup (omap id order) ∧ (rqTimeout req <= 0 → order ≡ₚ Some <$> seq 0 n).
Proof. exact (search_lem log2 sortBy n cap programs tl tr shards ls s a). Qed.
Print Assumptions C76_as_if_alone.

(** In particular it gets its page of the ranking of all hits of all shards. *)
Theorem C76_global_page log2 sortBy n cap programs tl tr shards ls s a only parts req t0 : valid_sortBy sortBy →
  frun log2 sortBy n cap ls (fInit n programs tl tr shards) = Some s → Forall read_only ls → length shards = n →
  a ∈ fAnswers s → fReqs s !! faSearch a = Some (req, t0) →
  Forall2 (shard_view log2 only req) shards parts →
  no_nan (all_hits only (ScoringCriteria (rqOpts req)) parts) → ranked req → rqTimeout req <= 0 → paging_ok req →
  ∃ full out, full ≡ₚ all_hits only (ScoringCriteria (rqOpts req)) parts ∧
    in_order (ReverseOrder (rqOpts req)) full ∧
    faResp a = mkResp (rqTokens req) false (zlen full) (Some out) ∧
    Forall2 same_scores out (page (OutputOffset (rqOpts req)) (MaxOutputs (rqOpts req)) full) ∧ out ⊆+ full.
Proof. exact (global_lem log2 sortBy n cap programs tl tr shards ls s a only parts req t0). Qed.
Print Assumptions C76_global_page.

Definition roLabel (l : flabel) : bool := match l with LProc _ _ => true | LWrite _ _ => false end.
Lemma roLabel_ok ls : forallb roLabel ls = true → Forall read_only ls.
Proof. rewrite Forall_forall, forallb_forall. intros H l Hl. apply elem_of_list_In in Hl. specialize (H l Hl). by destruct l. Qed.
Example C76_case : ∃ shs ls s a, exShards = Some shs ∧ length shs = 3%nat ∧
  exRun 3 ls (fInit 3 exPrograms 1 1 shs) = Some s ∧ Forall read_only ls ∧ a ∈ fAnswers s ∧
  fReqs s !! faSearch a = Some (exReq 0 2 false 0, 0%nat) ∧ respIds (faResp a) = (Some ["e"; "d"], 4) ∧
  valid_sortBy (@insSortBy ScoredDoc) ∧ no_nan (all_hits false numScore exParts) ∧
  Forall2 (shard_view (λ x, x) false (exReq 0 2 false 0)) shs exParts ∧
  ranked (exReq 0 2 false 0) ∧ paging_ok (exReq 0 2 false 0).
Proof.
  destruct (ex_views 0 2 false 0) as (shs & E & H2 & H3 & _).
  assert (H : match exFlight 40 with
    | Some (ls, s) => forallb roLabel ls && match fAnswers s, fReqs s with
        | a :: _, (r, t) :: _ => Nat.eqb (faSearch a) 0 && Nat.eqb t 0 && bool_decide (respIds (faResp a) = (Some ["e"; "d"], 4))
        | _, _ => false end
    | None => false end = true) by by vm_compute.
  assert (Hq : match exFlight 40 with Some (_, s) => fst <$> head (fReqs s) | None => None end = Some (exReq 0 2 false 0)) by by vm_compute.
  unfold exFlight in H, Hq. rewrite E in H, Hq. cbv zeta in H, Hq.
  set (ls := driven 3 (rounds 40 8) (fInit 3 exPrograms 1 1 shs)) in *.
  destruct (exRun 3 ls (fInit 3 exPrograms 1 1 shs)) as [s|] eqn:Er; [|done].
  apply andb_true_iff in H as [Hro H]. exists shs, ls, s.
  destruct (fAnswers s) as [|a an] eqn:Ea; [done|]. destruct (fReqs s) as [|[r t] rs] eqn:Eq; [done|].
  apply andb_true_iff in H as [H H5]. apply andb_true_iff in H as [H4 H6]. apply Nat.eqb_eq in H4, H6. apply bool_decide_eq_true in H5.
  cbn in Hq. injection Hq as ->. exists a. split; [done|]. split; [done|]. split; [done|]. split; [by apply roLabel_ok|].
  split; [by left|]. split; [rewrite H4; cbn; by rewrite H6|]. split; [done|].
  split; [exact insSortBy_valid|]. split; [apply all_hits_no_nan, numScore_num|]. split; [done|]. split; [done|].
  unfold paging_ok. cbn. lia.
Qed.

(** * C77: searches beside writers *)
(** Whatever is written to the shards while a search is under way: the search gets
    exactly one answer from each shard (at most one if it has a timeout), and each
    answer was computed between its start and its end: the documents from the index at
    one moment, each of them judged by the ranker at a moment not before. *)
Theorem C77_answers_from_the_window log2 sortBy n cap programs tl tr shards ls s a :
  frun log2 sortBy n cap ls (fInit n programs tl tr shards) = Some s → a ∈ fAnswers s →
  ∃ req t0, fReqs s !! faSearch a = Some (req, t0) ∧ (t0 <= faEnd a <= moment (fWorlds s))%nat ∧
    Ranks sortBy req (heard (faGot a)) = Some (faResp a) ∧
    length (faGot a) = n ∧ NoDup (heardOf (faGot a)) ∧ (∀ i, i ∈ heardOf (faGot a) → (i < n)%nat) ∧
    (rqTimeout req <= 0 → Forall is_Some (faGot a) ∧ heardOf (faGot a) ≡ₚ seq 0 n) ∧
    ∀ i rp, Some (i, rp) ∈ faGot a → answered_between log2 sortBy (fWorlds s) i req t0 (faEnd a) rp.
Proof. exact (replies_lem log2 sortBy n cap programs tl tr shards ls s a). Qed.
Print Assumptions C77_answers_from_the_window.
(** So the answer of a shard that is not written to meanwhile is the one it always
    gives. *)
Theorem C77_unchanged_shard log2 sortBy ws i req t1 t2 rp sh :
  answered_between log2 sortBy ws i req t1 t2 rp → (∀ sh', seen ws i t1 t2 sh' → sh' = sh) →
  shardReply log2 sortBy req sh = Some rp.
Proof. exact (answered_unchanged log2 sortBy ws i req t1 t2 rp sh). Qed.
Print Assumptions C77_unchanged_shard.

(** One shard; document "a" with the words x and y and content "old" is replaced by
    one with the words y and z and content "new", in the index and in the ranker, while
    a search for x is between the two. *)
Definition ck (c : string) : rop := ROAdd "a" (IOther 1) [IStr c; INil].
Definition exOld : option Shard := exShard (optsF 2) [OpAdd (Some docA) true] [ck "old"].
Definition exNew : option Shard := exShard (optsF 2) [OpAdd (Some docA) true; OpAdd (Some docA2) true] [ck "old"; ck "new"].
Definition exMixed (new : Shard) : list flabel :=
  ((λ k, LProc k false) <$> [0; 0; 0; 1; 1; 1]%nat) ++ [LWrite 0 new] ++ ((λ k, LProc k false) <$> [2; 2; 2; 2; 0; 0]%nat).
(** The contents of the documents of a reply *)
Definition shown (rp : Reply) : list (string * string) :=
  match rpDocs rp with Some l => (λ d, (sdDocId d, sdContent d)) <$> l | None => [] end.

(** An answer need not agree with the shard at any one moment: the search for x shows
    the new content of "a", which does not contain x. *)
Theorem C77_mixed_versions_refuted : ∃ old new s a rp,
  exOld = Some old ∧ exNew = Some new ∧
  exRun 1 (exMixed new) (fInit 1 [[exReq 0 0 false 0]] 1 1 [old]) = Some s ∧
  a ∈ fAnswers s ∧ faGot a = [Some (0%nat, rp)] ∧ shown rp = [("a", "new")] ∧
  (∃ r1, shardReply (λ x, x) insSortBy (exReq 0 0 false 0) old = Some r1 ∧ shown r1 = [("a", "old")]) ∧
  (∃ r2, shardReply (λ x, x) insSortBy (exReq 0 0 false 0) new = Some r2 ∧ shown r2 = []).
Proof.
  assert (H : match exOld, exNew with
    | Some old, Some new =>
      match exRun 1 (exMixed new) (fInit 1 [[exReq 0 0 false 0]] 1 1 [old]),
            shardReply (λ x, x) insSortBy (exReq 0 0 false 0) old, shardReply (λ x, x) insSortBy (exReq 0 0 false 0) new with
      | Some s, Some r1, Some r2 =>
        match fAnswers s with
        | a :: _ => match faGot a with
            | [Some (O, rp)] => bool_decide (shown rp = [("a", "new")])
            | _ => false end
        | [] => false end && bool_decide (shown r1 = [("a", "old")]) && bool_decide (shown r2 = [])
      | _, _, _ => false end
    | _, _ => false end = true) by by vm_compute.
  destruct exOld as [old|]; [|done]. destruct exNew as [new|]; [|done].
  destruct (exRun 1 _ _) as [s|] eqn:E; [|done].
  destruct (shardReply _ _ _ old) as [r1|] eqn:E1; [|done]. destruct (shardReply _ _ _ new) as [r2|] eqn:E2; [|done].
  rewrite !andb_true_iff, !bool_decide_eq_true in H. destruct H as [[H H1] H2].
  destruct (fAnswers s) as [|a an] eqn:Ea; [done|]. destruct (faGot a) as [|[[[|] rp]|] [|]] eqn:Eg; try done.
  apply bool_decide_eq_true in H. exists old, new, s, a, rp. do 3 (split; [done|]). split; [rewrite Ea; by left|].
  split; [done|]. split; [done|]. split; [by exists r1|by exists r2].
Qed.
Print Assumptions C77_mixed_versions_refuted.
