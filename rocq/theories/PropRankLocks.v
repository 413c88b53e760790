(** Theorems about concurrent calls of AddDoc, RemoveDoc and Rank on one ranker
    (core/ranker.go), at the level of its lock and of single accesses to its maps. *)
From Coq Require Import Floats.SpecFloat.
From Verif Require Import ModelRankLocks SpecRankLocks SpecRank ProofRankLocks ProofSortBy.

(** * C113 *)
(** Whenever no goroutine is inside the write lock, the ranker is the one that the
    completed calls, made one after the other in the order of the log, leave. *)
Theorem C113_writes_are_serial sortBy r programs s :
  krank_reach sortBy r programs s → kWriter (kShared s) = None →
  rrun (snd <$> kLog (kShared s)) r = Some (kRanker (kShared s)).
Proof. exact (rank_writes_serial sortBy r programs s). Qed.
Print Assumptions C113_writes_are_serial.

(** A goroutine that has ended has made its writes in the order of its program, once
    each, and got one answer for each Rank, for the documents and options given. *)
Theorem C113_calls_of_a_goroutine sortBy r programs s t th cs :
  krank_reach sortBy r programs s → kThreads s !! t = Some th → programs !! t = Some cs →
  kPc th = KIdle → kCalls th = [] →
  written_by_thread t (kLog (kShared s)) = writes_of cs ∧ answered_by t (kAnswers (kShared s)) = ranks_of cs.
Proof. exact (rank_programs sortBy r programs s t th cs). Qed.
Print Assumptions C113_calls_of_a_goroutine.

(** No data race on the maps: while one goroutine writes, no other reads or writes. *)
Theorem C113_no_race sortBy r programs s t u th uh :
  krank_reach sortBy r programs s →
  kThreads s !! t = Some th → kThreads s !! u = Some uh → t ≠ u → kwrites (kPc th) = true →
  kwrites (kPc uh) = false ∧ kreads (kPc uh) = false.
Proof. exact (rank_exclusive sortBy r programs s t u th uh). Qed.
Print Assumptions C113_no_race.

(** Each document of an answer is scored with the ranker as it was after some number of
    whole writes; these numbers rise along the documents, and lie between the number at
    the start of the call and that at its end. *)
Theorem C113_documents_are_read_whole sortBy r programs s a :
  krank_reach sortBy r programs s → a ∈ kAnswers (kShared s) →
  rising (snd <$> kaDone a) (kaFrom a) (kaTo a) ∧ (kaTo a <= length (kLog (kShared s)))%nat ∧
  ∃ acc, scored_at r (kLog (kShared s)) (kaOpts a) (kaCount a) (kaDone a) ([], 0) = Some acc ∧
         rankEnd sortBy (kaOpts a) (kaCount a) acc = Some (kaResult a).
Proof. exact (rank_answers sortBy r programs s a). Qed.
Print Assumptions C113_documents_are_read_whole.

(** So fields, content, attributes and score of an entry belong together. *)
Theorem C113_entries_are_not_torn sortBy r programs s a e :
  valid_sortBy sortBy → krank_reach sortBy r programs s → a ∈ kAnswers (kShared s) → e ∈ (kaResult a).1 →
  ∃ d m r', (d, m) ∈ kaDone a ∧ after_writes r (kLog (kShared s)) m = Some r' ∧ sdDocId e = ixDocId d ∧
    is_Some (rDocs r' !! ixDocId d) ∧
    sdScores e = ScoringCriteria (kaOpts a) d (default INil (rFields r' !! ixDocId d)) ∧
    (idOnly r' = false → sdFields e = default INil (rFields r' !! ixDocId d) ∧
       sdContent e = default "" (rContent r' !! ixDocId d) ∧ sdAttri e = default INil (rAttri r' !! ixDocId d)).
Proof. intros Hv Hr Ha He. exact (rank_entries sortBy r programs s a Hv Hr Ha e He). Qed.
Print Assumptions C113_entries_are_not_torn.

(** A call of Rank during which no write completes answers as Rank alone does. *)
Theorem C113_undisturbed sortBy r programs s a :
  krank_reach sortBy r programs s → a ∈ kAnswers (kShared s) → kaFrom a = kaTo a →
  ∃ r', after_writes r (kLog (kShared s)) (kaFrom a) = Some r' ∧
    Rank sortBy r' (fst <$> kaDone a) (kaOpts a) (kaCount a) = Some (kaResult a).
Proof. exact (rank_alone sortBy r programs s a). Qed.
Print Assumptions C113_undisturbed.

(** All calls return: executions are bounded, and one that cannot go on has finished
    all calls, or a goroutine has panicked. *)
Theorem C113_executions_are_bounded sortBy r programs ts s :
  ksched sortBy ts (kInit r programs) = Some s → (length ts <= kprogram_steps programs)%nat.
Proof. exact (rank_bounded sortBy r programs ts s). Qed.
Print Assumptions C113_executions_are_bounded.
Theorem C113_no_deadlock sortBy r programs s :
  krank_reach sortBy r programs s → ¬ kcrashed s → ¬ kfinished s → ∃ s', kconc sortBy s s'.
Proof. exact (rank_progress sortBy r programs s). Qed.
Print Assumptions C113_no_deadlock.
Theorem C113_no_panic sortBy r programs s :
  Forall (Forall kcall_ok) programs → krank_reach sortBy r programs s → ¬ kcrashed s.
Proof. exact (rank_calm sortBy r programs s). Qed.
Print Assumptions C113_no_panic.

(** * Examples *)
Definition kxDoc (id : string) : IndexedDoc := emptyIDoc id.
Definition kxOpts : RankOpts := mkRankOpts (λ _ _, [f_zero]) false 0 0.
Definition kxPrograms : list (list kcall) :=
  [[KWrite (ROAdd "a" (IOther 1) [IStr "ca"; IOther 7]); KWrite (ROAdd "b" (IOther 2) [IStr "cb"; IOther 8])];
   [KRank [kxDoc "a"; kxDoc "b"] kxOpts false]].
(** The reader looks at "a", then both documents are added, then it looks at "b". *)
Definition kxSched : list nat := replicate 4 1%nat ++ replicate 14 0%nat ++ replicate 6 1%nat ++ [1%nat].
Definition kxEnd : option (list string * Z * list (string * nat) * nat * nat) :=
  match ksched insSortBy kxSched (kInit (RankerInit []) kxPrograms) with
  | Some s => match kAnswers (kShared s) with
              | [a] => Some (sdDocId <$> (kaResult a).1, (kaResult a).2, (λ p, (ixDocId p.1, p.2)) <$> kaDone a, kaFrom a, kaTo a)
              | _ => None
              end
  | None => None
  end.
Example C113_ex_between : kxEnd = Some (["b"], 1, [("a", 0%nat); ("b", 2%nat)], 0%nat, 2%nat).
Proof. vm_compute. reflexivity. Qed.
Example C113_ex_ok : Forall (Forall kcall_ok) kxPrograms ∧ kprogram_steps kxPrograms = 28%nat.
Proof.
  split; [|reflexivity]. repeat (apply Forall_cons; split); try (apply Forall_nil; exact I); cbn; try (by eexists).
  right. lia.
Qed.

(** The answer need not be that of any single moment: above, "b" without "a" is
    answered, though "b" is added after "a". *)
Definition kxState : kstate :=
  match ksched insSortBy kxSched (kInit (RankerInit []) kxPrograms) with Some s => s | None => kInit (RankerInit []) [] end.
Definition kxIds (m : nat) : option (list string) :=
  match after_writes (RankerInit []) (kLog (kShared kxState)) m with
  | Some r => match Rank insSortBy r [kxDoc "a"; kxDoc "b"] kxOpts false with Some (out, _) => Some (sdDocId <$> out) | None => None end
  | None => None
  end.
Lemma kxIds_all m : kxIds m = Some [] ∨ kxIds m = Some ["a"] ∨ kxIds m = Some ["b"; "a"] ∨ kxIds m = Some ["a"; "b"].
Proof.
  assert (∀ n, kxIds (2 + n) = kxIds 2) as H2.
  { assert (length (kLog (kShared kxState)) = 2%nat) as Hl by (vm_compute; reflexivity).
    intros n. unfold kxIds, after_writes. rewrite (take_ge _ (2 + n)), (take_ge _ 2) by (rewrite Hl; lia). done. }
  destruct m as [|[|m]].
  - left. vm_compute. reflexivity.
  - right. left. vm_compute. reflexivity.
  - change (S (S m)) with (2 + m)%nat. rewrite (H2 m). right. right. first [left; vm_compute; reflexivity | right; vm_compute; reflexivity].
Qed.
Definition kxAnswer : kanswer :=
  match kAnswers (kShared kxState) with [a] => a | _ => mkKAns 0 kxOpts true [] 0 0 ([], 0) end.
Lemma kxAnswer_eq : kAnswers (kShared kxState) = [kxAnswer].
Proof. vm_compute. reflexivity. Qed.
Lemma kxAnswer_is : fst <$> kaDone kxAnswer = [kxDoc "a"; kxDoc "b"] ∧ kaOpts kxAnswer = kxOpts ∧ kaCount kxAnswer = false ∧
  sdDocId <$> (kaResult kxAnswer).1 = ["b"].
Proof. vm_compute. split; [reflexivity|]. split; [reflexivity|]. split; reflexivity. Qed.
Lemma kxReach : krank_reach insSortBy (RankerInit []) kxPrograms kxState.
Proof.
  apply ksched_reach with (ts := kxSched). unfold kxState.
  destruct (ksched insSortBy kxSched (kInit (RankerInit []) kxPrograms)) as [s|] eqn:E; [done|].
  exfalso. assert (match ksched insSortBy kxSched (kInit (RankerInit []) kxPrograms) with Some _ => true | None => false end = true) as H
    by (vm_compute; reflexivity). rewrite E in H. discriminate H.
Qed.
Theorem C113_answers_of_one_moment_refuted :
  ∃ sortBy r programs s a, valid_sortBy sortBy ∧ krank_reach sortBy r programs s ∧ a ∈ kAnswers (kShared s) ∧
    ∀ m r', after_writes r (kLog (kShared s)) m = Some r' →
      Rank sortBy r' (fst <$> kaDone a) (kaOpts a) (kaCount a) ≠ Some (kaResult a).
Proof.
  exists insSortBy, (RankerInit []), kxPrograms, kxState, kxAnswer. split; [apply insSortBy_valid|].
  split; [exact kxReach|]. split; [rewrite kxAnswer_eq; constructor|].
  destruct kxAnswer_is as (H1 & H2 & H3 & H4).
  intros m r' Hm HR. rewrite H1, H2, H3 in HR. pose proof (kxIds_all m) as Hx. unfold kxIds in Hx. rewrite Hm in Hx.
  rewrite HR in Hx. destruct (kaResult kxAnswer) as [out n]. cbn in Hx, H4. rewrite H4 in Hx. destruct Hx as [Hx|[Hx|[Hx|Hx]]]; discriminate Hx.
Qed.
Print Assumptions C113_answers_of_one_moment_refuted.

(** A reader waits while a writer is between two assignments, and goes on afterwards. *)
Example C113_ex_reader_waits :
  match ksched insSortBy [0; 0; 0; 1]%nat (kInit (RankerInit []) kxPrograms) with
  | Some s => kdo insSortBy 1 s = None ∧ rFields (kRanker (kShared s)) !! "a" = Some (IOther 1) ∧ rDocs (kRanker (kShared s)) !! "a" = None
  | None => False
  end ∧
  match ksched insSortBy ([0; 0; 0; 1] ++ replicate 4 0 ++ [1])%nat (kInit (RankerInit []) kxPrograms) with
  | Some s => kReaders (kShared s) = [1%nat] ∧ kWriter (kShared s) = None ∧ length (kLog (kShared s)) = 1%nat
  | None => False
  end.
Proof. vm_compute. split; [split; [reflexivity|]; split; reflexivity|]. split; [reflexivity|]; split; reflexivity. Qed.
(** Content that is no string ends the process, inside the lock. *)
Example C113_ex_panic :
  match ksched insSortBy (replicate 5 0%nat) (kInit (RankerInit []) [[KWrite (ROAdd "a" INil [IOther 1])]]) with
  | Some s => (kPc <$> kThreads s) = [KCrash] ∧ kWriter (kShared s) = Some 0%nat
  | None => False
  end.
Proof. vm_compute. split; reflexivity. Qed.
(** With the option IDOnly only identifiers and scores are answered. *)
Example C113_ex_ids :
  match ksched insSortBy (replicate 14 0%nat ++ replicate 10 1%nat) (kInit (RankerInit [true]) kxPrograms) with
  | Some s => match kAnswers (kShared s) with
              | [a] => (sdContent <$> (kaResult a).1) = [""; ""] ∧ kaFrom a = 2%nat ∧ kaTo a = 2%nat
              | _ => False
              end
  | None => False
  end.
Proof. vm_compute. split; [reflexivity|]. split; reflexivity. Qed.
