(** C106: searches while calls of the workers are under way, at the level of the locks. *)
From Verif Require Import ModelPipe SpecIndexer SpecRank SpecRoute SpecPipe SpecEnd SpecDuring SpecFine SpecFineSearch ProofIxThms ProofLocks ProofFine ProofFineSim ProofFineThms
  ProofFineCycle ProofFineLive ProofFineSearch ProofNumbers ExampleTools PropPipe PropLocks PropFine.

(** At every moment the index of a shard is the one that the calls made so far give, or a
    call is under way and has done its work, or it has hidden some documents that it
    replaces or removes. *)
Theorem C106_index_at_any_moment murmur n only reqsFirst cap log2 sortDocs nseg progs io x0 stale looks s i sh :
  1 <= n < 2^32 → kept_apart progs → valid_sort sortDocs → Init io = Some x0 → Forall good_call (mjoin progs) →
  fine_reach murmur n only reqsFirst cap log2 sortDocs nseg progs x0 stale looks s → fShards s !! i = Some sh →
  ∃ x, run sortDocs (ixCalls (Z.of_nat i) (sLog (fPipe s))) x0 = Some x ∧
    (x = index_of sh ∨ ∃ k o, calling (fPipe s) k (Z.of_nat i) o ∧ (step sortDocs x o = Some (index_of sh) ∨ between x o (index_of sh))).
Proof.
  intros Hn Hap Hv HI HG. exact (index_between murmur n only reqsFirst cap log2 sortDocs Hn nseg progs Hap io x0 stale looks Hv HI HG s i sh).
Qed.
Print Assumptions C106_index_at_any_moment.
(** A search made at that moment answers exactly from what the index shows then. *)
Theorem C106_search_at_any_moment murmur n only reqsFirst cap log2 sortDocs nseg progs io x0 stale looks s i sh q :
  1 <= n < 2^32 → kept_apart progs → valid_sort sortDocs → Init io = Some x0 → Forall good_call (mjoin progs) →
  fine_reach murmur n only reqsFirst cap log2 sortDocs nseg progs x0 stale looks s → fShards s !! i = Some sh → plain_logic (qLogic q) →
  ∃ M, shows (index_of sh) M ∧
    answers_on log2 (index_of sh) M q (Lookup log2 (index_of sh) (qTokens q) (qLabels q) (qFilter q) (qCountOnly q) (qLogic q)).
Proof.
  intros Hn Hap Hv HI HG. exact (search_answers murmur n only reqsFirst cap log2 sortDocs Hn nseg progs Hap io x0 stale looks Hv HI HG s i sh q).
Qed.
Print Assumptions C106_search_at_any_moment.
(** Every answer that was given is the one of a moment. *)
Theorem C106_answers_are_of_a_moment murmur n only reqsFirst cap log2 sortDocs nseg progs x0 stale looks s i sh q r :
  fine_reach murmur n only reqsFirst cap log2 sortDocs nseg progs x0 stale looks s → fShards s !! i = Some sh →
  (q, r) ∈ shLog (cShard (fsC sh)) →
  ∃ s1 sh1, fine_reach murmur n only reqsFirst cap log2 sortDocs nseg progs x0 stale looks s1 ∧
    rtc (fineStep murmur n only reqsFirst cap log2 sortDocs) s1 s ∧ fShards s1 !! i = Some sh1 ∧
    r = Lookup log2 (index_of sh1) (qTokens q) (qLabels q) (qFilter q) (qCountOnly q) (qLogic q).
Proof. exact (answers_reach murmur n only reqsFirst cap log2 sortDocs nseg progs x0 stale looks s i sh q r). Qed.
Print Assumptions C106_answers_are_of_a_moment.
(** No such search panics. *)
Theorem C106_no_search_panics murmur n only reqsFirst cap log2 sortDocs nseg progs io x0 stale looks s :
  1 <= n < 2^32 → kept_apart progs → valid_sort sortDocs → Init io = Some x0 → Forall good_call (mjoin progs) →
  (∀ i q, (i < Z.to_nat n)%nat → q ∈ mjoin (looks i) → safe_query io q) →
  fine_reach murmur n only reqsFirst cap log2 sortDocs nseg progs x0 stale looks s → ¬ search_crashed s.
Proof.
  intros Hn Hap Hv HI HG. exact (safe_reach murmur n only reqsFirst cap log2 sortDocs Hn nseg progs Hap io x0 stale looks Hv HI HG s).
Qed.
Print Assumptions C106_no_search_panics.
(** A document that one call concerns is never missed again once it has been seen. *)
Theorem C106_nothing_disappears murmur n only reqsFirst cap log2 sortDocs nseg progs io x0 stale looks s s' i sh sh' d f ct a fo :
  1 <= n < 2^32 → kept_apart progs → valid_sort sortDocs → Init io = Some x0 → Forall good_call (mjoin progs) →
  fine_reach murmur n only reqsFirst cap log2 sortDocs nseg progs x0 stale looks s →
  rtc (fineStep murmur n only reqsFirst cap log2 sortDocs) s s' → fShards s !! i = Some sh → fShards s' !! i = Some sh' →
  only_call (mjoin progs) (DocId d) (EIndex d f ct a fo) →
  HasDoc (index_of sh) (DocId d) = true → HasDoc (index_of sh') (DocId d) = true.
Proof.
  intros Hn Hap Hv HI HG.
  exact (only_stays murmur n only reqsFirst cap log2 sortDocs Hn nseg progs Hap io x0 stale looks Hv HI HG s s' i sh sh' d f ct a fo).
Qed.
Print Assumptions C106_nothing_disappears.
(** C105 without assumptions about panics: with phases kept apart and such searches,
    everything returns. *)
Theorem C106_everything_returns murmur n only reqsFirst cap log2 sortDocs nseg phases x0 stale looks io s ms :
  1 <= n < 2^32 → (∀ ch, (1 <= cap ch)%nat) → (1 <= nseg)%nat → Forall good_phase phases → Forall apart phases →
  valid_sort sortDocs → Init io = Some x0 → (∀ i q, (i < Z.to_nat n)%nat → q ∈ mjoin (looks i) → safe_query io q) →
  fine_reach murmur n only reqsFirst cap log2 sortDocs nseg [program phases] x0 stale looks s →
  fair_moves (1 + nseg + 4 * Z.to_nat n) n looks ms →
  ∃ j, quiescent (fPipe (fine_after (fineDo murmur n only reqsFirst cap log2 sortDocs) ms s j)) ∧
    ∀ sh, sh ∈ fShards (fine_after (fineDo murmur n only reqsFirst cap log2 sortDocs) ms s j) → at_ease sh ∧ finished (fsC sh).
Proof.
  intros Hn Hcap Hseg HG HA Hs HI Hq Hr Hf.
  apply (C105_phases_return murmur n only reqsFirst cap log2 sortDocs nseg phases x0 stale looks io s ms); try done.
  intros j. apply (safe_reach murmur n only reqsFirst cap log2 sortDocs Hn nseg [program phases] (phases_apart phases HG HA) io x0 stale looks Hs HI (program_good phases HG)); [done|].
  by apply ST_reach.
Qed.
Print Assumptions C106_everything_returns.

(** ** Cases *)
Lemma safe_qx : safe_query (optsL 8) qx.
Proof. split; [by left|done]. Qed.
Lemma looksF_safe i q : (i < Z.to_nat 1)%nat → q ∈ mjoin looksF → safe_query (optsL 8) q.
Proof.
  intros _ Hq. assert (q = qx) as ->; [|exact safe_qx].
  unfold looksF in Hq. cbn [mjoin list_join] in Hq. rewrite app_nil_r in Hq. by apply elem_of_replicate in Hq as [-> _].
Qed.
(** In the middle of the update of "a", when the old version is hidden and the new one
    is not there yet; a search for "x" that is made there finds nothing. *)
Definition hidden (s : fine) : bool :=
  match fsAdding (sh1 s), docsState (index_of (sh1 s)) !! "a" with Some _, Some 1 => true | _, _ => false end.
Definition hiddenF : fine := runTo hidden (rounds 150 (everybody 1)) (start1 (program phasesF) looksF).
Example C106_case : kept_apart [program phasesF] ∧ Forall good_call (mjoin [program phasesF]) ∧
  (∀ i q, (i < Z.to_nat 1)%nat → q ∈ mjoin looksF → safe_query (optsL 8) q) ∧
  reach1 (program phasesF) looksF hiddenF ∧ fShards hiddenF = [sh1 hiddenF] ∧ fsAdding (sh1 hiddenF) = Some 2%nat ∧
  HasDoc (index_of (sh1 hiddenF)) "a" = false ∧ rowx1 hiddenF = ["a"] ∧
  (default emptyIx (run stableSort (ixCalls 0 (sLog (fPipe hiddenF))) emptyIx)) ≠ index_of (sh1 hiddenF) ∧
  HasDoc (default emptyIx (run stableSort (ixCalls 0 (sLog (fPipe hiddenF))) emptyIx)) "a" = true.
Proof.
  destruct phasesF_ok as [H1 H2]. split; [exact (phases_apart phasesF H1 H2)|]. split; [exact (program_good phasesF H1)|].
  split; [exact looksF_safe|]. split; [apply runTo_reach|]. split; [apply sh1_ok; vm_compute; reflexivity|].
  split; [vm_compute; reflexivity|]. split; [vm_compute; reflexivity|]. split; [vm_compute; reflexivity|].
  split; [|vm_compute; reflexivity]. intros E. apply (f_equal (λ x, HasDoc x "a")) in E. revert E.
  assert (HasDoc (index_of (sh1 hiddenF)) "a" = false) as -> by (vm_compute; reflexivity).
  assert (HasDoc (default emptyIx (run stableSort (ixCalls 0 (sLog (fPipe hiddenF))) emptyIx)) "a" = true) as -> by (vm_compute; reflexivity). done.
Qed.
(** "a" is indexed once, "b" is indexed and then removed; while "b" is being removed, "a"
    is there. *)
Definition phasesG : list (list ecall) := [[idxA false; idxB true]; [ERemove "b" true]].
Lemma phasesG_ok : Forall good_phase phasesG ∧ Forall apart phasesG.
Proof.
  destruct phasesF_ok as [H1 H2]. split.
  - exact (Forall_take _ 2 phasesF H1).
  - exact (Forall_take _ 2 phasesF H2).
Qed.
Definition seenG : fine := runTo (λ s, HasDoc (index_of (sh1 s)) "a") (rounds 150 (everybody 1)) (start1 (program phasesG) looksF).
Definition laterG : fine := runTo (λ s, match fsRemoving (sh1 s) with Some _ => negb (HasDoc (index_of (sh1 s)) "b") | _ => false end) (rounds 150 (everybody 1)) seenG.
Example C106_case_stays : only_call (mjoin [program phasesG]) "a" (idxA false) ∧ Forall good_phase phasesG ∧ Forall apart phasesG ∧
  reach1 (program phasesG) looksF seenG ∧ rtc (fineStep hash0 1 false true cap1 (λ x, x) stableSort) seenG laterG ∧
  fShards seenG = [sh1 seenG] ∧ fShards laterG = [sh1 laterG] ∧ fsRemoving (sh1 laterG) = Some 3%nat ∧
  HasDoc (index_of (sh1 seenG)) "a" = true ∧ HasDoc (index_of (sh1 seenG)) "b" = true ∧
  HasDoc (index_of (sh1 laterG)) "a" = true ∧ HasDoc (index_of (sh1 laterG)) "b" = false.
Proof.
  destruct phasesG_ok as [H1 H2]. split; [vm_compute; reflexivity|]. split; [exact H1|]. split; [exact H2|].
  split; [apply runTo_reach|]. split; [apply runTo_reach|]. split; [apply sh1_ok; vm_compute; reflexivity|]. split; [apply sh1_ok; vm_compute; reflexivity|].
  repeat (split; [vm_compute; reflexivity|]). vm_compute. reflexivity.
Qed.
(** Without the separation of additions and removals a search can see otherwise: see C104. *)
