(** C111: data races of the indexers. *)
From Verif Require Import SpecIndexer SpecRace ProofRace ProofIxThms ProofLocks ProofGhost ProofSeqEq ProofFine ExampleTools PropPipe PropLocks PropFine.

(** The table of accesses is right: a step changes only what it writes to ... *)
Theorem C111_steps_write_what_they_touch log2 sortDocs t p s p' s' l :
  tstep log2 sortDocs t p s = Some (p', s') → touches p s l ≠ Some Wr → same_at l s s'.
Proof. exact (step_writes log2 sortDocs t p s p' s' l). Qed.
Print Assumptions C111_steps_write_what_they_touch.
(** ... and what it does depends only on what it reads or writes. *)
Theorem C111_steps_read_what_they_touch log2 sortDocs t p s1 s2 : alike p s1 s2 →
  same_outcome p s1 s2 (tstep log2 sortDocs t p s1) (tstep log2 sortDocs t p s2).
Proof. exact (step_reads log2 sortDocs t p s1 s2). Qed.
Print Assumptions C111_steps_read_what_they_touch.

(** The workers of a shard: only the two writers can race, and only for the cells of the
    queue of removals. *)
Theorem C111_races_only_for_removal_cells log2 sortDocs x stale adds rems looks c t u l :
  conc_reach log2 sortDocs (shardStart x stale adds rems looks) c → ¬ crashed c → racing c t u l →
  (∃ i, l = RemCell i) ∧ ((t = 0 ∧ u = 1) ∨ (t = 1 ∧ u = 0))%nat.
Proof. exact (race_only_cells log2 sortDocs x stale adds rems looks c t u l). Qed.
Print Assumptions C111_races_only_for_removal_cells.
(** So no goroutine sees any other variable change while it works with it. *)
Theorem C111_others_do_not_interfere log2 sortDocs x stale adds rems looks c t u p q q' s' l :
  conc_reach log2 sortDocs (shardStart x stale adds rems looks) c → ¬ crashed c → t ≠ u → pc_of t c = Some p → pc_of u c = Some q →
  tstep log2 sortDocs u q (cShard c) = Some (q', s') → touches p (cShard c) l ≠ None → (∀ i, l ≠ RemCell i) → same_at l (cShard c) s'.
Proof. exact (reach_undisturbed log2 sortDocs x stale adds rems looks c t u p q q' s' l). Qed.
Print Assumptions C111_others_do_not_interfere.
(** The same in the engine, for all programs of its clients ... *)
Theorem C111_races_in_the_engine murmur n only reqsFirst cap log2 sortDocs nseg progs x0 stale looks s i sh t u l :
  fine_reach murmur n only reqsFirst cap log2 sortDocs nseg progs x0 stale looks s → fShards s !! i = Some sh →
  ¬ crashed (fsC sh) → racing (fsC sh) t u l →
  (∃ j, l = RemCell j) ∧ ((t = 0 ∧ u = 1) ∨ (t = 1 ∧ u = 0))%nat.
Proof. exact (fine_race_cells murmur n only reqsFirst cap log2 sortDocs nseg progs x0 stale looks s i sh t u l). Qed.
Print Assumptions C111_races_in_the_engine.
(** ... and with additions and removals kept apart there is no race at all. *)
Theorem C111_no_race_when_kept_apart murmur n only reqsFirst cap log2 sortDocs nseg progs x0 stale looks s i sh t u l :
  1 <= n < 2^32 → kept_apart progs →
  fine_reach murmur n only reqsFirst cap log2 sortDocs nseg progs x0 stale looks s → fShards s !! i = Some sh →
  ¬ crashed (fsC sh) → ¬ racing (fsC sh) t u l.
Proof. intros Hn Hap. exact (fine_no_race murmur n only reqsFirst cap log2 sortDocs nseg progs x0 stale looks Hn Hap s i sh t u l). Qed.
Print Assumptions C111_no_race_when_kept_apart.

(** * Races there are *)
Definition calmb (c : cstate) : bool := forallb (λ th, match tPc th with Crash => false | _ => true end) (cThreads c).
Lemma calmb_ok c : calmb c = true → ¬ crashed c.
Proof.
  unfold calmb. rewrite forallb_forall. intros H (th & Hth & Hc). apply elem_of_list_In in Hth. specialize (H th Hth). by rewrite Hc in H.
Qed.
Definition racingb (c : cstate) (t u : nat) (l : place) : bool :=
  match pc_of t c, pc_of u c with
  | Some p, Some q =>
    match touches p (cShard c) l, touches q (cShard c) l with
    | Some Wr, Some _ => negb (Nat.eqb t u) | Some Rd, Some Wr => negb (Nat.eqb t u) | _, _ => false end
  | _, _ => false
  end.
Lemma racingb_ok c t u l : racingb c t u l = true → racing c t u l.
Proof.
  unfold racingb, racing. destruct (pc_of t c) as [p|]; [|done]. destruct (pc_of u c) as [q|]; [|done].
  destruct (touches p (cShard c) l) as [[]|] eqn:E1, (touches q (cShard c) l) as [[]|] eqn:E2; try done;
    intros H%negb_true_iff%Nat.eqb_neq; (split; [done|]); eexists p, q, _, _; split_and!; try done; unfold conflict; auto.
Qed.
Definition pushingb (c : cstate) : bool := match pc_of 0 c with Some (AddRemPush true 0 0) => true | _ => false end.
Lemma pushingb_ok c : pushingb c = true → pc_of 0 c = Some (AddRemPush true 0 0).
Proof. unfold pushingb. destruct (pc_of 0 c) as [[]|]; try done. by destruct force, i, position. Qed.
Definition sortingb (c : cstate) : bool := match pc_of 1 c with Some (RemSort 1 None) => true | _ => false end.
Lemma sortingb_ok c : sortingb c = true → pc_of 1 c = Some (RemSort 1 None).
Proof. unfold sortingb. destruct (pc_of 1 c) as [[]|]; try done. by destruct n as [|[]], k. Qed.

(** The removal worker sorts its batch (line 289) while the adding worker, holding
    removeCacheLock, queues the document that it replaces (lines 147-149): the same cell. *)
Theorem C111_removal_cells_are_raced_for :
  ∃ s0 s, workers [OpAdd (Some docA) true; OpAdd (Some docB) true] [(Some docA2, true)] [("b", true)] [] s0 ∧
    conc_reach (λ x, x) stableSort s0 s ∧ ¬ crashed s ∧ racing s 0 1 (RemCell 0) ∧
    pc_of 0 s = Some (AddRemPush true 0 0) ∧ pc_of 1 s = Some (RemSort 1 None).
Proof.
  destruct (locks_check_ok [OpAdd (Some docA) true; OpAdd (Some docB) true] [(Some docA2, true)] [("b", true)] []
    [1; 1; 1; 1; 1; 0; 0; 0; 0; 0; 0]%nat
    (λ s, calmb s && racingb s 0 1 (RemCell 0) && pushingb s && sortingb s))
    as (s0 & s & H0 & Hs & H); [by apply good_opsb|by vm_compute|].
  rewrite !andb_true_iff in H. destruct H as [[[Hc%calmb_ok H1%racingb_ok] H2%pushingb_ok] H3%sortingb_ok]. by exists s0, s.
Qed.
Print Assumptions C111_removal_cells_are_raced_for.

(** HasDoc takes no lock: by a goroutine outside the shard's own it is a read of docsState while
    docsState is written.  (In Go a fatal error, `concurrent map read and map write`.) *)
Theorem C111_has_doc_races :
  ∃ s0 s docs, workers [OpAdd (Some docA) true] [(Some docB, true)] [] [] s0 ∧
    conc_reach (λ x, x) stableSort s0 s ∧ ¬ crashed s ∧ hasdoc_races s ∧ pc_of 0 s = Some (AddDocsRun docs).
Proof.
  destruct (locks_check_ok [OpAdd (Some docA) true] [(Some docB, true)] [] []
    [0; 0; 0; 0; 0; 0; 0; 0; 0; 0]%nat
    (λ s, calmb s && match pc_of 0 s with Some (AddDocsRun docs) => true | _ => false end))
    as (s0 & s & H0 & Hs & H); [by apply good_opsb|by vm_compute|].
  rewrite !andb_true_iff in H. destruct H as [Hc%calmb_ok H]. destruct (pc_of 0 s) as [p|] eqn:Ep; [|done]. destruct p; try done.
  exists s0, s, docs. split_and!; try done. by exists 0%nat, (AddDocsRun docs).
Qed.
Print Assumptions C111_has_doc_races.

(** Two goroutines in AddDocToCache of one indexer (the engine has one for each shard): while the
    first one sorts its batch, which is a part of the array addCache, the second writes to the cells of the array. *)
Definition twoAdders (x : Indexer) : cstate :=
  mkCState [mkThread [TAdd (Some docA) true] Idle; mkThread [TAdd (Some docB) true] Idle] (mkShard x (cells 16) None None None [] []).
Theorem C111_two_adders_race : ∃ x s, Init (optsL 8) = Some x ∧ conc_reach (λ x, x) stableSort (twoAdders x) s ∧ ¬ crashed s ∧ racing s 0 1 AddCells.
Proof.
  assert (E : match Init (optsL 8) with
    | Some x => match csched (λ x, x) stableSort [0; 0; 0; 0; 0; 0; 0; 0; 0; 1; 1]%nat (twoAdders x) with Some s => calmb s && racingb s 0 1 AddCells | None => false end
    | None => false end = true) by (vm_compute; reflexivity).
  destruct (Init (optsL 8)) as [x|]; [|done]. destruct (csched _ _ _ (twoAdders x)) as [s|] eqn:Es; [|done].
  rewrite andb_true_iff in E. destruct E as [H1%calmb_ok H2%racingb_ok]. exists x, s. split; [done|]. split; [by eapply csched_reach|done].
Qed.
Print Assumptions C111_two_adders_race.

(** * Cases *)
Example C111_case_step : tstep (λ x, x) stableSort 1 (RemTake true None) (mkShard (setRemoveCache ["b"] emptyIx) (cells 15) None (Some 1%nat) None [] []) =
    Some (RemSort 1 None, mkShard emptyIx ("b" :: cells 15) None None None [] []) ∧
  touches (RemTake true None) (mkShard (setRemoveCache ["b"] emptyIx) (cells 15) None (Some 1%nat) None [] []) (RemCell 0) ≠ Some Wr.
Proof. split; [vm_compute; reflexivity|done]. Qed.
Example C111_case_alike : alike (RemTake true None) (mkShard (setRemoveCache ["b"] emptyIx) (cells 15) None (Some 1%nat) None [] [])
  (mkShard (setRemoveCache ["c"] emptyIx) (cells 15) None (Some 1%nat) None [] []).
Proof. split; [done|]. intros [| | |i|] H; try done; by destruct H. Qed.
(** a search waits while documents are added: nobody races; in the engine, C104_case_during *)
Example C111_case_apart : kept_apart [program phasesF] ∧ ∃ s sh, reach1 (program phasesF) [[qx]] s ∧ fShards s !! 0%nat = Some sh ∧ fsAdding sh = Some 2%nat.
Proof.
  destruct phasesF_ok as [H1 H2]. split; [right; by exists phasesF|]. destruct C104_case_during as (s & sh & Hr & Hs & Ha & _). by exists s, sh.
Qed.
