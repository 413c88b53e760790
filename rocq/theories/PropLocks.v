(** Theorems about one shard's indexer under its concurrent workers (ModelLocks.v).
    Goroutine 0 adds, goroutine 1 removes, the others search. *)
From Verif Require Import SpecIndexer SpecLocks ProofIxThms ProofLocks ProofGhost ProofSeqEq ExampleTools.

(** Examples: an indexer is filled by the history [h]; then the workers make their
    calls under the schedule [ts]; [P] holds in the state reached. *)
Definition cells (n : nat) : list string := replicate n "".
Definition workers (h : list op) adds rems looks (s0 : cstate) : Prop :=
  ∃ x, reach stableSort (optsL 8) h x ∧ addCache x = [] ∧ removeCache x = [] ∧ s0 = shardStart x (cells 16) adds rems looks.
Definition locks_check (h : list op) adds rems looks (ts : list nat) (P : cstate → bool) : bool :=
  match st (optsL 8) h with
  | Some x => match addCache x, removeCache x, csched (λ x, x) stableSort ts (shardStart x (cells 16) adds rems looks) with
              | [], [], Some s => P s | _, _, _ => false end
  | None => false end.
Lemma locks_check_ok h adds rems looks ts P : Forall good_op h → locks_check h adds rems looks ts P = true →
  ∃ s0 s, workers h adds rems looks s0 ∧ conc_reach (λ x, x) stableSort s0 s ∧ P s = true.
Proof.
  intros Hg. unfold locks_check. destruct (st (optsL 8) h) as [x|] eqn:E; [|done].
  destruct (addCache x) eqn:E1; [|done]. destruct (removeCache x) eqn:E2; [|done].
  destruct (csched _ _ _ _) as [s|] eqn:E3; [|done]. intros HP.
  exists (shardStart x (cells 16) adds rems looks), s. split; [|split; [by eapply csched_reach|done]].
  exists x. split; [by apply st_reach|done].
Qed.
Definition finishedb (s : cstate) : bool :=
  forallb (λ th, match th with mkThread [] Idle => true | _ => false end) (cThreads s).
Lemma finishedb_ok s : finishedb s = true → finished s.
Proof.
  unfold finishedb. rewrite forallb_forall. intros H th Hth. apply elem_of_list_In in Hth. specialize (H th Hth).
  destruct th as [[|] []]; done.
Qed.
Definition stuckb (s : cstate) : bool :=
  forallb (λ t, match cstep (λ x, x) stableSort t s with None => true | Some _ => false end) (seq 0 (length (cThreads s))).
Lemma stuckb_ok s : stuckb s = true → stuck (λ x, x) stableSort s.
Proof.
  unfold stuckb. rewrite forallb_forall. intros H t. destruct (cThreads s !! t) as [th|] eqn:E.
  - specialize (H t). destruct (cstep _ _ t s); [|done]. exfalso.
    assert (false = true); [|done]. apply H, in_seq. apply lookup_lt_Some in E. lia.
  - unfold cstep. by rewrite E.
Qed.
Definition qx : query := mkQuery ["x"] [] None false None.
Definition docZ : DocIndex := mkDoc "z" (f32_of_Z 1) [kw "x" [0]].
(** The ids found by the searches so far *)
Definition found (s : cstate) : list (list string) :=
  map (λ a, match a.2 with Some (docs, _) => map ixDocId docs | None => [] end) (shLog (cShard s)).
Definition rowx (s : cstate) : list string :=
  match table (shIx (cShard s)) !! "x" with Some r => docIds r | None => [] end.

Definition cycleb (s : cstate) : bool :=
  match pc_of 0 s with Some (AddRemLock _ _ _) => true | _ => false end &&
  match pc_of 1 s with Some (RemTabLock id _ None) => negb (seqb id "0") | _ => false end &&
  bool_decide (shTab (cShard s) = Some 0%nat) && bool_decide (shRem (cShard s) = Some 1%nat).
Lemma cycleb_ok s : cycleb s = true → lock_cycle s.
Proof.
  unfold cycleb, lock_cycle. rewrite !andb_true_iff, !bool_decide_eq_true. intros (((H0 & H1) & H2) & H3).
  split; [|split; [|done]].
  - destruct (pc_of 0 s) as [p|]; [|done]. destruct p; try done. eauto.
  - destruct (pc_of 1 s) as [p|]; [|done]. destruct p as [ | | | | | | | |id f [k|]| | | | | | | | | | | ]; try done.
    exists id, f. split; [done|]. by apply negb_true_iff, seqb_neq in H1.
Qed.
Definition ghostb (s : cstate) (id : string) : bool :=
  bool_decide (docsState (shIx (cShard s)) !! id = Some 1) && bool_decide (id ∉ shArray (cShard s)).
Lemma ghostb_ok s id : ghostb s id = true → ghost s id.
Proof. unfold ghostb, ghost. by rewrite andb_true_iff, !bool_decide_eq_true. Qed.

(** * C41: deadlocks *)
(** "a" is live; it is updated while a removal arrives: nobody can make a step any more. *)
Theorem C41_deadlock_reachable :
  ∃ s0 s, workers [OpAdd (Some docA) true] [(Some docA2, true)] [("b", false)] [[qx]] s0 ∧
    conc_reach (λ x, x) stableSort s0 s ∧ stuck (λ x, x) stableSort s ∧ lock_cycle s ∧
    ∃ q, pc_of 2 s = Some (LookLock q).
Proof.
  destruct (locks_check_ok [OpAdd (Some docA) true] [(Some docA2, true)] [("b", false)] [[qx]] [0; 0; 0; 0; 0; 1; 1; 2]%nat
    (λ s, stuckb s && cycleb s && match pc_of 2 s with Some (LookLock _) => true | _ => false end))
    as (s0 & s & H0 & Hs & H); [by apply good_opsb|by vm_compute|].
  rewrite !andb_true_iff in H. destruct H as ((H1%stuckb_ok & H2%cycleb_ok) & H3).
  exists s0, s. repeat (split; [done|]). destruct (pc_of 2 s) as [p|]; [|done]. destruct p; try done. eauto.
Qed.
Print Assumptions C41_deadlock_reachable.

(** From then on nothing changes for the two workers, and no search gets the lock. *)
Theorem C41_deadlock_is_final log2 sortDocs x stale adds rems looks s s' :
  conc_reach log2 sortDocs (shardStart x stale adds rems looks) s → lock_cycle s → conc_reach log2 sortDocs s s' →
  lock_cycle s' ∧ ∀ t q, pc_of t s' = Some (LookRun q) → pc_of t s = Some (LookRun q).
Proof. exact (C41_forever_lem log2 sortDocs x stale adds rems looks s s'). Qed.
Print Assumptions C41_deadlock_is_final.

(** This is the only way to get stuck. *)
Theorem C41_only_deadlock log2 sortDocs x stale adds rems looks s :
  conc_reach log2 sortDocs (shardStart x stale adds rems looks) s → stuck log2 sortDocs s → ¬ finished s →
  crashed s ∨ lock_cycle s.
Proof. exact (C41_shape_lem log2 sortDocs x stale adds rems looks s). Qed.
Print Assumptions C41_only_deadlock.

(** No removal requests (except bare flushes): no deadlock. *)
Theorem C41_no_removals_no_deadlock log2 sortDocs x stale adds rems looks s :
  (∀ r, r ∈ rems → r.1 = "0") →
  conc_reach log2 sortDocs (shardStart x stale adds rems looks) s → stuck log2 sortDocs s → finished s ∨ crashed s.
Proof. exact (C41_noremove_lem log2 sortDocs x stale adds rems looks s). Qed.
Print Assumptions C41_no_removals_no_deadlock.

(** Every document is added once: no deadlock, whatever is removed. *)
Theorem C41_new_documents_no_deadlock log2 sortDocs x stale adds rems looks s :
  valid_sort sortDocs →
  addCache x = [] → NoDup (added_ids adds) → (∀ id, id ∈ added_ids adds → docsState x !! id ≠ Some 0) →
  conc_reach log2 sortDocs (shardStart x stale adds rems looks) s → stuck log2 sortDocs s → finished s ∨ crashed s.
Proof. intros H. exact (C41_fresh_lem log2 sortDocs H x stale adds rems looks s). Qed.
Print Assumptions C41_new_documents_no_deadlock.

(** Executions are finite. *)
Theorem C41_executions_end log2 sortDocs x stale adds rems looks ts s :
  zlen (addCache x) <= DocCacheSize (initOptions x) →
  csched log2 sortDocs ts (shardStart x stale adds rems looks) = Some s →
  (length ts <= step_bound x adds rems looks)%nat.
Proof. exact (C41_bound_lem log2 sortDocs x stale adds rems looks ts s). Qed.
Print Assumptions C41_executions_end.

(** Two new documents, the live document "c" removed meanwhile, a search: all calls return. *)
Example C41_case : ∃ s0 s, workers [OpAdd (Some docC) true] [(Some docA, false); (Some docB, true)] [("c", true)] [[qx]] s0 ∧
  conc_reach (λ x, x) stableSort s0 s ∧ stuck (λ x, x) stableSort s ∧ finished s ∧
  found s = [["c"; "b"; "a"]] ∧ rowx s = ["a"; "b"].
Proof.
  destruct (locks_check_ok [OpAdd (Some docC) true] [(Some docA, false); (Some docB, true)] [("c", true)] [[qx]]
    [0; 0; 0; 0; 0; 0; 0; 0; 0; 0; 0; 0; 0; 0; 0; 1; 2; 2; 2; 1; 1; 1; 1; 1; 1; 1]%nat
    (λ s, stuckb s && finishedb s && bool_decide (found s = [["c"; "b"; "a"]]) && bool_decide (rowx s = ["a"; "b"])))
    as (s0 & s & H0 & Hs & H); [by apply good_opsb|by vm_compute|].
  rewrite !andb_true_iff, !bool_decide_eq_true in H. destruct H as (((H1%stuckb_ok & H2%finishedb_ok) & H3) & H4). by exists s0, s.
Qed.

(** * C42: a document removed in the middle of its flush *)
(** The add and the removal have both completed; the document is marked as waiting for
    deletion, and it is in no queue and in no row. *)
Theorem C42_ghost_reachable :
  ∃ s0 s, workers [] [(Some docA, true)] [("a", false)] [] s0 ∧ conc_reach (λ x, x) stableSort s0 s ∧
    finished s ∧ ghost s "a" ∧ addCache (shIx (cShard s)) = [] ∧ table (shIx (cShard s)) = ∅.
Proof.
  destruct (locks_check_ok [] [(Some docA, true)] [("a", false)] [] [0; 0; 0; 0; 0; 0; 1; 1; 1; 1; 1; 0; 0; 0; 0; 0]%nat
    (λ s, finishedb s && ghostb s "a" && match addCache (shIx (cShard s)) with [] => true | _ => false end &&
          bool_decide (map_to_list (table (shIx (cShard s))) = [])))
    as (s0 & s & H0 & Hs & H); [by apply good_opsb|by vm_compute|].
  rewrite !andb_true_iff, bool_decide_eq_true in H. destruct H as (((H1%finishedb_ok & H2%ghostb_ok) & H3) & H4).
  exists s0, s. repeat (split; [done|]). split; [by destruct (addCache _)|]. by apply map_to_list_empty_iff.
Qed.
Print Assumptions C42_ghost_reachable.

(** It can never be indexed again, whatever calls follow. *)
Theorem C42_ghost_is_permanent log2 sortDocs x stale adds rems looks id s :
  docsState x !! id = Some 1 → id ∉ removeCache x ++ stale →
  conc_reach log2 sortDocs (shardStart x stale adds rems looks) s →
  ghost s id ∧ HasDoc (shIx (cShard s)) id = false.
Proof.
  intros H1 H2 Hr. destruct (ghost_reach log2 sortDocs _ _ id Hr) as [H3 H4]; [done|].
  split; [done|]. unfold HasDoc. by rewrite H3.
Qed.
Print Assumptions C42_ghost_is_permanent.
Theorem C42_ghosts_stay log2 sortDocs s s' id :
  ghost s id → conc_reach log2 sortDocs s s' → ghost s' id ∧ HasDoc (shIx (cShard s')) id = false.
Proof.
  intros Hg Hr. destruct (ghost_reach log2 sortDocs _ _ id Hr Hg) as [H3 H4].
  split; [done|]. unfold HasDoc. by rewrite H3.
Qed.
Print Assumptions C42_ghosts_stay.

(** * C43: a lost removal *)
(** "b" is removed (forced), meanwhile "a" is updated (forced); both calls have
    returned, and "b" is still in the index, marked, and in no queue: it will stay
    there (C42_ghosts_stay). *)
Theorem C43_removal_lost :
  ∃ s0 s, workers [OpAdd (Some docA) true; OpAdd (Some docB) true] [(Some docA2, true)] [("b", true)] [] s0 ∧
    conc_reach (λ x, x) stableSort s0 s ∧ finished s ∧ rowx s = ["b"] ∧ ghost s "b".
Proof.
  destruct (locks_check_ok [OpAdd (Some docA) true; OpAdd (Some docB) true] [(Some docA2, true)] [("b", true)] []
    [1; 1; 1; 1; 1; 1; 0; 0; 0; 0; 0; 0; 0; 0; 1; 1; 0; 0; 0; 0; 0; 0; 0; 0]%nat
    (λ s, finishedb s && bool_decide (rowx s = ["b"]) && ghostb s "b"))
    as (s0 & s & H0 & Hs & H); [by apply good_opsb|by vm_compute|].
  rewrite !andb_true_iff, bool_decide_eq_true in H. destruct H as ((H1%finishedb_ok & H2) & H3%ghostb_ok). by exists s0, s.
Qed.
Print Assumptions C43_removal_lost.

(** * C58: an update is not atomic *)
(** A search during the update finds neither version. *)
Theorem C58_search_misses_updated_document :
  ∃ s0 s, workers [OpAdd (Some docA) true; OpAdd (Some docB) true] [(Some docA, true)] [] [[qx; qx; qx]] s0 ∧
    conc_reach (λ x, x) stableSort s0 s ∧ finished s ∧ found s = [["b"; "a"]; ["b"]; ["b"; "a"]].
Proof.
  destruct (locks_check_ok [OpAdd (Some docA) true; OpAdd (Some docB) true] [(Some docA, true)] [] [[qx; qx; qx]]
    [2; 2; 2; 0; 0; 0; 0; 0; 0; 0; 0; 2; 2; 2; 0; 0; 0; 0; 0; 0; 0; 0; 2; 2; 2]%nat
    (λ s, finishedb s && bool_decide (found s = [["b"; "a"]; ["b"]; ["b"; "a"]])))
    as (s0 & s & H0 & Hs & H); [by apply good_opsb|by vm_compute|].
  rewrite !andb_true_iff, bool_decide_eq_true in H. destruct H as (H1%finishedb_ok & H2). by exists s0, s.
Qed.
Print Assumptions C58_search_misses_updated_document.
(** If a forced removal of another document runs at the same time, then the updated
    document is missing after both calls have returned; it waits for the next flush. *)
Theorem C58_forced_update_delayed :
  ∃ s0 s, workers [OpAdd (Some docA) true] [(Some docA2, true)] [("b", true)] [] s0 ∧
    conc_reach (λ x, x) stableSort s0 s ∧ finished s ∧ HasDoc (shIx (cShard s)) "a" = false ∧
    List.map DocId (addCache (shIx (cShard s))) = ["a"] ∧ docsState (shIx (cShard s)) !! "a" = None.
Proof.
  destruct (locks_check_ok [OpAdd (Some docA) true] [(Some docA2, true)] [("b", true)] []
    [0; 0; 0; 0; 0; 0; 0; 0; 1; 1; 1; 1; 1; 1; 1; 1; 0; 0; 0; 0; 0]%nat
    (λ s, finishedb s && negb (HasDoc (shIx (cShard s)) "a") && bool_decide (docsState (shIx (cShard s)) !! "a" = None) &&
          bool_decide (List.map DocId (addCache (shIx (cShard s))) = ["a"])))
    as (s0 & s & H0 & Hs & H); [by apply good_opsb|by vm_compute|].
  rewrite !andb_true_iff, !bool_decide_eq_true, negb_true_iff in H.
  destruct H as (((H1%finishedb_ok & H2) & H3) & H4). by exists s0, s.
Qed.
Print Assumptions C58_forced_update_delayed.

(** * C59: a document is found twice *)
Theorem C59_duplicate_results :
  ∃ s0 s, workers [OpAdd (Some docB) true; OpAdd (Some docC) true; OpAdd (Some docZ) true]
      [(Some docZ, true); (Some docC, true)] [("b", false); ("c", true)] [[qx]] s0 ∧
    conc_reach (λ x, x) stableSort s0 s ∧ finished s ∧
    rowx s = ["b"; "c"; "c"; "z"] ∧ found s = [["z"; "c"; "c"]].
Proof.
  destruct (locks_check_ok [OpAdd (Some docB) true; OpAdd (Some docC) true; OpAdd (Some docZ) true]
      [(Some docZ, true); (Some docC, true)] [("b", false); ("c", true)] [[qx]]
      [1; 1; 1; 1; 1; 1; 1; 1; 1; 1; 1; 0; 0; 0; 0; 0; 0; 0; 0; 1; 1; 0; 0; 0; 0; 0; 0; 0; 0; 0; 0; 0; 0; 0; 0; 0; 0; 0; 0; 0; 2; 2; 2]%nat
    (λ s, finishedb s && bool_decide (rowx s = ["b"; "c"; "c"; "z"]) && bool_decide (found s = [["z"; "c"; "c"]])))
    as (s0 & s & H0 & Hs & H); [by apply good_opsb|by vm_compute|].
  rewrite !andb_true_iff, !bool_decide_eq_true in H. destruct H as ((H1%finishedb_ok & H2) & H3). by exists s0, s.
Qed.
Print Assumptions C59_duplicate_results.

(** * C60: without interference, the sequential model *)
(** One worker alone (and any searches): the final state is that of the sequential model. *)
Theorem C60_adder_alone log2 sortDocs x stale adds looks s :
  conc_reach log2 sortDocs (shardStart x stale adds [] looks) s → finished s →
  run sortDocs (add_ops adds) x = Some (shIx (cShard s)).
Proof. exact (C60_adds_lem log2 sortDocs x stale adds looks s). Qed.
Print Assumptions C60_adder_alone.
Theorem C60_remover_alone log2 sortDocs x stale rems looks s :
  conc_reach log2 sortDocs (shardStart x stale [] rems looks) s → finished s →
  run sortDocs (rem_ops rems) x = Some (shIx (cShard s)).
Proof. exact (C60_rems_lem log2 sortDocs x stale rems looks s). Qed.
Print Assumptions C60_remover_alone.
(** Both workers, if the documents added are new, pairwise different, and the other
    worker has only flush requests. *)
Theorem C60_new_documents log2 sortDocs x stale adds rems looks s : valid_sort sortDocs →
  addCache x = [] → removeCache x = [] →
  NoDup (added_ids adds) → (∀ id, id ∈ added_ids adds → docsState x !! id ≠ Some 0) →
  (∀ r, r ∈ rems → r.1 = "0") →
  conc_reach log2 sortDocs (shardStart x stale adds rems looks) s → finished s →
  run sortDocs (add_ops adds) x = Some (shIx (cShard s)).
Proof. exact (C60_fresh_lem log2 sortDocs x stale adds rems looks s). Qed.
Print Assumptions C60_new_documents.
Example C60_case : ∃ s0 s, workers [OpAdd (Some docC) true] [(Some docA, false); (Some docB, true)] [("0", true)] [[qx]] s0 ∧
  conc_reach (λ x, x) stableSort s0 s ∧ finished s ∧ NoDup (added_ids [(Some docA, false); (Some docB, true)]) ∧
  rowx s = ["a"; "b"; "c"].
Proof.
  destruct (locks_check_ok [OpAdd (Some docC) true] [(Some docA, false); (Some docB, true)] [("0", true)] [[qx]]
    [0; 1; 0; 2; 0; 0; 1; 0; 2; 0; 1; 2; 0; 0; 0; 0; 0; 0; 0; 0; 0]%nat
    (λ s, finishedb s && bool_decide (rowx s = ["a"; "b"; "c"])))
    as (s0 & s & H0 & Hs & H); [by apply good_opsb|by vm_compute|].
  rewrite !andb_true_iff, !bool_decide_eq_true in H. destruct H as (H2%finishedb_ok & H4).
  exists s0, s. repeat (split; [done|]). split; [|done]. apply (bool_decide_unpack _). by vm_compute.
Qed.
