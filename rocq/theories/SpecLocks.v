(** Vocabulary for the lock-level theorems. *)
From Verif Require Export ModelLocks.

(** Reachable from the start [s0], under any scheduling *)
Definition conc_reach log2 sortDocs : cstate → cstate → Prop := rtc (conc log2 sortDocs).

(** No goroutine can make a step. *)
Definition stuck log2 sortDocs (s : cstate) : Prop := ∀ t, cstep log2 sortDocs t s = None.
(** All calls of all goroutines have returned. *)
Definition finished (s : cstate) : Prop := ∀ th, th ∈ cThreads s → tPc th = Idle ∧ tCalls th = [].
(** Some goroutine has panicked. *)
Definition crashed (s : cstate) : Prop := ∃ th, th ∈ cThreads s ∧ tPc th = Crash.

Definition pc_of (t : nat) (s : cstate) : option pc := tPc <$> cThreads s !! t.

(** The two opposite lock orders have met: the adder (goroutine 0) holds the table
    lock and waits for the remove-cache lock, the remover (goroutine 1) holds the
    remove-cache lock and waits for the table lock. *)
Definition lock_cycle (s : cstate) : Prop :=
  (∃ f i pos, pc_of 0 s = Some (AddRemLock f i pos)) ∧
  (∃ id f, pc_of 1 s = Some (RemTabLock id f None) ∧ id ≠ "0") ∧
  shTab (cShard s) = Some 0%nat ∧ shRem (cShard s) = Some 1%nat.

(** The ids of the documents added *)
Definition added_ids (adds : list (option DocIndex * bool)) : list string :=
  omap (λ a, DocId <$> a.1) adds.

(** Marked as waiting for deletion, but nowhere in the array of documents to delete *)
Definition ghost (s : cstate) (id : string) : Prop :=
  docsState (shIx (cShard s)) !! id = Some 1 ∧ id ∉ shArray (cShard s).

(** The calls of a worker, as a history of the sequential model *)
Definition add_ops (adds : list (option DocIndex * bool)) : list op := (λ a, OpAdd a.1 a.2) <$> adds.
Definition rem_ops (rems : list (string * bool)) : list op := (λ r, OpRemove r.1 r.2) <$> rems.

(** A bound for the number of steps: every call takes at most 3 steps per cell of the
    add cache and 21 more. *)
Definition step_bound (x : Indexer) (adds : list (option DocIndex * bool)) (rems : list (string * bool))
    (looks : list (list query)) : nat :=
  (length adds + length rems + sum_list (length <$> looks)) * (3 * Z.to_nat (DocCacheSize (initOptions x)) + 21).
