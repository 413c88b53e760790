(** C65: HasDoc copies the indexers under the workers' feet. *)
From Verif Require Import ModelHasDoc SpecHasDoc ProofHasDoc.

(** If an iteration of HasDoc has to reallocate engine.indexers while some worker is
    inside shard s, then no worker ever gets into this shard again, in any continuation,
    and no later write, including that of the worker inside, is ever seen. *)
Theorem C65_hasdoc_kills_shard : ∀ (grow : nat → nat) (numShards extra : nat) ls st st' s,
  hdRun grow numShards ls (hdInit numShards extra) = Some st → (s < numShards)%nat →
  workerIn st s → full st → hdStep grow numShards HAppend st = Some st' →
  ¬ reachableAgain grow numShards st' s ∧
  ∀ ls' st'', hdRun grow numShards ls' st' = Some st'' → seen st'' s = seen st s.
Proof. exact deadlock_lem. Qed.
Print Assumptions C65_hasdoc_kills_shard.

(** Such a moment exists for every number of shards, every shard, every initial spare
    capacity and every growth policy of append. *)
Theorem C65_hasdoc_is_safe_refuted : ∀ (grow : nat → nat) (numShards extra s : nat), (s < numShards)%nat →
  ∃ ls st, hdRun grow numShards ls (hdInit numShards extra) = Some st ∧
    workerIn st s ∧ full st ∧ is_Some (hdStep grow numShards HAppend st).
Proof. exact witness_lem. Qed.
Print Assumptions C65_hasdoc_is_safe_refuted.

(** By itself an append changes no value the engine sees, takes no free shard away, and
    makes the slice one element longer (it never shrinks again). *)
Theorem C65_append_by_itself : ∀ (grow : nat → nat) (numShards extra : nat) ls st st',
  hdRun grow numShards ls (hdInit numShards extra) = Some st →
  hdStep grow numShards HAppend st = Some st' →
  (∀ s, (s < numShards)%nat → seen st' s = seen st s) ∧ slen st' = S (slen st) ∧
  (∀ w s, is_Some (hdStep grow numShards (HEnter w s) st) → is_Some (hdStep grow numShards (HEnter w s) st')).
Proof. exact quiet_lem. Qed.
Print Assumptions C65_append_by_itself.

(** HasDoc is harmless as long as the reallocating appends happen while no worker is
    inside any indexer: then a shard is closed only to those waiting for a worker that
    is really inside. *)
Theorem C65_calm_schedules_are_safe : ∀ (grow : nat → nat) (numShards extra : nat) ls st,
  hdRun grow numShards ls (hdInit numShards extra) = Some st →
  calm grow numShards ls (hdInit numShards extra) →
  ∀ w s, inside st !! w = None → (s < numShards)%nat → ¬ workerIn st s →
    is_Some (hdStep grow numShards (HEnter w s) st).
Proof. exact calm_lem. Qed.
Print Assumptions C65_calm_schedules_are_safe.

(** Two shards, no spare capacity (append doubles): worker 7 adds to shard 1 while
    HasDoc runs its first iteration.  Its write is lost and nobody gets in again. *)
Example ex_kill :
  let st := hdRun (λ c, 2 * c)%nat 2 [HEnter 3 1; HExit 3; HEnter 7 1; HAppend; HExit 7] (hdInit 2 0) in
  (st ≫= λ s, seen s 1) = Some 1 ∧ (st ≫= λ s, Some (size (inside s))) = Some 0%nat ∧
  (st ≫= hdStep (λ c, 2 * c)%nat 2 (HEnter 3 1)) = None ∧
  (st ≫= λ s, val <$> cellAt s 0 1) = Some 2.
Proof. by vm_compute. Qed.

Example ex_fine :
  let st := hdRun (λ c, 2 * c)%nat 2 [HEnter 7 1; HExit 7; HAppend; HEnter 7 1; HAppend; HExit 7] (hdInit 2 0) in
  (st ≫= λ s, seen s 1) = Some 2 ∧ is_Some (st ≫= hdStep (λ c, 2 * c)%nat 2 (HEnter 3 1)).
Proof. split; [by vm_compute|]. vm_compute. by eexists. Qed.
