(** Vocabulary for the pipeline with lock-level indexers. *)
From Verif Require Export ModelFine SpecPipe SpecLocks.

Definition fine_reach murmur n only reqsFirst cap log2 sortDocs nseg programs x stale looks (s : fine) : Prop :=
  rtc (fineStep murmur n only reqsFirst cap log2 sortDocs) (fineInit n nseg programs x stale looks) s.

(** The indexer of a shard as it is now *)
Definition index_of (sh : fshard) : Indexer := shIx (cShard (fsC sh)).
(** No call of the two workers is under way in the shard. *)
Definition at_ease (sh : fshard) : Prop :=
  fsAdding sh = None ∧ fsRemoving sh = None ∧
  cThreads (fsC sh) !! 0%nat = Some (mkThread [] Idle) ∧ cThreads (fsC sh) !! 1%nat = Some (mkThread [] Idle).

(** Programs in which additions and removals are kept apart: nobody calls RemoveDoc, or
    there is one client and a Flush lies between any Index and any RemoveDoc. *)
Definition is_removal (c : ecall) : bool := match c with ERemove _ _ => true | _ => false end.
Definition apart (ph : list ecall) : Prop :=
  (∀ c, c ∈ ph → is_removal c = true) ∨ (∀ c, c ∈ ph → is_removal c = false).
Definition kept_apart (programs : list (list ecall)) : Prop :=
  (∀ cs c, cs ∈ programs → c ∈ cs → is_removal c = false) ∨
  ∃ phases, programs = [program phases] ∧ Forall good_phase phases ∧ Forall apart phases.

(** Process [k] of the pipeline is about to make, or is making, the call [o] on the indexer
    of shard [i]. *)
Definition calling (s : pstate) (k : nat) (i : Z) (o : op) : Prop :=
  ∃ p l, sProcs s !! k = Some p ∧ pActs p = ADo (EvIx i o) :: l.

(** A goroutine that searches has panicked. *)
Definition search_crashed (s : fine) : Prop :=
  ∃ i sh t th, fShards s !! i = Some sh ∧ (2 <= t)%nat ∧ cThreads (fsC sh) !! t = Some th ∧ tPc th = Crash.

(** A goroutine gets a turn; if it cannot move, nothing happens. *)
Definition fine_turn (step : fmove → fine → option fine) (m : fmove) (s : fine) : fine :=
  match step m s with Some s' => s' | None => s end.
Fixpoint fine_after (step : fmove → fine → option fine) (ms : nat → fmove) (s : fine) (j : nat) : fine :=
  match j with
  | O => s
  | S j' => fine_turn step (ms j') (fine_after step ms s j')
  end.
(** Every goroutine gets turns again and again: the [N] of the pipeline, and those that are
    inside the indexers of the [n] shards. *)
Definition fair_moves (N : nat) (n : Z) (looks : nat → list (list query)) (ms : nat → fmove) : Prop :=
  (∀ k, (k < N)%nat → ∀ j, ∃ j', (j <= j')%nat ∧ ms j' = MProc k) ∧
  (∀ i t, (i < Z.to_nat n)%nat → (t < 2 + length (looks i))%nat → ∀ j, ∃ j', (j <= j')%nat ∧ ms j' = MLock i t).
(** Nobody has panicked. *)
Definition unharmed (s : fine) : Prop := ∀ sh, sh ∈ fShards s → ¬ crashed (fsC sh).
