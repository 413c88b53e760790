(** Vocabulary for searches that run beside writes, when the moments they see may lie in
    the middle of a call on an indexer. *)
From Verif Require Export SpecFine SpecFineSearch SpecDuring SpecDeadline.
From Verif Require Import ModelEngine SpecEngine SpecRank.

(** The shards [w] as a search finds them while the engine is in the state [s]: the indexers
    as they are now, between two steps of the lock level, and the rankers after the calls
    they have served. *)
Definition shards_now (only : bool) (n : Z) (s : fine) (w : list Shard) : Prop :=
  zlen w = n ∧ ∀ i sh, w !! i = Some sh →
    (∃ fsh, fShards s !! i = Some fsh ∧ ModelEngine.shIx sh = index_of fsh) ∧
    rrun (rkCalls (Z.of_nat i) (sLog (fPipe s))) (RankerInit [only]) = Some (shRk sh).

(** The worlds [ws] of the searches are those of states [ss] of one run of the engine. *)
Definition written_fine (step : fine → fine → Prop) (init : fine) (only : bool) (n : Z) (ws : list (list Shard)) (ss : list fine) : Prop :=
  (∀ s, ss !! 0%nat = Some s → rtc step init s) ∧
  (∀ t s s', ss !! t = Some s → ss !! S t = Some s' → rtc step s s') ∧
  Forall2 (shards_now only n) ss ws.
