(** Specification vocabulary: searches on the shards of the pipeline with locks. *)
From Verif Require Import ModelPipe ModelEngine SpecRank SpecRoute SpecPipe SpecFine.

(** What a search reads in the state [s]: the indexers as they are, and the rankers that the
    calls so far have made. *)
Definition shards_now (only : bool) (s : fine) (shards : list Shard) : Prop :=
  ModelEngine.shIx <$> shards = index_of <$> fShards s ∧
  ∀ (i : nat) sh, shards !! i = Some sh → rrun (rkCalls (Z.of_nat i) (sLog (fPipe s))) (RankerInit [only]) = Some (shRk sh).
