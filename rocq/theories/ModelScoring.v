(** Scoring criteria that come with the code. *)
From Verif Require Import ModelEngine.

(** types/scoring_criteria.go:31-34 RankByBM25.Score; it is the default
    (types/engine_init_options.go:32-34) *)
Definition RankByBM25 : IndexedDoc → Iface → list F := λ doc _, [BM25 doc].
