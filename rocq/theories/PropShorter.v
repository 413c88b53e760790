(** Theorems about two documents of one shard in the answer of a search. *)
From Coq Require Import Reals Lra Floats.SpecFloat.
From Verif Require Import ModelLookup ModelPipe ModelEngine ModelFlight ModelScoring ModelStart SpecIndexer SpecSearch SpecRank SpecRoute SpecPipe SpecEngine SpecFlight SpecEnd
  SpecBM25 SpecScored SpecAccuracy SpecShorter ProofAccuracy ProofShorter ProofIxThms ExampleTools PropPipe PropEnd PropScored PropAccuracy.

(** * C115: BM25 prefers shorter documents, more occurrences and rarer words *)

(** After any concurrent calls of Index that have been worked off, of two documents of one
    shard in which the tokens occur equally often the longer one never stands before the
    shorter one, unless their scores are equal; a document that is not longer and has no fewer
    occurrences has no smaller score up to rounding. *)
Theorem C115_search_puts_shorter_first murmur n only reqsFirst cap sortDocs sortBy o s0 nseg progs s shards log2 req order p :
  1 <= n < 2^32 → valid_sort sortDocs → valid_sortBy sortBy → Init o = Some s0 →
  pipe_reach murmur n only reqsFirst cap nseg progs s → quiescent s → once_each (ordinary (mjoin progs)) →
  engine_shards sortDocs s0 only n s shards → Forall nothing_waits shards →
  plain_request o req → ScoringCriteria (rqOpts req) = RankByBM25 → zlen (rqTokens req) <= 2 ^ 20 →
  IndexType o = LocsIndex ∨ IndexType o = FrequenciesIndex → BM25Parameters o = Some p → modest p → accurate_log2 log2 →
  (∀ i, 0 <= i < n → shard_docs murmur n i (ordinary (mjoin progs)) ≠ [] → modest_docs (IndexType o) (shard_docs murmur n i (ordinary (mjoin progs)))) →
  all_arrive (length shards) order →
  ∃ full out, Search log2 sortBy req shards order = Some (mkResp (rqTokens req) false (zlen full) (Some out)) ∧
    answers_scored log2 o murmur n only (ordinary (mjoin progs)) (shard_total shards) req full out ∧
    shorter_first (IndexType o) murmur n (ordinary (mjoin progs)) req out ∧
    better_not_below (IndexType o) murmur n (ordinary (mjoin progs)) req out.
Proof. exact (search_shorter murmur n only reqsFirst cap sortDocs sortBy o s0 nseg progs s shards log2 req order p). Qed.
Print Assumptions C115_search_puts_shorter_first.
(** The same for any number of searches at the same time *)
Theorem C115_searches_put_shorter_first murmur n only reqsFirst cap sortDocs sortBy o s0 nseg progs s shards log2 nn ccap
    clients tl tr ls fs a req t0 p :
  1 <= n < 2^32 → valid_sort sortDocs → valid_sortBy sortBy → Init o = Some s0 →
  pipe_reach murmur n only reqsFirst cap nseg progs s → quiescent s → once_each (ordinary (mjoin progs)) →
  engine_shards sortDocs s0 only n s shards → Forall nothing_waits shards →
  frun log2 sortBy nn ccap ls (fInit nn clients tl tr shards) = Some fs → Forall read_only ls → length shards = nn →
  a ∈ fAnswers fs → fReqs fs !! faSearch a = Some (req, t0) →
  plain_request o req → ScoringCriteria (rqOpts req) = RankByBM25 → zlen (rqTokens req) <= 2 ^ 20 →
  IndexType o = LocsIndex ∨ IndexType o = FrequenciesIndex → BM25Parameters o = Some p → modest p → accurate_log2 log2 →
  (∀ i, 0 <= i < n → shard_docs murmur n i (ordinary (mjoin progs)) ≠ [] → modest_docs (IndexType o) (shard_docs murmur n i (ordinary (mjoin progs)))) →
  ∃ full out, faResp a = mkResp (rqTokens req) false (zlen full) (Some out) ∧
    answers_scored log2 o murmur n only (ordinary (mjoin progs)) (shard_total shards) req full out ∧
    shorter_first (IndexType o) murmur n (ordinary (mjoin progs)) req out ∧
    better_not_below (IndexType o) murmur n (ordinary (mjoin progs)) req out.
Proof.
  exact (flight_shorter murmur n only reqsFirst cap sortDocs sortBy o s0 nseg progs s shards log2 nn ccap clients tl tr ls fs a req t0 p).
Qed.
Print Assumptions C115_searches_put_shorter_first.

(** ** Examples *)
(** The documents of C114_ex_search: "c" and "b" are in one shard and have the word "x" once,
    "c" is shorter. *)
Example C115_ex_neighbours : neighbours hashAB 2 (ordinary (mjoin endProgs)) docC docB ∧
  same_occurrences (IndexType (optsF 2)) (rqTokens bmReq) docC docB ∧ not_longer docC docB ∧ ¬ not_longer docB docC ∧
  no_fewer_occurrences (IndexType (optsF 2)) (rqTokens bmReq) docC docB.
Proof.
  assert (Hkw : ∀ k1 k2, k1 ∈ Keywords docC → k2 ∈ Keywords docB → Text k1 ∈ rqTokens bmReq → Text k1 = Text k2 → Frequency k1 = Frequency k2).
  { intros k1 k2 H1 H2 _ E. cbn [Keywords docC docB] in H1, H2. apply elem_of_list_singleton in H1 as ->.
    apply elem_of_cons in H2 as [->|H2]; [done|]. apply elem_of_list_singleton in H2 as ->. done. }
  split. { exists (IOther 3), "z", INil, true, (IOther 2), "y", INil, true. split; [|split; [|by vm_compute]].
    all: apply elem_of_list_lookup; first [exists 1%nat; by vm_compute|exists 2%nat; by vm_compute]. }
  split. { intros k1 k2 H1 H2 Ht E. change (IndexType (optsF 2) =? LocsIndex) with false. cbv iota. by apply Hkw. }
  unfold not_longer. cbn [TokenLen docC docB]. rewrite !value_int by done.
  split; [lra|]. split; [lra|]. intros k1 k2 H1 H2 Ht E. unfold occurrences. change (IndexType (optsF 2) =? LocsIndex) with false. cbv iota.
  rewrite (Hkw k1 k2) by done. apply Rle_refl.
Qed.
