(** C119 and C120: the documents over which the scores of a shard are made only become more;
    so the scores of a search count all the documents that its shard had when the search
    began, and none that it has not when the search ends. *)
From Verif Require Import ModelSession ModelPipe ModelEngine ModelFlight SpecIndexer SpecSearch SpecRank SpecRoute SpecPipe SpecEngine SpecFlight SpecStore SpecEnd SpecLife SpecWhole SpecSession
  SpecSegment SpecDuring SpecSessionDuring SpecScored SpecRescored SpecGrowing SpecGrowingSession SpecFine SpecFineSearch SpecFineDuring
  ProofIxThms ProofFlushThms ProofFineSim ProofFineCycle ProofMoments ProofDuring ProofFine ProofFineDuring ProofSessionDuring ProofGrowing ProofFineGrowing ProofGrowingSession ProofGrowingStay
  ExampleTools PropPipe PropEngine PropEnd PropFlight PropDuring PropScored PropGrowing PropLocks PropFine PropFineDuring PropFineGrowing.
From Verif Require Import ModelEngine.

Theorem C119_counted_documents_stay murmur n only reqsFirst cap sortDocs o s0 nseg progs ws ps t t' w w' i sh sh' :
  1 <= n < 2^32 → valid_sort sortDocs → Init o = Some s0 → once_each (mjoin progs) →
  written_by (pipeStep murmur n only reqsFirst cap) (pipeInit n nseg progs) sortDocs s0 only n ws ps →
  (t <= t')%nat → ws !! t = Some w → ws !! t' = Some w' → w !! i = Some sh → w' !! i = Some sh' →
  held (shIx sh) (shard_docs murmur n (Z.of_nat i) (mjoin progs)) ⊆ held (shIx sh') (shard_docs murmur n (Z.of_nat i) (mjoin progs)).
Proof.
  intros Hn Hv HI [Hg Hnd] HW. apply (written_by_log murmur n only reqsFirst cap) in HW. apply (written_rest murmur n only reqsFirst cap) in HW.
  exact (held_stays murmur n only o (mjoin progs) _ _ ws ps t t' w w' i sh sh' (at_rest murmur n only reqsFirst cap Hn sortDocs o s0 nseg progs Hv HI (Hgood progs Hg)) Hnd HW).
Qed.
Print Assumptions C119_counted_documents_stay.
Theorem C119_counted_documents_stay_with_locks murmur n only reqsFirst cap wlog2 sortDocs nseg progs o s0 stale looks ws ss t t' w w' i sh sh' :
  1 <= n < 2^32 → kept_apart progs → valid_sort sortDocs → Init o = Some s0 → once_each (mjoin progs) →
  written_fine (fineStep murmur n only reqsFirst cap wlog2 sortDocs) (fineInit n nseg progs s0 stale looks) only n ws ss →
  (t <= t')%nat → ws !! t = Some w → ws !! t' = Some w' → w !! i = Some sh → w' !! i = Some sh' →
  held (shIx sh) (shard_docs murmur n (Z.of_nat i) (mjoin progs)) ⊆ held (shIx sh') (shard_docs murmur n (Z.of_nat i) (mjoin progs)).
Proof.
  intros Hn Hap Hv HI [Hg Hnd] HW%written_lock.
  exact (held_stays murmur n only o (mjoin progs) _ _ ws ss t t' w w' i sh sh'
    (at_lock murmur n only reqsFirst cap wlog2 sortDocs Hn nseg progs Hap o s0 stale looks Hv HI (HG _ Hg)) Hnd HW).
Qed.
Print Assumptions C119_counted_documents_stay_with_locks.
Theorem C120_counted_documents_stay murmur n only reqsFirst cap accepts encode nS reqsFirst2 iter decode X stop o
    sortDocs io s0 nseg recs progs dbs ws ss t t' w w' i sh sh' ever :
  1 <= n < 2^32 → 1 <= nS < 2^32 → valid_iter iter → valid_range X → valid_sort sortDocs → Init io = Some s0 →
  placed murmur nS dbs → no_zero nS dbs → recoverProgs iter decode X stop o nS dbs = Some recs →
  made_of X stop o (mjoin progs) → new_ids murmur nS dbs (mjoin progs) →
  written_in (session_reach murmur n only reqsFirst cap accepts encode nS reqsFirst2 nseg recs progs)
    (wholeStep murmur n only reqsFirst cap accepts encode nS reqsFirst2) sortDocs s0 only n ws ss →
  documents_of murmur n X stop o (stored_or_given murmur nS decode dbs (mjoin progs)) (Z.of_nat i) ever →
  (t <= t')%nat → ws !! t = Some w → ws !! t' = Some w' → w !! i = Some sh → w' !! i = Some sh' →
  held (shIx sh) ever ⊆ held (shIx sh') ever.
Proof.
  intros Hn HnS Hit HX Hv HI Hpl Hz Hr Hm Hnew HW He. 
  exact (held_session murmur n only reqsFirst cap Hn accepts encode nS HnS reqsFirst2 iter Hit decode X stop o HX
    sortDocs io s0 nseg recs progs dbs Hv HI Hpl Hz Hr Hm Hnew ws ss t t' w w' i sh sh' ever HW He).
Qed.
Print Assumptions C120_counted_documents_stay.

(** The moments of C119_case_with_locks: one shard that counts nothing, "b", and "b" and "a". *)
Example C119_case_counted : (λ s, DocId <$> held (shIx (shardOf s)) (shard_docs hash0 1 0 (mjoin [progK]))) <$> [startK; midB; midA] = [[]; ["b"]; ["b"; "a"]].
Proof. vm_compute. reflexivity. Qed.
