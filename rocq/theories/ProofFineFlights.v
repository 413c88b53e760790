(** Proofs for C78 with the locks of the indexers in view: nothing waits after a Flush. *)
From Verif Require Import ModelPipe ModelEngine SpecIndexer SpecRank SpecRoute SpecPipe SpecEngine SpecEnd SpecFine SpecFineScores
  ProofFlushThms ProofEnd ProofFineRest.

Section FineFlights.
  Context (murmur : string → Z) (n : Z) (only reqsFirst : bool) (cap : chan → nat) (Hn : 1 <= n < 2^32).
  Context (wlog2 : F → F) (sortDocs : list DocIndex → list DocIndex) (nseg : nat) (progs : list (list ecall)) (Hap : kept_apart progs).
  Context (x0 : Indexer) (stale : list string) (looks : nat → list (list query)) (s : fine).
  Context (Hr : fine_reach murmur n only reqsFirst cap wlog2 sortDocs nseg progs x0 stale looks s) (Hq : quiescent (fPipe s)).
  Lemma quiet_idle shards : (∃ shards', engine_shards sortDocs x0 only n (fPipe s) shards' ∧ Forall nothing_waits shards') →
    shards_now only s shards → Forall nothing_waits shards.
  Proof.
    intros (shards' & [L2 S2] & Hw) Hnow.
    destruct (quiet_shards murmur n only reqsFirst cap Hn wlog2 sortDocs nseg progs Hap x0 stale looks s Hr Hq shards Hnow) as [L1 S1].
    apply Forall_lookup. intros i sh Hi. destruct (lookup_lt_is_Some_2 shards' i) as [sh' Hi'].
    { apply lookup_lt_Some in Hi. unfold zlen in *. lia. }
    destruct (S1 i sh Hi) as [R1 _]. destruct (S2 i sh' Hi') as [R2 _]. rewrite R1 in R2. injection R2 as E.
    pose proof (Forall_lookup_1 _ _ _ _ Hw Hi') as W. unfold nothing_waits in *. by rewrite E.
  Qed.
  Lemma quiet_last_flush o shards : valid_sort sortDocs → Init o = Some x0 → once_each (mjoin progs) → flushed_last n (fPipe s) →
    shards_now only s shards → Forall nothing_waits shards.
  Proof.
    intros Hv HI Ho Hf. apply quiet_idle.
    exact (end_last_flush murmur n only reqsFirst cap Hn sortDocs o x0 nseg progs (fPipe s) Hv HI
      (quiet_pipe murmur n only reqsFirst cap Hn wlog2 sortDocs nseg progs Hap x0 stale looks s Hr) Hq Ho Hf).
  Qed.
  Lemma quiet_flushed o phases shards : progs = [program phases] → valid_sort sortDocs → Init o = Some x0 → Forall good_phase phases →
    shards_now only s shards → Forall nothing_waits shards.
  Proof.
    intros E Hv HI Hg. apply quiet_idle.
    pose proof (quiet_pipe murmur n only reqsFirst cap Hn wlog2 sortDocs nseg progs Hap x0 stale looks s Hr) as Hp. rewrite E in Hp.
    exact (end_flushed murmur n only reqsFirst cap Hn sortDocs o x0 nseg phases (fPipe s) Hv HI Hp Hq Hg).
  Qed.
End FineFlights.
