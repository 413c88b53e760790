(** Proofs for C78, C96, C100, C114 and C115 with the locks of the indexers in view: at the
    end of an execution the indexers are what the calls on them make. *)
From Verif Require Import ModelPipe ModelEngine SpecIndexer SpecRank SpecRoute SpecPipe SpecEngine SpecEnd SpecFine SpecFineScores
  ProofLocks ProofFine ProofFineSim ProofFineThms ProofFineCycle ProofEnd.

Section FineRest.
  Context (murmur : string → Z) (n : Z) (only reqsFirst : bool) (cap : chan → nat) (Hn : 1 <= n < 2^32).
  Context (wlog2 : F → F) (sortDocs : list DocIndex → list DocIndex) (nseg : nat) (progs : list (list ecall)) (Hap : kept_apart progs).
  Context (x0 : Indexer) (stale : list string) (looks : nat → list (list query)) (s : fine).
  Context (Hr : fine_reach murmur n only reqsFirst cap wlog2 sortDocs nseg progs x0 stale looks s) (Hq : quiescent (fPipe s)).
  Lemma quiet_pipe : pipe_reach murmur n only reqsFirst cap nseg progs (fPipe s).
  Proof. exact (fine_pipe murmur n only reqsFirst cap wlog2 sortDocs Hn nseg progs Hap x0 stale looks s Hr). Qed.
  Lemma quiet_ease i sh : fShards s !! i = Some sh → at_ease sh.
  Proof.
    intros Hi. destruct (fineInv_reach murmur n only reqsFirst cap wlog2 sortDocs Hn nseg progs Hap x0 stale looks s Hr) as (_ & _ & Hinv).
    destruct (Hinv _ _ Hi) as (_ & [[He _]|(k & o & _ & _ & _ & (p & l & Hp & Ha) & _)]); [exact He|exfalso].
    destruct Hq as [_ HF]. destruct (Forall_lookup_1 _ _ _ _ HF Hp) as [Hn' _]. by rewrite Hn' in Ha.
  Qed.
  Lemma quiet_shards shards : shards_now only s shards → engine_shards sortDocs x0 only n (fPipe s) shards.
  Proof.
    intros [Hix Hrk]. pose proof (fine_shards murmur n only reqsFirst cap wlog2 sortDocs Hn nseg progs Hap x0 stale looks s Hr) as Hlen.
    split. { apply (f_equal length) in Hix. rewrite !fmap_length in Hix. unfold zlen. rewrite Hix, Hlen. lia. }
    intros i sh Hi. split; [|by apply Hrk]. pose proof (f_equal (lookup i) Hix) as E. rewrite !list_lookup_fmap, Hi in E.
    destruct (fShards s !! i) as [fs|] eqn:Ef; [|done]. injection E as ->. destruct (quiet_ease i fs Ef) as (E1 & E2 & _).
    exact (proj2 (fine_index murmur n only reqsFirst cap wlog2 sortDocs Hn nseg progs Hap x0 stale looks s i fs Hr Ef E1 E2)).
  Qed.
  (** After forced calls nothing waits. *)
  Lemma quiet_forced o shards : valid_sort sortDocs → Init o = Some x0 → once_each (mjoin progs) → Forall forced_call (mjoin progs) →
    shards_now only s shards → Forall nothing_waits shards.
  Proof.
    intros Hv HI Ho Hf Hnow. destruct (quiet_shards shards Hnow) as [L1 S1].
    destruct (end_forced murmur n only reqsFirst cap Hn sortDocs o x0 nseg progs (fPipe s) Hv HI quiet_pipe Hq Ho Hf) as (shards' & [L2 S2] & Hw).
    apply Forall_lookup. intros i sh Hi. destruct (lookup_lt_is_Some_2 shards' i) as [sh' Hi'].
    { apply lookup_lt_Some in Hi. unfold zlen in *. lia. }
    destruct (S1 i sh Hi) as [R1 _]. destruct (S2 i sh' Hi') as [R2 _]. rewrite R1 in R2. injection R2 as E.
    pose proof (Forall_lookup_1 _ _ _ _ Hw Hi') as W. unfold nothing_waits in *. by rewrite E.
  Qed.
End FineRest.
