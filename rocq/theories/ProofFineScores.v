(** Proofs for C117 and C118 with the locks of the indexers in view. *)
From Coq Require Import Reals.
From Verif Require Import ModelPipe ModelEngine ModelFlight ModelScoring SpecIndexer SpecSearch SpecRank SpecRoute SpecPipe SpecEngine SpecEnd SpecFine SpecFineScores SpecBM25 SpecScored SpecAccuracy SpecRevise SpecRescored SpecReranked
  ProofLocks ProofFine ProofFineSim ProofFineThms ProofFineCycle ProofRescored ProofReranked.

Section FineScores.
  Context (murmur : string → Z) (n : Z) (only reqsFirst : bool) (cap : chan → nat) (Hn : 1 <= n < 2^32).
  Lemma fine_returned_shards log2 sortDocs nseg phases x0 stale looks s shards :
    Forall good_phase phases → Forall apart phases →
    fine_reach murmur n only reqsFirst cap log2 sortDocs nseg [program phases] x0 stale looks s → returned 0 (fPipe s) → shards_now only s shards →
    engine_shards sortDocs x0 only n (fPipe s) shards ∧ pipe_reach murmur n only reqsFirst cap nseg [program phases] (fPipe s).
  Proof.
    intros HG HA Hr Hret [Hix Hrk]. pose proof (or_intror (ex_intro _ phases (conj eq_refl (conj HG HA))) : kept_apart [program phases]) as Hk.
    split; [|exact (fine_pipe_any murmur n only reqsFirst cap log2 sortDocs nseg [program phases] x0 stale looks s Hr)].
    pose proof (fine_shards murmur n only reqsFirst cap log2 sortDocs Hn nseg [program phases] Hk x0 stale looks s Hr) as Hlen.
    split. { apply (f_equal length) in Hix. rewrite !fmap_length in Hix. unfold zlen. rewrite Hix, Hlen. lia. }
    intros i sh Hi. split; [|by apply Hrk]. pose proof (f_equal (lookup i) Hix) as E. rewrite !list_lookup_fmap, Hi in E.
    destruct (fShards s !! i) as [fs|] eqn:Ef; [|done]. injection E as ->.
    destruct (fine_returned murmur n only reqsFirst cap log2 sortDocs Hn nseg phases HG HA x0 stale looks s fs Hr Hret (elem_of_list_lookup_2 _ _ _ Ef)) as (E1 & E2 & _).
    exact (proj2 (fine_index murmur n only reqsFirst cap log2 sortDocs Hn nseg [program phases] Hk x0 stale looks s i fs Hr Ef E1 E2)).
  Qed.
  Theorem fine_rescored log2 sortDocs sortBy o x0 stale looks nseg phases s shards req order :
    valid_sort sortDocs → valid_sortBy sortBy → Init o = Some x0 → Forall good_phase phases → Forall apart phases →
    fine_reach murmur n only reqsFirst cap log2 sortDocs nseg [program phases] x0 stale looks s → returned 0 (fPipe s) → shards_now only s shards →
      plain_request o req → rescores_proper log2 o (called murmur n (program phases)) (shard_total shards) req →
        all_arrive (length shards) order →
        ∃ full out, Search log2 sortBy req shards order = Some (mkResp (rqTokens req) false (zlen full) (Some out)) ∧
          answers_rescored log2 o n only (called murmur n (program phases)) (shard_total shards) req (quiescent (fPipe s)) full out.
  Proof.
    intros Hv Hvb HI HG HA Hr Hret Hnow. destruct (fine_returned_shards log2 sortDocs nseg phases x0 stale looks s shards HG HA Hr Hret Hnow) as (Hsh & Hp).
    exact (rescored_search murmur n only reqsFirst cap Hn sortDocs sortBy o x0 nseg phases (fPipe s) shards log2 req order Hv Hvb HI Hp Hret HG Hsh).
  Qed.
  Theorem fine_reranked log2 sortDocs sortBy o x0 stale looks nseg phases s shards req order p :
    valid_sort sortDocs → valid_sortBy sortBy → Init o = Some x0 → Forall good_phase phases → Forall apart phases →
    fine_reach murmur n only reqsFirst cap log2 sortDocs nseg [program phases] x0 stale looks s → returned 0 (fPipe s) → shards_now only s shards →
    IndexType o = LocsIndex ∨ IndexType o = FrequenciesIndex → BM25Parameters o = Some p → modest p → accurate_log2 log2 →
    modest_history (IndexType o) (called murmur n (program phases)) murmur n (program phases) →
    plain_request o req → ScoringCriteria (rqOpts req) = RankByBM25 → zlen (rqTokens req) <= 2 ^ 20 →
        all_arrive (length shards) order →
        ∃ full out, Search log2 sortBy req shards order = Some (mkResp (rqTokens req) false (zlen full) (Some out)) ∧
          answers_rescored log2 o n only (called murmur n (program phases)) (shard_total shards) req (quiescent (fPipe s)) full out ∧
          reranked (IndexType o) p (called murmur n (program phases)) n req out.
  Proof.
    intros Hv Hvb HI HG HA Hr Hret Hnow Hity Hpo Hpm Hlog Hm Hrq Hsc Ht Ho.
    destruct (fine_returned_shards log2 sortDocs nseg phases x0 stale looks s shards HG HA Hr Hret Hnow) as (Hsh & Hp).
    exact (search_reranked murmur n only reqsFirst cap Hn sortDocs sortBy o x0 nseg phases (fPipe s) shards log2 req order p
      Hv Hvb HI Hp Hret HG Hsh Hrq Hsc Ht Hity Hpo Hpm Hlog Hm Ho).
  Qed.
End FineScores.
