(** Proofs for C79 with the locks of the indexers in view: the calls of a restart remove
    nothing. *)
From Verif Require Import ModelPipe ModelEngine ModelStore SpecIndexer SpecSegment SpecRank SpecRoute SpecPipe SpecEngine SpecStore SpecEnd SpecLife SpecFine
  SpecFineScores ProofRecover ProofLife ProofFineRest.

Lemma recover_apart iter decode X stop o nS dbs progs : recoverProgs iter decode X stop o nS dbs = Some progs → kept_apart (progs ++ [[EFlush]]).
Proof.
  intros H. left. intros cs c Hcs Hc. apply elem_of_app in Hcs as [Hcs|Hcs].
  - destruct (recover_calls iter decode X stop o nS dbs progs H) as (rs & _ & HF).
    assert (Hin : c ∈ mjoin progs) by (apply elem_of_list_join; by exists cs).
    apply elem_of_list_lookup in Hin as [k Hk]. destruct (Forall2_lookup_r _ _ _ _ _ HF Hk) as (p & _ & Hp).
    unfold indexCall in Hp. destruct (segDoc X stop o p.1 p.2); [|discriminate Hp]. by injection Hp as <-.
  - apply elem_of_list_singleton in Hcs as ->. by apply elem_of_list_singleton in Hc as ->.
Qed.
