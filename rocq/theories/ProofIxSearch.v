(** Removal and update as seen by searches. *)
From Verif Require Import ModelLookup SpecIndexer SpecProx SpecSearch ProofSearch ProofTable ProofIndexer
  ProofCache ProofHistory ProofIxThms ProofIxMap ProofIxMore ProofSearchThms.

Lemma hasdoc_not_found sortDocs o ops s log2 id :
  reach sortDocs o ops s → HasDoc s id = false → not_found log2 s id.
Proof.
  intros HR Hh tokens labels flt logic docs n Hpl Hrun Hin.
  apply (search_live _ _ _ _ _ _ _ _ _ _ _ id HR Hpl Hrun) in Hin as (_ & _ & ? & _). congruence.
Qed.

Lemma remove_hides sortDocs o ops s log2 id force s' b :
  reach sortDocs o ops s → id ≠ "0" → RemoveDocToCache id force s = Some (s', b) →
  HasDoc s' id = false ∧ not_found log2 s' id.
Proof.
  intros HR Hid Hrun. destruct (reach_inv _ _ _ _ HR) as (live & dying & HI & _ & _).
  destruct (removed_not_live s live dying id force s' b HI Hid Hrun) as [Hh _]. split; [done|].
  eapply (hasdoc_not_found sortDocs o (ops ++ [OpRemove id force])); [|done].
  eapply reach_step; [done|done|]. simpl. by rewrite Hrun.
Qed.

Lemma remove_hides_for_good sortDocs o ops s log2 id force s' b ops2 s'' :
  reach sortDocs o ops s → id ≠ "0" → ¬ waits s id →
  RemoveDocToCache id force s = Some (s', b) →
  Forall good_op ops2 → Forall (λ o, ¬ adds_id id o) ops2 → run sortDocs ops2 s' = Some s'' →
  HasDoc s'' id = false ∧ not_found log2 s'' id.
Proof.
  intros HR Hid Hw Hrun Hg Hna Hrun2.
  destruct (remove_stays_gone sortDocs o ops s id force s' b ops2 s'') as [_ Hh]; [done..|].
  split; [done|].
  eapply (hasdoc_not_found sortDocs o ((ops ++ [OpRemove id force]) ++ ops2)); [|done].
  eapply reach_run; [|done|done]. eapply reach_step; [done|done|]. simpl. by rewrite Hrun.
Qed.

Lemma reindex_searched sortDocs o ops s d s' log2 :
  reach sortDocs o ops s → good_doc d → ¬ waits s (DocId d) →
  AddDocToCache sortDocs (Some d) true s = Some s' →
  (∀ k, in_row s' k (DocId d) ↔ k ∈ Text <$> Keywords d) ∧
  (∀ kw, kw ∈ Keywords d → entry_at s' (DocId d) kw) ∧
  ∀ tokens labels flt logic docs n, plain_logic logic →
    Lookup log2 s' tokens labels flt false logic = Some (docs, n) →
    DocId d ∈ ixDocId <$> docs ↔
      tokens ++ labels ≠ [] ∧ passes flt (DocId d) ∧ ∀ k, k ∈ tokens ++ labels → k ∈ Text <$> Keywords d.
Proof.
  intros HR Hg Hw Hrun.
  destruct (reindex_replaces sortDocs o ops s d s') as (M & M' & _ & Hs' & Hcl & Hd & _); [done..|].
  destruct Hs' as (H1 & H2 & H3 & H4).
  split; [intros k; by apply H3|]. split; [intros kw; by apply H4|].
  intros tokens labels flt logic docs n Hpl HL.
  assert (HR' : reach sortDocs o (ops ++ [OpAdd (Some d) true]) s') by by eapply reach_step.
  rewrite (search_live _ _ _ _ _ _ _ _ _ _ _ (DocId d) HR' Hpl HL). split.
  - intros (? & ? & _ & Hall). split; [done|]. split; [done|]. intros k Hk. eapply H3; [done|auto].
  - intros (? & ? & Hall). split; [done|]. split; [done|]. split; [apply H1; by eexists|].
    intros k Hk. eapply H3; [done|auto].
Qed.
