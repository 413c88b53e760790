(** Count-only search agrees with the ordinary one, in every state. *)
From Verif Require Import ModelLookup.

Notation counted r := ((λ p : list IndexedDoc * Z, (@nil IndexedDoc, p.2)) <$> r).

Section Count.
  Variable log2 : F → F.

  Lemma lookupLoop_count s tokens flt row0 rows n : ∀ ptrs,
    lookupLoop log2 s tokens flt true row0 rows n ptrs =
      counted (lookupLoop log2 s tokens flt false row0 rows n ptrs) ∧
    ∀ docs k, lookupLoop log2 s tokens flt false row0 rows n ptrs = Some (docs, k) → k = zlen docs.
  Proof.
    induction n as [|n IH]; intros ptrs; cbn [lookupLoop].
    { split; [done|]. intros docs k. injection 1 as <- <-. done. }
    destruct (docIds row0 !! n) as [base|]; [rewrite !bind_Some_eq|done].
    destruct (match flt with Some f => _ | None => false end); [apply IH|].
    destruct (innerSearch rows ptrs base) as [[ps|ps|]|]; [rewrite !bind_Some_eq..|done].
    - destruct (HasDoc s base); [|apply IH]. cbn zeta.
      destruct (hitDoc _ _ _ _ _ _) as [d|]; [rewrite !bind_Some_eq|done].
      destruct (IH ps) as [IH1 IH2]. rewrite IH1.
      destruct (lookupLoop log2 s tokens flt false row0 rows n ps) as [[docs k]|]; [|done].
      specialize (IH2 docs k eq_refl). split; [done|].
      intros docs' k'. cbn. injection 1 as <- <-. rewrite zlen_cons. lia.
    - apply IH.
    - split; [done|]. intros docs k. injection 1 as <- <-. done.
  Qed.

  Lemma mustLoop_count flt must0 must should notIn n :
    mustLoop flt true must0 must should notIn n = counted (mustLoop flt false must0 must should notIn n) ∧
    ∀ docs k, mustLoop flt false must0 must should notIn n = Some (docs, k) → k = zlen docs.
  Proof.
    induction n as [|n [IH1 IH2]]; cbn [mustLoop].
    { split; [done|]. intros docs k. injection 1 as <- <-. done. }
    destruct (docIds must0 !! n) as [base|]; [rewrite !bind_Some_eq|done].
    destruct (match flt with Some f => _ | None => false end); [done|].
    destruct (findInMustTable must base) as [m|]; [rewrite !bind_Some_eq|done].
    destruct (findInShouldTable should base) as [sh|]; [rewrite !bind_Some_eq|done].
    destruct (findInNotInTable notIn base) as [nt|]; [rewrite !bind_Some_eq|done].
    rewrite IH1. destruct (mustLoop flt false must0 must should notIn n) as [[docs k]|]; [|done].
    specialize (IH2 docs k eq_refl). cbn. destruct (m && sh && negb nt).
    - split; [done|]. intros docs' k'. injection 1 as <- <-. rewrite zlen_cons. lia.
    - split; [done|]. intros docs' k'. injection 1 as <- <-. done.
  Qed.

  Lemma idDocs_count (ids : option (list string)) :
    (l ← ids; Some (idDocs true l)) = counted (l ← ids; Some (idDocs false l)) ∧
    ∀ docs k, (l ← ids; Some (idDocs false l)) = Some (docs, k) → k = zlen docs.
  Proof.
    destruct ids as [l|]; [|done]. cbn. split; [done|]. intros docs k. injection 1 as <- <-.
    unfold zlen. by rewrite fmap_length.
  Qed.

  Lemma LogicLookup_count s flt e lg :
    LogicLookup s flt true e lg = counted (LogicLookup s flt false e lg) ∧
    ∀ docs k, LogicLookup s flt false e lg = Some (docs, k) → k = zlen docs.
  Proof.
    assert (H0 : Some (@nil IndexedDoc, 0) = counted (Some (@nil IndexedDoc, 0)) ∧
      ∀ docs k, Some (@nil IndexedDoc, 0) = Some (docs, k) → k = zlen docs).
    { split; [done|]. intros docs k. injection 1 as <- <-. done. }
    unfold LogicLookup. cbn zeta.
    destruct (if lMust lg || nonempty (eMust lg) then _ else _) as [mt|]; [|apply H0].
    destruct (_ && negb _); [apply H0|].
    destruct (lMust lg || nonempty (eMust lg)).
    - destruct mt as [|must0 must]; [done|]. apply mustLoop_count.
    - destruct (lShould lg || nonempty (eShould lg)).
      + unfold unionTable. apply idDocs_count.
      + apply idDocs_count.
  Qed.

  Lemma internalLookup_count s kws tokens flt :
    internalLookup log2 s kws tokens flt true = counted (internalLookup log2 s kws tokens flt false) ∧
    ∀ docs k, internalLookup log2 s kws tokens flt false = Some (docs, k) → k = zlen docs.
  Proof.
    assert (H0 : Some (@nil IndexedDoc, 0) = counted (Some (@nil IndexedDoc, 0)) ∧
      ∀ docs k, Some (@nil IndexedDoc, 0) = Some (docs, k) → k = zlen docs).
    { split; [done|]. intros docs k. injection 1 as <- <-. done. }
    unfold internalLookup. destruct (mapM _ kws) as [[|row0 rows]|]; [apply H0| |apply H0].
    apply lookupLoop_count.
  Qed.

  Lemma Lookup_count s tokens labels flt logic :
    Lookup log2 s tokens labels flt true logic = counted (Lookup log2 s tokens labels flt false logic) ∧
    ∀ docs k, Lookup log2 s tokens labels flt false logic = Some (docs, k) → k = zlen docs.
  Proof.
    unfold Lookup. cbn zeta. destruct (numDocs s =? 0).
    { split; [done|]. intros docs k. injection 1 as <- <-. done. }
    destruct logic as [lg|]; [|apply internalLookup_count].
    destruct (_ && _); [apply LogicLookup_count|].
    destruct (_ || _); [apply LogicLookup_count|apply internalLookup_count].
  Qed.
End Count.
