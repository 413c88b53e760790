(** What a search sees while a call of the same shard is under way. *)
From Verif Require Import SpecFine SpecIndexer SpecProx SpecSearch SpecLogic ProofSearch ProofTable ProofIndexer ProofCache ProofHistory ProofLookup
  ProofSearchThms ProofLogic ProofLogicThms ProofLocks ProofSeqEq.

(** * What searches depend on *)
Record Seen (x : Indexer) (live dying : docmap) : Prop := {
  seen_disj : live ##ₘ dying;
  seen_table : table_ok (IndexType (initOptions x)) (live ∪ dying) (table x);
  seen_live : ∀ id, HasDoc x id = true ↔ is_Some (live !! id);
  seen_num : numDocs x = Z.of_nat (size live);
  seen_ids : map_Forall (λ id d, DocId d = id ∧ NoDup (texts d)) (live ∪ dying);
  seen_lens : ∀ id, docTokenLens x !! id =
    (d ← (live ∪ dying) !! id; if f_eqb (TokenLen d) f_zero then None else Some (TokenLen d)) }.

Lemma core_hasdoc x live dying p2 id : Core x live dying p2 → HasDoc x id = true ↔ is_Some (live !! id).
Proof.
  intros HC. unfold HasDoc. rewrite (core_state _ _ _ _ HC). unfold stateOf.
  destruct (live !! id); [split; [eauto|done]|].
  destruct (dying !! id); [split; [done|by intros []]|].
  destruct (decide _); split; try done; by intros [].
Qed.
Lemma core_seen x live dying p2 c : Core (setRemoveCache c x) live dying p2 → Seen x live dying.
Proof. intros HC. split; try apply HC. intros id. apply (core_hasdoc _ _ _ _ id HC). Qed.
Lemma core_seen' x live dying p2 : Core x live dying p2 → Seen x live dying.
Proof. intros HC. apply (core_seen x live dying p2 (removeCache x)). by rewrite setRemoveCache_id. Qed.

Lemma Lookup_ext log2 x y tokens labels flt c lg :
  table x = table y → numDocs x = numDocs y → totalTokenLen x = totalTokenLen y → docTokenLens x = docTokenLens y →
  IndexType (initOptions x) = IndexType (initOptions y) → BM25Parameters (initOptions x) = BM25Parameters (initOptions y) →
  (∀ id, HasDoc x id = HasDoc y id) →
  Lookup log2 x tokens labels flt c lg = Lookup log2 y tokens labels flt c lg.
Proof.
  intros E1 E2 E3 E4 E5 E6 E7.
  assert (HB : ∀ d avg rows ptrs acc, bm25Loop log2 x d avg rows ptrs acc = bm25Loop log2 y d avg rows ptrs acc).
  { intros d avg rows. induction rows as [|r rows IH]; intros ptrs acc; [done|]. destruct ptrs as [|p ptrs]; [done|].
    cbn [bm25Loop]. rewrite E5, E6, E2. destruct (if IndexType (initOptions y) =? LocsIndex then _ else _); [|done]. cbn [mbind option_bind]. apply IH. }
  assert (HH : ∀ rows ptrs base, hitDoc log2 x tokens rows ptrs base = hitDoc log2 y tokens rows ptrs base).
  { intros rows ptrs base. unfold hitDoc. rewrite E2, E3, E4, E5. cbv zeta.
    destruct (IndexType (initOptions y) =? LocsIndex).
    - destruct (hitLocs rows ptrs) as [locs|]; [|done]. cbn [mbind option_bind]. destruct (negb _); [done|].
      destruct (computeTokenProximity locs tokens) as [[]|]; [|done]. cbn [mbind option_bind]. by rewrite HB.
    - destruct (_ =? FrequenciesIndex); [|done]. by rewrite HB. }
  assert (HL : ∀ r0 rows n ptrs, lookupLoop log2 x tokens flt c r0 rows n ptrs = lookupLoop log2 y tokens flt c r0 rows n ptrs).
  { intros r0 rows n. induction n as [|n IH]; intros ptrs; [done|]. cbn [lookupLoop].
    destruct (docIds r0 !! n) as [base|]; [|done]. cbn [mbind option_bind]. rewrite !IH, E7.
    destruct (match flt with Some _ => _ | None => _ end); [done|].
    destruct (innerSearch rows ptrs base) as [[ps|ps|]|]; try done; cbn [mbind option_bind]; [|by rewrite IH].
    rewrite !IH. destruct (HasDoc y base); [|done]. by rewrite HH. }
  assert (HI : internalLookup log2 x (tokens ++ labels) tokens flt c = internalLookup log2 y (tokens ++ labels) tokens flt c).
  { unfold internalLookup. rewrite E1. destruct (mapM _ _) as [[|r0 rows]|]; try done; apply HL. }
  unfold Lookup. rewrite E2, HI. destruct (numDocs y =? 0); [done|]. cbv zeta. destruct lg as [l|]; [|done].
  unfold LogicLookup. by rewrite E1.
Qed.

(** The same answers from a state at rest *)
Definition tidy (x : Indexer) (live dying : docmap) : Indexer :=
  mkIndexer (table x) (((λ _ : DocIndex, 0) <$> live) ∪ ((λ _ : DocIndex, 1) <$> dying)) [] (map_to_list dying).*1
    (let o := initOptions x in mkOpts (IndexType o) (Z.of_nat (S (size dying))) (BM25Parameters o))
    (numDocs x) (totalTokenLen x) (docTokenLens x).
Lemma tidy_state x live dying id :
  docsState (tidy x live dying) !! id = stateOf live dying ∅ id.
Proof.
  cbn [tidy docsState]. unfold stateOf. destruct (live !! id) as [d|] eqn:E.
  - apply lookup_union_Some_l. by rewrite lookup_fmap, E.
  - rewrite lookup_union_r by (by rewrite lookup_fmap, E). rewrite lookup_fmap. by destruct (dying !! id).
Qed.
Lemma tidy_inv x live dying : Seen x live dying → Inv (tidy x live dying) live dying.
Proof.
  intros HS. assert (HC : Core (tidy x live dying) live dying ∅).
  { split; cbn [tidy removeCache table initOptions IndexType numDocs docTokenLens]; try apply HS; try done.
    - apply tidy_state.
    - apply NoDup_fst_map_to_list.
    - intros id. rewrite elem_of_list_fmap. split.
      + intros ([i d] & -> & Hd%elem_of_map_to_list). by eexists.
      + intros [d Hd]. exists (id, d). split; [done|]. by apply elem_of_map_to_list. }
  split.
  - done.
  - unfold cap. cbn [tidy initOptions DocCacheSize]. lia.
  - rewrite <- (size_dying_bound _ _ _ _ HC). unfold cap. cbn [tidy initOptions DocCacheSize]. lia.
  - unfold cap. cbn [tidy initOptions DocCacheSize addCache]. rewrite zlen_nil. lia.
  - constructor.
Qed.
Lemma Lookup_tidy log2 x live dying tokens labels flt c lg : Seen x live dying →
  Lookup log2 (tidy x live dying) tokens labels flt c lg = Lookup log2 x tokens labels flt c lg.
Proof.
  intros HS. apply Lookup_ext; try done. intros id.
  pose proof (inv_hasdoc _ _ _ id (tidy_inv _ _ _ HS)) as H1. pose proof (seen_live _ _ _ HS id) as H2.
  destruct (HasDoc (tidy x live dying) id), (HasDoc x id); try done.
  - symmetry. by apply H2, H1.
  - by apply H1, H2.
Qed.

Lemma seen_shows x live dying : Seen x live dying → shows x live.
Proof.
  intros HS. destruct (inv_shows _ _ _ (tidy_inv _ _ _ HS)) as (_ & A2 & A3 & A4).
  split; [apply HS|]. done.
Qed.
(** Plain searches, as in C03, C04, C16, C19 *)
Lemma seen_plain log2 x live dying tokens labels flt logic : Seen x live dying → plain_logic logic →
  ∃ hits, StronglySorted (flip slt) hits ∧
    (∀ id, id ∈ hits ↔ matches live (tokens ++ labels) flt id) ∧
    ((IndexType (initOptions x) = LocsIndex ∧ tokens = [] ∧ hits ≠ [] ∧
      ∀ countOnly, Lookup log2 x tokens labels flt countOnly logic = None) ∨
     (¬ (IndexType (initOptions x) = LocsIndex ∧ tokens = [] ∧ hits ≠ []) ∧ ∃ docs,
      Lookup log2 x tokens labels flt false logic = Some (docs, zlen docs) ∧
      Lookup log2 x tokens labels flt true logic = Some ([], zlen docs) ∧
      ixDocId <$> docs = hits ∧
      ∀ r, r ∈ docs → ∃ d kws, live !! ixDocId r = Some d ∧ hit_kws d tokens kws ∧ fields_of log2 x tokens d kws r)).
Proof.
  intros HS Hpl. pose proof (tidy_inv _ _ _ HS) as HI.
  destruct (lookup_spec log2 _ live dying HI tokens labels flt false logic Hpl) as (hits & Hs & Hh & Hc).
  destruct (lookup_spec log2 _ live dying HI tokens labels flt true logic Hpl) as (hits' & Hs' & Hh' & Hc').
  assert (hits' = hits) as ->.
  { apply (inj reverse). apply StronglySorted_unique_elem.
    - clear -Hs'. induction Hs' as [|y l _ IH Hx]; [constructor|]. rewrite reverse_cons. apply StronglySorted_app_iff.
      split; [done|]. split; [repeat constructor|]. intros a b Ha Hb. apply elem_of_list_singleton in Hb as ->. rewrite elem_of_reverse in Ha.
      rewrite Forall_forall in Hx. by apply Hx.
    - clear -Hs. induction Hs as [|y l _ IH Hx]; [constructor|]. rewrite reverse_cons. apply StronglySorted_app_iff.
      split; [done|]. split; [repeat constructor|]. intros a b Ha Hb. apply elem_of_list_singleton in Hb as ->. rewrite elem_of_reverse in Ha.
      rewrite Forall_forall in Hx. by apply Hx.
    - intros y. by rewrite !elem_of_reverse, Hh, Hh'. }
  rewrite Lookup_tidy in Hc, Hc' by done.
  exists hits. split; [done|]. split; [done|].
  destruct Hc as [(E1 & E2 & E3 & HL)|(Hn & docs & HL & HF)].
  - left. split; [done|]. split; [done|]. split; [done|]. intros [|]; [|done].
    destruct Hc' as [(_ & _ & _ & ?)|(Hn & _)]; [done|]. exfalso. apply Hn. done.
  - right. split; [done|]. exists docs. destruct Hc' as [(? & ? & ? & _)|(_ & docs' & HL' & _)].
    { exfalso. apply Hn. done. }
    assert (zlen docs = zlen hits) as -> by (unfold zlen; by rewrite (Forall2_length _ _ _ HF)).
    split; [done|]. split; [done|]. split; [exact (forall2_ids _ _ _ _ _ _ _ HI HF)|].
    intros r [i Hi]%elem_of_list_lookup. destruct (Forall2_lookup_r _ _ _ _ _ HF Hi) as (id & _ & d & kws & Hd & Hk & Hf).
    exists d, kws. split; [|done]. rewrite (fields_id _ _ _ _ _ _ Hf).
    pose proof (union_live live dying _ _ Hd) as Hu. by apply (core_ids _ _ _ _ (inv_core _ _ _ HI)) in Hu as [-> _].
Qed.
(** Logic searches: when they crash (C25) *)
Lemma seen_logic_crash log2 x live dying tokens labels flt c lg : Seen x live dying → is_logic (tokens ++ labels) lg →
  Lookup log2 x tokens labels flt c (Some lg) = None →
  lMust lg = true ∧ tokens = [] ∧ labels = [] ∧ eMust lg = [] ∧ ∃ k id, k ∈ eShould lg ∧ in_row x k id.
Proof.
  intros HS HL. rewrite <- (Lookup_tidy log2 x live dying) by done. pose proof (tidy_inv _ _ _ HS) as HI.
  set (s := tidy x live dying) in *.
  assert (HG : ∀ k r, table s !! k = Some r → row_good r) by by eapply inv_good.
  pose proof (inv_indexes _ _ _ HI) as HD. set (D := live ∪ dying) in *.
  rewrite lookup_dispatch by done. destruct (numDocs s =? 0); [done|].
  pose proof (LogicLookup_spec s D HG HD flt (tokens ++ labels) lg) as HO. rewrite parts_eq in HO. unfold outcome in HO.
  cbn [qMust qShould qNot] in HO.
  assert (Hkw : tokens ++ labels = [] ↔ tokens = [] ∧ labels = []) by apply app_nil.
  destruct (lMust lg) eqn:EM, (eMust lg) as [|m ms] eqn:EE; cbn [orb nonempty] in HO.
  - destruct (tokens ++ labels) as [|w ws] eqn:EK.
    + destruct Hkw as [Hkw _]. destruct (Hkw eq_refl) as [-> ->].
      assert (Hne : eShould lg ≠ []).
      { destruct HL as [[]|[|]]; done. }
      assert (nonempty (eShould lg) = true) as HneB by by apply nonempty_true.
      rewrite HneB, orb_true_r in HO.
      destruct HO as [[(k & id & Hk & Hr) Hc]|[Hno Hc]].
      * intros _. split_and!; try done. exists k, id. done.
      * by rewrite Hc.
    + destruct HO as (ids & Hres & _). by rewrite Hres.
  - destruct HO as (ids & Hres & _). by rewrite Hres.
  - destruct (lShould lg || nonempty (eShould lg)).
    + destruct HO as (ids & Hres & _). by rewrite Hres.
    + by rewrite HO.
  - destruct HO as (ids & Hres & _). by rewrite Hres.
Qed.

(** * The steps of a call *)
Definition trimmed (L0 D0 : docmap) (T : string → Prop) (live dying : docmap) : Prop :=
  (∀ id, live !! id = L0 !! id ∨ (live !! id = None ∧ T id)) ∧
  (∀ id d, dying !! id = Some d → L0 !! id = Some d ∨ D0 !! id = Some d).
(** The indexer with the documents of the batch still counted as waiting for deletion *)
Definition batch (p : pc) (x : Indexer) (a : list string) : Indexer :=
  match p with RemSort n _ | RemDocsLock n _ | RemDocsRun n _ => setRemoveCache (take n a) x | _ => x end.
Definition pcI (T : string → Prop) (p2 : gset string) (p : pc) (x : Indexer) (a : list string) : Prop :=
  match p with
  | AddLock d _ | AddPush d _ => (∀ e, d = Some e → T (DocId e)) ∧ ∀ e, e ∈ addCache x → T (DocId e)
  | AddTabLock _ | AddScan _ _ _ | AddRemLock _ _ _ | AddRemPush _ _ _ => ∀ e, e ∈ addCache x → T (DocId e)
  | RemLock id _ _ | RemTabLock id _ _ | RemMark id _ _ => id = "0" ∨ (T id ∧ p2 = ∅)
  | RemDocsLock n _ | RemDocsRun n _ => StronglySorted sle (take n a)
  | _ => True
  end.
(** As long as nothing is removed, the accumulated length is the [t0] that it was. *)
Definition sees (L0 D0 : docmap) (T : string → Prop) (t0 : F) (p : pc) (x : Indexer) (a : list string) : Prop :=
  ∃ live dying p2, Core (batch p x a) live dying p2 ∧
    (trimmed L0 D0 T live dying ∧ (live = L0 → D0 = ∅ → totalTokenLen x = t0)) ∧ pcI T p2 p x a.

Lemma trimmed_kill L0 D0 (T : string → Prop) live dying id d : trimmed L0 D0 T live dying → T id → live !! id = Some d →
  trimmed L0 D0 T (delete id live) (<[id := d]> dying).
Proof.
  intros [H1 H2] HT Hd. split.
  - intros i. destruct (decide (i = id)) as [->|Hne].
    + right. by rewrite lookup_delete.
    + rewrite lookup_delete_ne by done. apply H1.
  - intros i e [[-> ->]|[_ He]]%lookup_insert_Some; [|by apply H2]. left. destruct (H1 i) as [E|[E _]]; congruence.
Qed.
Lemma core_perm x c c' live dying p2 : c ≡ₚ c' → Core (setRemoveCache c x) live dying p2 → Core (setRemoveCache c' x) live dying p2.
Proof.
  intros Hp [H1 H2 H3 H4 H5 H6 H7 H8 H9]. split; try done; cbn [setRemoveCache removeCache] in *.
  - by rewrite <- Hp.
  - intros id. by rewrite <- Hp.
Qed.
Lemma core_trans x y live dying p2 : table y = table x → docsState y = docsState x → removeCache y = removeCache x → initOptions y = initOptions x →
  numDocs y = numDocs x → docTokenLens y = docTokenLens x → Core x live dying p2 → Core y live dying p2.
Proof. intros E1 E2 E3 E4 E5 E6 []. split; rewrite ?E1, ?E2, ?E3, ?E4, ?E5, ?E6; done. Qed.

Lemma elem_of_list_insert_inv {A} (l : list A) i (x y : A) : y ∈ <[i := x]> l → y = x ∨ y ∈ l.
Proof.
  intros [j Hj]%elem_of_list_lookup. apply list_lookup_insert_Some in Hj as [(_ & -> & _)|[_ Hj]]; [by left|].
  right. by eapply elem_of_list_lookup_2.
Qed.
(** One document of the scan *)
Lemma scan_core L0 D0 T x pos i x' pos' live dying p2 : scanStep (x, pos) i = Some (x', pos') →
  Core x live dying p2 → trimmed L0 D0 T live dying → (∀ e, e ∈ addCache x → T (DocId e)) →
  ∃ live' dying' p2', Core x' live' dying' p2' ∧ trimmed L0 D0 T live' dying' ∧ (∀ e, e ∈ addCache x' → T (DocId e)) ∧
    live' ⊆ live ∧ totalTokenLen x' = totalTokenLen x.
Proof.
  intros H HC Ht HT. unfold scanStep in H. destruct (addCache x !! i) as [d|] eqn:Ed; [|done]. cbn [mbind option_bind] in H.
  pose proof (HT d (elem_of_list_lookup_2 _ _ _ Ed)) as HTd.
  pose proof (core_state _ _ _ _ HC (DocId d)) as Es. rewrite Es in H. unfold stateOf in H.
  assert (Hswap : ∀ o c1, zget (addCache x) pos = Some o → zset (addCache x) pos d = Some c1 → ∀ e, e ∈ <[i := o]> c1 → T (DocId e)).
  { intros o c1 Ho Hc e He. apply elem_of_list_insert_inv in He as [->|He].
    - apply HT. unfold zget in Ho. destruct (_ <? 0); [done|]. by eapply elem_of_list_lookup_2.
    - unfold zset in Hc. destruct (_ && _); [|done]. injection Hc as <-.
      apply elem_of_list_insert_inv in He as [->|He]; [done|auto]. }
  destruct (live !! DocId d) as [dl|] eqn:El.
  - change (0 <=? 1) with true in H. cbv iota in H.
    destruct (zget (addCache x) pos) as [o|] eqn:Eg; [|done]. cbn [mbind option_bind] in H.
    destruct (zset (addCache x) pos d) as [c1|] eqn:Ez; [|done]. cbn [mbind option_bind] in H.
    change (0 =? 0) with true in H. cbv iota zeta in H.
    destruct (pushRemove (DocId d) (setAddCache (<[i:=o]> c1) x)) as [y|] eqn:Ep; [|done]. cbn [mbind option_bind] in H. injection H as <- <-.
    unfold pushRemove in Ep. destruct (_ <? _); [|done]. injection Ep as <-.
    exists (delete (DocId d) live), (<[DocId d := dl]> dying), p2. split; [|split].
    + eapply core_trans; [..|exact (core_kill x live dying p2 (DocId d) dl HC El)]; done.
    + by apply trimmed_kill.
    + split; [cbn [setState addCache]; by apply (Hswap o c1)|]. split; [apply delete_subseteq|done].
  - destruct (dying !! DocId d) as [dd|] eqn:Edy.
    + change (1 <=? 1) with true in H. cbv iota in H.
      destruct (zget (addCache x) pos) as [o|] eqn:Eg; [|done]. cbn [mbind option_bind] in H.
      destruct (zset (addCache x) pos d) as [c1|] eqn:Ez; [|done]. cbn [mbind option_bind] in H.
      change (1 =? 0) with false in H. cbv iota zeta in H. cbn [mbind option_bind] in H. injection H as <- <-.
      exists live, dying, p2. split; [by apply core_setAddCache|]. split; [done|]. split; [cbn [setAddCache addCache]; by apply (Hswap o c1)|done].
    + destruct (decide (DocId d ∈ p2)) as [Hin|Hnin].
      * change (2 <=? 1) with false in H. cbv iota in H. injection H as <- <-. by exists live, dying, p2.
      * injection H as <- <-. exists live, dying, (p2 ∪ {[DocId d]}). split; [|done].
        pose proof (core_p2 _ _ _ _ HC) as Hcp2. pose proof (core_state _ _ _ _ HC) as Hcst. destruct HC. split; cbn; try done.
        -- intros id. rewrite elem_of_union, elem_of_singleton. intros [?| ->]; [by apply Hcp2|done].
        -- intros id. unfold stateOf in *. destruct (decide (DocId d = id)) as [<-|Hne].
           ++ rewrite lookup_insert, El, Edy. rewrite decide_True by set_solver. done.
           ++ rewrite lookup_insert_ne by done. rewrite Hcst.
              destruct (live !! id); [done|]. destruct (dying !! id); [done|].
              destruct (decide (id ∈ p2)), (decide (id ∈ p2 ∪ {[DocId d]})); try done; set_solver.
        -- lia.
Qed.
Lemma mark_core L0 D0 T x id x' live dying p2 : markRemove id x = Some x' → Core x live dying p2 → trimmed L0 D0 T live dying →
  (id = "0" ∨ (T id ∧ p2 = ∅)) → ∃ live' dying' p2', Core x' live' dying' p2' ∧ trimmed L0 D0 T live' dying' ∧
    live' ⊆ live ∧ totalTokenLen x' = totalTokenLen x.
Proof.
  intros H HC Ht Hid. unfold markRemove in H. destruct (seqb id "0") eqn:E0.
  { injection H as <-. by exists live, dying, p2. }
  apply seqb_neq in E0. destruct Hid as [->|[HT ->]]; [done|].
  rewrite (core_state _ _ _ _ HC) in H. unfold stateOf in H. destruct (live !! id) as [d|] eqn:El.
  - destruct (pushRemove id x) as [y|] eqn:Ep; [|done]. cbn [mbind option_bind] in H. injection H as <-.
    unfold pushRemove in Ep. destruct (_ <? _); [|done]. injection Ep as <-.
    exists (delete id live), (<[id := d]> dying), ∅. split; [|split; [by apply trimmed_kill|split; [apply delete_subseteq|done]]].
    eapply core_trans; [..|exact (core_kill x live dying ∅ id d HC El)]; done.
  - destruct (dying !! id); [injection H as <-; by exists live, dying, ∅|].
    destruct (decide (id ∈ ∅)) as [Hin|]; [set_solver|]. injection H as <-. by exists live, dying, ∅.
Qed.
Lemma still_all L0 D0 T live dying live' : trimmed L0 D0 T live dying → live' ⊆ live → live' = L0 → live = L0.
Proof.
  intros [Ht _] Hs ->. apply map_eq. intros id. destruct (Ht id) as [E|[E _]]; [done|]. rewrite E. symmetry.
  destruct (L0 !! id) eqn:E'; [|done]. rewrite (lookup_weaken _ _ _ _ E' Hs) in E. done.
Qed.

Section Steps.
  Variable log2 : F → F.
  Variable sortDocs : list DocIndex → list DocIndex.

  Lemma sees_tstep L0 D0 T t0 t p s p' s' : tstep log2 sortDocs t p s = Some (p', s') → looking p = false → p' ≠ Idle → p' ≠ Crash →
    (inBatch p = true → removeCache (shIx s) = []) →
    sees L0 D0 T t0 p (shIx s) (shArray s) → sees L0 D0 T t0 p' (shIx s') (shArray s').
  Proof.
    intros H Hl Hi Hc Hb (live & dying & p2 & HC & [Ht Hto] & HI). destruct p; cbn [ModelLocks.tstep] in H; cbv zeta in H; try done;
      repeat match goal with
      | H : Some _ = Some _ |- _ => injection H as <- <-
      | H : None = Some _ |- _ => discriminate H
      | H : match ?x with _ => _ end = Some _ |- _ => destruct x eqn:?
      end; try done; cbn [shIx shSetIx shSetAdd shSetRem shSetTab shSetReaders shAnswer batch pcI] in *.
    - (* AddLock *) exists live, dying, p2. done.
    - (* AddPush, flush *)
      assert (Hpush : (∀ e, e ∈ addCache i → T (DocId e)) ∧ Core i live dying p2 ∧ totalTokenLen i = totalTokenLen (shIx s)).
      { destruct HI as [H1 H2]. unfold pushAdd in Heqo. destruct doc as [d|]; [|injection Heqo as <-; done].
        destruct (_ <? _); [|done]. injection Heqo as <-. split; [|split; [by apply core_setAddCache|done]]. cbn [setAddCache addCache].
        intros e [He|He]%elem_of_app; [auto|]. apply elem_of_list_singleton in He as ->. by apply H1. }
      destruct Hpush as (? & ? & Et). exists live, dying, p2. rewrite Et. done.
    - (* AddTabLock *) exists live, dying, p2. done.
    - (* AddScan: a live one *) exists live, dying, p2. done.
    - destruct (scan_core _ _ _ _ _ _ _ _ _ _ _ Heqo0 HC Ht HI) as (l' & d' & q' & A & B & C & Hsub & Et).
      exists l', d', q'. split; [done|]. split; [|done]. split; [done|]. intros El%(still_all _ _ _ _ _ _ Ht Hsub) ED. cbn. rewrite Et. by apply Hto.
    - (* scan done *) exists live, dying, p2. split; [done|]. split; [done|]. by left.
    - (* AddRemLock *) exists live, dying, p2. done.
    - destruct (scan_core _ _ _ _ _ _ _ _ _ _ _ Heqo HC Ht HI) as (l' & d' & q' & A & B & C & Hsub & Et).
      exists l', d', q'. split; [done|]. split; [|done]. split; [done|]. intros El%(still_all _ _ _ _ _ _ Ht Hsub) ED. cbn. rewrite Et. by apply Hto.
    - (* RemLock *) exists live, dying, p2. by destruct (seqb docId "0").
    - (* RemTabLock *) exists live, dying, p2. done.
    - (* RemMark *) destruct (mark_core _ _ _ _ _ _ _ _ _ Heqo HC Ht HI) as (l' & d' & q' & A & B & Hsub & Et).
      exists l', d', q'. split; [done|]. split; [|done]. split; [done|]. intros El%(still_all _ _ _ _ _ _ Ht Hsub) ED. cbn. rewrite Et. by apply Hto.
    - (* RemTake, flush *) exists live, dying, p2. split; [|done]. cbn [shTaken shIx].
      change (shArray (shSetRem None (shTaken s))) with (shArray s). unfold shArray. cbn [batch]. rewrite take_app.
      eapply core_trans; [..|exact HC]; done.
    - (* RemTake *) exists live, dying, p2. by destruct k.
    - (* RemSort *)
      specialize (Hb eq_refl). match goal with |- context [shSetArray ?l s] => set (arr := l) end.
      assert (shSetArray arr s = mkShard (shIx s) arr (shAdd s) (shRem s) (shTab s) (shReaders s) (shLog s)) as ->.
      { assert (setRemoveCache [] (shIx s) = shIx s) as E by (rewrite <- Hb; apply setRemoveCache_id).
        unfold shSetArray. cbv zeta. rewrite Hb. cbn [length]. rewrite drop_0. change (take 0 arr) with (@nil string). by rewrite E. }
      cbn [shIx].
      assert (Earr : take n (shArray (mkShard (shIx s) arr (shAdd s) (shRem s) (shTab s) (shReaders s) (shLog s))) = sortIds (take n (shArray s))).
      { unfold shArray at 1. cbn [shIx shStale]. rewrite Hb. cbn [app]. subst arr. unfold sortIds.
        destruct (decide (n <= length (shArray s))%nat) as [Hle|Hle].
        + rewrite take_app_alt; [done|]. rewrite merge_sort_Permutation, take_length. lia.
        + rewrite (drop_ge _ n), app_nil_r by lia. rewrite take_ge; [done|]. rewrite merge_sort_Permutation, take_length. lia. }
      exists live, dying, p2. cbn [batch pcI]. rewrite Earr. split; [|split; [done|apply sortIds_sorted]].
      eapply core_perm; [|exact HC]. symmetry. apply sortIds_perm.
    - (* RemDocsLock *) exists live, dying, p2. done.
    - (* RemDocsRun *)
      specialize (Hb eq_refl).
      destruct (RemoveDocs_core (take n (shArray s)) _ live dying p2 HC HI) as (y & Hy & HC' & _ & _ & _).
      { intros id. apply (core_rc _ _ _ _ HC). }
      assert (setRemoveCache [] (setRemoveCache (take n (shArray s)) (shIx s)) = shIx s) as E.
      { rewrite <- (setRemoveCache_id (shIx s)) at 2. by rewrite Hb. }
      rewrite E, Heqo in Hy. injection Hy as ->. exists live, ∅, p2.
      assert (Htot : live = L0 → D0 = ∅ → totalTokenLen y = t0).
      { intros El ED. rewrite <- (Hto El ED). destruct (take n (shArray s)) as [|id l] eqn:En.
        - unfold RemoveDocs in Heqo. cbv zeta in Heqo. destruct (decide _); [|done]. by injection Heqo as <-.
        - exfalso. assert (Hid : id ∈ removeCache (setRemoveCache (id :: l) (shIx s))) by (by left).
          apply (core_rc _ _ _ _ HC) in Hid as [d Hd]. destruct (proj2 Ht id d Hd) as [Hd'|Hd']; [|by rewrite ED, lookup_empty in Hd'].
          rewrite <- El in Hd'. by eapply map_disjoint_spec; [apply HC|exact Hd'|exact Hd]. }
      destruct Ht as [Ht1 _]. by destruct k.
    - (* AddTake *) exists live, dying, p2. split; [|done]. by apply core_setAddCache.
    - (* AddDocsLock *) exists live, dying, p2. done.
  Qed.
End Steps.
