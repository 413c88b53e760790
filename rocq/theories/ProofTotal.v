(** The accumulated token length (C20). *)
From Verif Require Import ModelLookup SpecIndexer SpecLogic SpecTotal ProofTable ProofIndexer ProofCache
  ProofHistory ProofIxMap ProofLogicThms ProofFloat.

Global Instance sf_eq_dec : EqDecision SpecFloat.spec_float.
Proof. solve_decision. Defined.
Global Instance kw_eq_dec : EqDecision KeywordIndex.
Proof. solve_decision. Defined.
Global Instance doc_eq_dec : EqDecision DocIndex.
Proof. solve_decision. Defined.

Notation lens := (gmap string Z).
Definition sumZ (f : lens) : Z := map_fold (λ _ n a, n + a) 0 f.

Lemma sumZ_insert f id n : f !! id = None → sumZ (<[id := n]> f) = n + sumZ f.
Proof. intros H. unfold sumZ. rewrite map_fold_insert_L; [done|intros; lia|done]. Qed.

Lemma sumZ_delete f id n : f !! id = Some n → sumZ f = n + sumZ (delete id f).
Proof. intros H. rewrite <- (sumZ_insert _ id) by apply lookup_delete. by rewrite insert_delete. Qed.

Definition posf (f : lens) : Prop := ∀ id n, f !! id = Some n → 0 < n < 2 ^ 24.

Lemma sumZ_nonneg f : posf f → 0 <= sumZ f.
Proof.
  induction f as [|id n f Hn IH] using map_ind; intros Hp; [done|]. rewrite sumZ_insert by done.
  assert (posf f) as Hf.
  { intros i m Hm. apply (Hp i). rewrite lookup_insert_ne; [done|]. by intros ->; congruence. }
  specialize (IH Hf). assert (0 < n < 2 ^ 24) by (apply (Hp id); apply lookup_insert). lia.
Qed.

(** Weak form: exact as long as the sum is small. *)
Record WTL (s : Indexer) (f : lens) : Prop := {
  wtl_lens : ∀ id, docTokenLens s !! id = f32_of_Z <$> f !! id;
  wtl_pos : posf f;
  wtl_total : sumZ f < 2 ^ 24 → totalTokenLen s = f32_of_Z (sumZ f) }.

Lemma WTL_same s s' f : docTokenLens s' = docTokenLens s → totalTokenLen s' = totalTokenLen s →
  WTL s f → WTL s' f.
Proof. intros Hl Ht [H1 H2 H3]. split; [by rewrite Hl|done|by rewrite Ht]. Qed.

Lemma posf_delete f id : posf f → posf (delete id f).
Proof. intros H i n [_ Hn]%lookup_delete_Some. by eapply H. Qed.

(** * Removing *)

Lemma removeStates_WTL docs : ∀ s f, WTL s f → sumZ f < 2 ^ 24 →
  ∃ f', WTL (removeStates docs s) f' ∧ sumZ f' < 2 ^ 24.
Proof.
  induction docs as [|id docs IH]; intros s f HW Hs; [by exists f|].
  unfold removeStates. simpl. fold (removeStates docs).
  destruct HW as [H1 H2 H3]. specialize (H3 Hs).
  apply (IH _ (delete id f)).
  - split; simpl.
    + intros i. destruct (decide (i = id)) as [->|Hne]; [by rewrite !lookup_delete|].
      rewrite !lookup_delete_ne by done. apply H1.
    + by apply posf_delete.
    + intros _. rewrite H1, H3. destruct (f !! id) as [n|] eqn:E; simpl.
      * rewrite (sumZ_delete _ _ _ E) in *. pose proof (sumZ_nonneg _ (posf_delete _ id H2)).
        specialize (H2 _ _ E). rewrite f32_sub_exact by lia. f_equal. lia.
      * rewrite (delete_notin _ _ E). change f_zero with (f32_of_Z 0).
        pose proof (sumZ_nonneg _ H2). rewrite f32_sub_exact by lia. f_equal. lia.
  - destruct (f !! id) as [n|] eqn:E.
    + rewrite (sumZ_delete _ _ _ E) in Hs. specialize (H2 _ _ E). lia.
    + by rewrite (delete_notin _ _ E).
Qed.

Lemma RemoveDocs_total docs s s' : RemoveDocs docs s = Some s' →
  docTokenLens s' = docTokenLens (removeStates docs s) ∧ totalTokenLen s' = totalTokenLen (removeStates docs s).
Proof. unfold RemoveDocs. destruct (decide _); [|done]. by intros [= <-]. Qed.

Lemma pushRemove_total id s s' : pushRemove id s = Some s' →
  docTokenLens s' = docTokenLens s ∧ totalTokenLen s' = totalTokenLen s.
Proof. unfold pushRemove. destruct (_ <? _); [|done]. by intros [= <-]. Qed.

Lemma markRemove_total id s s' : markRemove id s = Some s' →
  docTokenLens s' = docTokenLens s ∧ totalTokenLen s' = totalTokenLen s.
Proof.
  unfold markRemove. destruct (seqb id "0"); [by intros [= <-]|].
  destruct (docsState s !! id) as [z|]; [|by intros [= <-]].
  destruct z as [|[p|p|]|p]; try (by intros [= <-]).
  - destruct (pushRemove id s) as [s1|] eqn:E; [|done]. rewrite bind_Some_eq. intros [= <-].
    simpl. by apply pushRemove_total in E.
  - destruct p; by intros [= <-].
Qed.

Lemma RemoveDocToCache_WTL id force s s' b f : RemoveDocToCache id force s = Some (s', b) →
  WTL s f → sumZ f < 2 ^ 24 → ∃ f', WTL s' f' ∧ sumZ f' < 2 ^ 24.
Proof.
  unfold RemoveDocToCache. destruct (markRemove id s) as [s1|] eqn:E; [|done].
  rewrite bind_Some_eq. apply markRemove_total in E as [E1 E2]. cbv zeta.
  intros HR HW Hs. pose proof (WTL_same _ _ _ E1 E2 HW) as HW1.
  destruct (_ && _).
  - destruct (RemoveDocs _ _) as [s2|] eqn:E3; [|done]. rewrite bind_Some_eq in HR. injection HR as <- _.
    apply RemoveDocs_total in E3 as [E3 E4].
    destruct (removeStates_WTL (sortIds (removeCache s1)) (setRemoveCache [] s1) f) as (f' & HW' & Hs');
      [by eapply (WTL_same s1)|done|].
    exists f'. split; [|done]. by eapply WTL_same.
  - injection HR as <- _. by exists f.
Qed.

(** * The scan *)

Lemma scanStep_total st i st' : scanStep st i = Some st' →
  docTokenLens st'.1 = docTokenLens st.1 ∧ totalTokenLen st'.1 = totalTokenLen st.1.
Proof.
  unfold scanStep. destruct st as [s pos]. destruct (addCache s !! i) as [d|]; [|done].
  rewrite bind_Some_eq. destruct (docsState s !! DocId d) as [z|]; [|by intros [= <-]].
  destruct (z <=? 1); [|by intros [= <-]].
  destruct (zget (addCache s) pos); [|done]. rewrite bind_Some_eq.
  destruct (zset (addCache s) pos d); [|done]. rewrite bind_Some_eq. cbv zeta.
  destruct (z =? 0).
  - destruct (pushRemove _ _) as [s1|] eqn:E; [|done]. rewrite !bind_Some_eq. intros [= <-].
    apply pushRemove_total in E. simpl in *. done.
  - rewrite bind_Some_eq. by intros [= <-].
Qed.

Lemma scan_total l : ∀ st st', foldlM scanStep l st = Some st' →
  docTokenLens st'.1 = docTokenLens st.1 ∧ totalTokenLen st'.1 = totalTokenLen st.1.
Proof.
  induction l as [|i l IH]; intros st st' H; [by injection H as <-|].
  cbn [foldlM] in H. destruct (scanStep st i) as [st1|] eqn:E; [|done]. rewrite bind_Some_eq in H.
  apply IH in H as [-> ->]. by apply scanStep_total in E.
Qed.

(** * Adding *)

Lemma sorted_head_eq d docs d' :
  StronglySorted doc_le (d :: docs) → d' ∈ docs → DocId d' = DocId d →
  ∃ d1, head docs = Some d1 ∧ DocId d1 = DocId d.
Proof.
  intros Hs Hin Heq. inversion Hs as [|? ? Hss Hall]; subst.
  destruct docs as [|d1 docs]; [by apply elem_of_nil in Hin|]. exists d1. split; [done|].
  apply elem_of_cons in Hin as [->|Hin]; [done|].
  inversion Hss as [|? ? _ Hall1]; subst.
  rewrite Forall_forall in Hall, Hall1. specialize (Hall d1 (elem_of_list_here _ _)). specialize (Hall1 d' Hin).
  unfold doc_le in *. rewrite Heq in Hall1. by apply (anti_symm sle).
Qed.

Lemma addDocsLoop_WTL zl docs : ∀ s ptrs f s' ptrs',
  addDocsLoop docs (s, ptrs) = Some (s', ptrs') →
  StronglySorted doc_le docs →
  (∀ d, d ∈ docs → docTokenLens s !! DocId d = None) →
  (∀ d, d ∈ docs → TokenLen d = f32_of_Z (zl d) ∧ 0 <= zl d < 2 ^ 24) →
  WTL s f → ∃ f', WTL s' f'.
Proof.
  induction docs as [|d docs IH]; intros s ptrs f s' ptrs' Hrun Hs Hfresh Hlen HW.
  { injection Hrun as <- <-. by exists f. }
  cbn [addDocsLoop] in Hrun. destruct (addOneDoc d (head docs) (s, ptrs)) as [[s1 ptrs1]|] eqn:E; [|done].
  rewrite bind_Some_eq in Hrun.
  assert (Hskip : s1 = s → ∃ f', WTL s' f').
  { intros ->. eapply IH; [exact Hrun|by inversion Hs|..|exact HW].
    - intros d' Hd'. apply Hfresh. by right.
    - intros d' Hd'. apply Hlen. by right. }
  unfold addOneDoc in E.
  destruct (match head docs with Some d0 => seqb (DocId d) (DocId d0) | None => false end) eqn:Enext.
  { injection E as <- <-. by apply Hskip. }
  destruct (match docsState s !! DocId d with Some z => z =? 1 | None => false end).
  { injection E as <- <-. by apply Hskip. }
  cbv zeta in E. destruct (foldlM _ _ _) as [[T p1]|]; [|done]. rewrite bind_Some_eq in E. injection E as <- <-.
  destruct (Hlen d (elem_of_list_here _ _)) as [Hd Hn]. rewrite Hd, f32_eqb_zero in Hrun by done.
  destruct HW as [H1 H2 H3]. destruct (Z.eqb_spec (zl d) 0) as [Hz|Hz]; cbn [negb] in Hrun.
  - eapply (IH _ _ f); [exact Hrun|by inversion Hs|..].
    + intros d' Hd'. simpl. apply Hfresh. by right.
    + intros d' Hd'. apply Hlen. by right.
    + by split.
  - assert (f !! DocId d = None) as Hfd.
    { specialize (Hfresh d (elem_of_list_here _ _)). rewrite H1 in Hfresh. by destruct (f !! DocId d). }
    eapply (IH _ _ (<[DocId d := zl d]> f)); [exact Hrun|by inversion Hs|..].
    + intros d' Hd'. simpl. rewrite lookup_insert_ne; [apply Hfresh; by right|].
      intros Heq. destruct (sorted_head_eq d docs d') as (d1 & Hh & Hd1); [done|done|done|].
      rewrite Hh, Hd1, seqb_refl in Enext. done.
    + intros d' Hd'. apply Hlen. by right.
    + split; simpl.
      * intros i. destruct (decide (i = DocId d)) as [->|Hne]; [by rewrite !lookup_insert|].
        rewrite !lookup_insert_ne by done. apply H1.
      * intros i n [[<- <-]|[_ Hi]]%lookup_insert_Some; [lia|by eapply H2].
      * rewrite sumZ_insert by done. pose proof (sumZ_nonneg _ H2). intros Hlt.
        rewrite H3 by lia. rewrite f32_add_exact by lia. f_equal. lia.
Qed.

Lemma AddDocs_WTL zl docs s f s' :
  AddDocs docs s = Some s' → StronglySorted doc_le docs →
  (∀ d, d ∈ docs → docTokenLens s !! DocId d = None) →
  (∀ d, d ∈ docs → TokenLen d = f32_of_Z (zl d) ∧ 0 <= zl d < 2 ^ 24) →
  WTL s f → ∃ f', WTL s' f'.
Proof.
  unfold AddDocs. destruct (addDocsLoop docs (s, ∅)) as [[s1 p]|] eqn:E; [|done]. rewrite bind_Some_eq.
  intros [= <-]. by eapply addDocsLoop_WTL.
Qed.

Lemma core_no_len s live dying p2 id : Core s live dying p2 → live !! id = None → dying !! id = None →
  docTokenLens s !! id = None.
Proof.
  intros HC Hl Hd. rewrite (core_lens _ _ _ _ HC). by rewrite (proj2 (lookup_union_None _ _ _)).
Qed.

Section Step.
  Context (sortDocs : list DocIndex → list DocIndex) (Hsort : valid_sort sortDocs) (zl : DocIndex → Z).

  Lemma AddDocToCache_WTL doc force s s' live dying f :
    Inv s live dying →
    (∀ d, d ∈ waiting doc s → TokenLen d = f32_of_Z (zl d) ∧ 0 <= zl d < 2 ^ 24) →
    AddDocToCache sortDocs doc force s = Some s' →
    WTL s f → sumZ f < 2 ^ 24 → ∃ f', WTL s' f'.
  Proof.
    intros HI HWl Hrun HW Hs. destruct HI as [HC Hcap Hrc Hac Hw].
    assert (Hdoc : match doc with Some _ => zlen (addCache s) < cap s | None => True end).
    { destruct doc as [d|]; [|done]. destruct (Z.lt_ge_cases (zlen (addCache s)) (cap s)); [done|].
      by rewrite AddDocToCache_full in Hrun. }
    set (W := waiting doc s) in *.
    unfold AddDocToCache in Hrun. rewrite pushAdd_ok in Hrun by done.
    rewrite bind_Some_eq in Hrun. cbv zeta in Hrun. fold W in Hrun. set (s1 := setAddCache W s) in *.
    assert (HW1 : WTL s1 f) by (by eapply (WTL_same s)).
    change (DocCacheSize (initOptions s1)) with (cap s) in Hrun. simpl (addCache s1) in Hrun.
    assert (HWlen : zlen W <= cap s).
    { subst W. unfold waiting. rewrite zlen_app. destruct doc.
      - rewrite zlen_cons, zlen_nil. lia.
      - rewrite zlen_nil. lia. }
    destruct ((cap s <=? zlen W) || force) eqn:EF; cycle 1.
    { injection Hrun as <-. by exists f. }
    destruct (scan_spec W [] [] s1 live dying ∅)
      as (s2 & kept & other & p2 & Hscan & Hc2 & Hperm & Ho2 & HC2 & Hk & Ho & Hp2).
    { done. }
    { by apply core_setAddCache. }
    { intros d Hd. by apply elem_of_nil in Hd. }
    { intros d Hd. by apply elem_of_nil in Hd. }
    { simpl. unfold cap in *. simpl. lia. }
    cbn [length Nat.add] in Hscan. rewrite zlen_nil in Hscan. rewrite Hscan, bind_Some_eq in Hrun.
    simpl app in Hperm. apply scan_total in Hscan as [Hl2 Ht2]. simpl in Hl2, Ht2.
    assert (HW2 : WTL s2 f) by (by eapply (WTL_same s1)).
    destruct (RemoveDocToCache_flush s2 (live1 W live) (dying1 W live dying) p2 force)
      as (s3 & b & Hrm & Hb & HC3 & Hc3 & Ho3); [done|]. rewrite Hrm, bind_Some_eq in Hrun. cbv zeta in Hrun.
    destruct (RemoveDocToCache_WTL _ _ _ _ _ _ Hrm HW2 Hs) as (f3 & HW3 & Hs3).
    rewrite Hc3, Hc2 in Hrun.
    destruct (zslice (kept ++ other) (if b then 0 else zlen kept) (zlen (kept ++ other))) as [l|] eqn:El; [|done].
    rewrite bind_Some_eq in Hrun. destruct (zslice _ 0 _) as [c|]; [|done]. rewrite bind_Some_eq in Hrun.
    assert (Hl : ∀ d, d ∈ l → d ∈ W ∧ live1 W live !! DocId d = None ∧ (if b then ∅ else dying1 W live dying) !! DocId d = None).
    { pose proof (zlen_nonneg kept). pose proof (zlen_nonneg other). intros d Hd. destruct b.
      - rewrite (zslice_ok _ 0 (zlen (kept ++ other))) in El by (rewrite ?zlen_app; lia). injection El as <-.
        change (Z.to_nat 0) with 0%nat in Hd. rewrite drop_0 in Hd. rewrite take_ge in Hd by (unfold zlen; lia).
        rewrite Hperm in Hd. split; [done|]. split; [|done]. rewrite live1_lookup, decide_True; [done|].
        unfold ids. by apply elem_of_list_fmap_1.
      - rewrite (zslice_ok _ (zlen kept) (zlen (kept ++ other))) in El by (rewrite ?zlen_app; lia). injection El as <-.
        replace (Z.to_nat (zlen kept)) with (length kept) in Hd by (unfold zlen; lia).
        rewrite drop_app in Hd. rewrite take_ge in Hd by (rewrite zlen_app; unfold zlen; lia).
        split; [rewrite <- Hperm; apply elem_of_app; by right|]. apply (core_p2 _ _ _ _ HC2). by apply Ho. }
    destruct (Hsort l) as [Hsp Hss].
    eapply (AddDocs_WTL zl _ (setAddCache c s3) f3); [exact Hrun|done|..].
    - intros d Hd. rewrite Hsp in Hd. destruct (Hl d Hd) as (_ & Hd1 & Hd2). simpl. by eapply core_no_len.
    - intros d Hd. rewrite Hsp in Hd. apply HWl. by apply Hl.
    - by eapply (WTL_same s3).
  Qed.

  Lemma step_WTL o s s' live dying f :
    Inv s live dying →
    (∀ d, d ∈ addCache s ∨ (∃ force, o = OpAdd (Some d) force) → TokenLen d = f32_of_Z (zl d) ∧ 0 <= zl d < 2 ^ 24) →
    step sortDocs s o = Some s' → WTL s f → sumZ f < 2 ^ 24 → ∃ f', WTL s' f'.
  Proof.
    intros HI Hl Hstep HW Hs. destruct o as [doc force|id force]; simpl in Hstep.
    - eapply AddDocToCache_WTL; [exact HI| |exact Hstep|exact HW|exact Hs].
      intros d [Hd|Hd]%elem_of_app; apply Hl; [by left|]. right. destruct doc as [d'|]; [|by apply elem_of_nil in Hd].
      apply elem_of_list_singleton in Hd as ->. by exists force.
    - destruct (RemoveDocToCache id force s) as [[s1 b]|] eqn:E; [|done]. rewrite bind_Some_eq in Hstep. injection Hstep as <-.
      destruct (RemoveDocToCache_WTL _ _ _ _ _ _ E HW Hs) as (f' & HW' & _). by exists f'.
  Qed.
End Step.

(** * From the recorded lengths to the documents *)

Definition lensOf (zl : DocIndex → Z) (D : docmap) : lens :=
  omap (λ d, if zl d =? 0 then None else Some (zl d)) D.

Lemma sumZ_lensOf zl D : sumZ (lensOf zl D) = sum_len zl D.
Proof.
  induction D as [|id d D Hd IH] using map_ind; [done|].
  unfold sum_len. rewrite map_fold_insert_L by (done || intros; lia). fold (sum_len zl D). rewrite <- IH.
  unfold lensOf. destruct (Z.eqb_spec (zl d) 0) as [Hz|Hz].
  - rewrite omap_insert_None by (by rewrite Hz). rewrite delete_notin by (by rewrite lookup_omap, Hd). lia.
  - erewrite omap_insert_Some by (destruct (Z.eqb_spec (zl d) 0); done). rewrite sumZ_insert; [done|].
    by rewrite lookup_omap, Hd.
Qed.

Definition small (zl : DocIndex → Z) (D : docmap) : Prop := ∀ id d, D !! id = Some d → 0 <= zl d < 2 ^ 24.

Lemma WTL_measures zl s f D : WTL s f → small zl D →
  measures zl s D → f = lensOf zl D.
Proof.
  intros HW Hsm Hm. apply map_eq. intros id. unfold lensOf. rewrite lookup_omap.
  specialize (Hm id). rewrite (wtl_lens _ _ HW) in Hm.
  assert (Hfb : ∀ n, f !! id = Some n → 0 <= n < 2 ^ 24).
  { intros n Hn. pose proof (wtl_pos _ _ HW _ _ Hn). lia. }
  destruct (D !! id) as [d|] eqn:E; simpl.
  - specialize (Hsm _ _ E). destruct (Z.eqb_spec (zl d) 0).
    + by destruct (f !! id).
    + destruct (f !! id) as [n0|]; [|done]. simpl in Hm. injection Hm as Hm. f_equal.
      apply f32_of_Z_inj; [by apply Hfb|done|done].
  - by destruct (f !! id).
Qed.

Definition int_lens (zl : DocIndex → Z) (ops : list op) : Prop :=
  ∀ d, added d ops → TokenLen d = f32_of_Z (zl d) ∧ 0 <= zl d < 2 ^ 24.

Lemma inv_measures zl s live dying ops : Inv s live dying → int_lens zl ops →
  (∀ d, allDocs s live dying d → added d ops) →
  measures zl s (live ∪ dying) ∧ drawn ops (live ∪ dying) ∧ small zl (live ∪ dying).
Proof.
  intros HI Hz Ha. pose proof (inv_core _ _ _ HI) as HC.
  assert (Hdr : ∀ id d, (live ∪ dying) !! id = Some d → added d ops).
  { intros id d Hd. apply Ha. right. apply lookup_union_Some_raw in Hd as [?|[_ ?]]; [left|right]; by exists id. }
  split; [|split].
  - intros id. rewrite (core_lens _ _ _ _ HC). destruct ((live ∪ dying) !! id) as [d|] eqn:E; [|done].
    rewrite bind_Some_eq. destruct (Hz d) as [-> Hb]; [by eapply Hdr|]. by rewrite f32_eqb_zero.
  - intros id d Hd. split; [by eapply Hdr|]. by apply (core_ids _ _ _ _ HC) in Hd as [? _].
  - intros id d Hd. apply Hz. by eapply Hdr.
Qed.

Lemma inv_content s live dying : Inv s live dying → content s live (live ∪ dying).
Proof.
  intros HI. split; [by eapply inv_shows|]. split; [apply map_union_subseteq_l|]. split; [by apply inv_indexes|].
  intros id. rewrite union_is_Some, (inv_hasdoc _ _ _ _ HI).
  by rewrite (core_rc _ _ _ _ (inv_core _ _ _ HI)).
Qed.

Lemma reach_snoc sortDocs o ops op s : reach sortDocs o (ops ++ [op]) s →
  ∃ s1, reach sortDocs o ops s1 ∧ step sortDocs s1 op = Some s ∧ good_op op.
Proof.
  intros (Hsort & Hg & s0 & Hi & Hrun). apply Forall_app in Hg as [Hg Hg1]. rewrite run_app in Hrun.
  destruct (run sortDocs ops s0) as [s1|] eqn:E; [|done]. exists s1.
  split; [split; [done|split; [done|by exists s0]]|]. split; [|by inversion Hg1].
  unfold run in Hrun. simpl in Hrun. by destruct (step sortDocs s1 op).
Qed.

Definition bounded (zl : DocIndex → Z) sortDocs o (ops : list op) : Prop :=
  ∀ ops1 s1 M D, ops1 `prefix_of` ops → reach sortDocs o ops1 s1 →
    content s1 M D → drawn ops1 D → measures zl s1 D → sum_len zl D < 2 ^ 24.

Lemma total_lem sortDocs o zl ops : ∀ s, reach sortDocs o ops s → int_lens zl ops →
  bounded zl sortDocs o ops →
  ∃ M D, content s M D ∧ drawn ops D ∧ measures zl s D ∧ small zl D ∧ WTL s (lensOf zl D) ∧
    sum_len zl D < 2 ^ 24.
Proof.
  induction ops as [|op ops IH] using rev_ind; intros s HR Hz Hb.
  - destruct (reach_inv _ _ _ _ HR) as (live & dying & HI & _ & Ha).
    destruct (inv_measures zl s live dying [] HI Hz Ha) as (Hm & Hd & Hs).
    exists live, (live ∪ dying). pose proof (inv_content _ _ _ HI) as HC.
    assert (sum_len zl (live ∪ dying) < 2 ^ 24) by (by eapply (Hb [] s live)).
    split; [done|]. split; [done|]. split; [done|]. split; [done|]. split; [|done].
    destruct HR as (_ & _ & s0 & Hi & Hrun). injection Hrun as <-.
    assert (HW : WTL s0 ∅).
    { unfold Init in Hi. destruct (_ <? _); [done|]. injection Hi as <-. split; [done|by intros ? ? ?|done]. }
    by rewrite <- (WTL_measures zl s0 ∅ _ HW Hs Hm).
  - destruct (reach_snoc _ _ _ _ _ HR) as (s1 & HR1 & Hstep & Hg).
    assert (Hz1 : int_lens zl ops).
    { intros d [f Hf]. apply Hz. exists f. apply elem_of_app. by left. }
    destruct (IH s1 HR1 Hz1) as (M1 & D1 & HC1 & Hd1 & Hm1 & Hs1 & HW1 & Hlt1).
    { intros ops1 s2 M D Hp. apply Hb. by apply prefix_app_r. }
    destruct (reach_inv _ _ _ _ HR1) as (live1 & dying1 & HI1 & _ & Ha1).
    assert (Hsort : valid_sort sortDocs) by apply HR1.
    destruct (step_WTL sortDocs Hsort zl op s1 s live1 dying1 (lensOf zl D1)) as (f & HW).
    { done. }
    { intros d [Hd|[force ->]]; apply Hz.
      - destruct (Ha1 d) as [f Hf]; [by left|]. exists f. apply elem_of_app. by left.
      - exists force. apply elem_of_app. right. left. }
    { done. } { done. } { by rewrite sumZ_lensOf. }
    destruct (reach_inv _ _ _ _ HR) as (live & dying & HI & _ & Ha).
    destruct (inv_measures zl s live dying _ HI Hz Ha) as (Hm & Hd & Hs).
    exists live, (live ∪ dying). pose proof (inv_content _ _ _ HI) as HC.
    assert (sum_len zl (live ∪ dying) < 2 ^ 24) by (by eapply (Hb (ops ++ [op]) s live)).
    split; [done|]. split; [done|]. split; [done|]. split; [done|]. split; [|done].
    by rewrite <- (WTL_measures zl s f _ HW Hs Hm).
Qed.

Lemma C20_lem sortDocs o zl ops s : reach sortDocs o ops s →
  (∀ d, added d ops → TokenLen d = f32_of_Z (zl d) ∧ 0 <= zl d < 2 ^ 24) →
  (∀ ops1 s1 M D, ops1 `prefix_of` ops → reach sortDocs o ops1 s1 →
    content s1 M D → drawn ops1 D → measures zl s1 D → sum_len zl D < 2 ^ 24) →
  ∃ M D, content s M D ∧ drawn ops D ∧ totalTokenLen s = f32_of_Z (sum_len zl D).
Proof.
  intros HR Hz Hb. destruct (total_lem _ _ zl _ _ HR Hz Hb) as (M & D & HC & Hd & _ & _ & HW & Hlt).
  exists M, D. split; [done|]. split; [done|]. rewrite <- sumZ_lensOf. apply (wtl_total _ _ HW).
  by rewrite sumZ_lensOf.
Qed.

(** Two maps measured by the same state have the same sum. *)
Lemma measures_sum zl s D1 D2 : small zl D1 → small zl D2 → measures zl s D1 → measures zl s D2 →
  sum_len zl D1 = sum_len zl D2.
Proof.
  intros H1 H2 M1 M2. rewrite <- !sumZ_lensOf. f_equal. apply map_eq. intros id. unfold lensOf. rewrite !lookup_omap.
  specialize (M1 id). specialize (M2 id). rewrite M1 in M2.
  destruct (D1 !! id) as [d1|] eqn:E1, (D2 !! id) as [d2|] eqn:E2; simpl; [|..|done].
  - specialize (H1 _ _ E1). specialize (H2 _ _ E2).
    destruct (zl d1 =? 0), (zl d2 =? 0); try done. injection M2 as M2. f_equal. by apply f32_of_Z_inj.
  - by destruct (zl d1 =? 0).
  - by destruct (zl d2 =? 0).
Qed.

Lemma C20_forced_lem sortDocs o s0 zl ops :
  valid_sort sortDocs → Init o = Some s0 → Forall good_op ops → Forall forced ops →
  (∀ d, added d ops → TokenLen d = f32_of_Z (zl d) ∧ 0 <= zl d < 2 ^ 24) →
  (∀ ops1, ops1 `prefix_of` ops → sum_len zl (mapOf ops1) < 2 ^ 24) →
  ∃ s, run sortDocs ops s0 = Some s ∧ shows s (mapOf ops) ∧ totalTokenLen s = f32_of_Z (sum_len zl (mapOf ops)).
Proof.
  intros Hsort Hi Hg Hf Hz Hb. destruct (Init_inv o s0 Hi) as [HI Hc].
  assert (Hpre : ∀ ops1 s1, ops1 `prefix_of` ops → reach sortDocs o ops1 s1 →
    Inv s1 (mapOf ops1) ∅ ∧ measures zl s1 (mapOf ops1) ∧ small zl (mapOf ops1)).
  { intros ops1 s1 Hp HR. destruct Hp as [ops2 ->]. apply Forall_app in Hg as [Hg1 _]. apply Forall_app in Hf as [Hf1 _].
    destruct (forced_run sortDocs Hsort ops1 s0 ∅) as (s & Hrun & HI' & Hc'); [done..|].
    destruct HR as (_ & _ & s0' & Hi' & Hrun'). rewrite Hi in Hi'. injection Hi' as <-. rewrite Hrun in Hrun'. injection Hrun' as <-.
    fold (mapOf ops1) in HI'. split; [done|].
    assert (Hdr : ∀ d, allDocs s (mapOf ops1) ∅ d → added d ops1).
    { intros d [Hd|[[i Hd]|[i Hd]]].
      - rewrite Hc' in Hd. by apply elem_of_nil in Hd.
      - clear -Hd. unfold mapOf in Hd. revert i Hd. induction ops1 as [|op ops1 IH] using rev_ind; intros i Hd; [done|].
        rewrite foldl_app in Hd. simpl in Hd.
        assert (HIH : ∀ i, foldl mapStep ∅ ops1 !! i = Some d → added d (ops1 ++ [op])).
        { intros j Hj. destruct (IH j Hj) as [f Hf]. exists f. apply elem_of_app. by left. }
        destruct op as [[d'|] f|id f]; simpl in Hd.
        + apply lookup_insert_Some in Hd as [[_ <-]|[_ Hd]]; [|by eapply HIH]. exists f. apply elem_of_app. right. left.
        + by eapply HIH.
        + apply lookup_delete_Some in Hd as [_ Hd]. by eapply HIH.
      - done. }
    destruct (inv_measures zl s (mapOf ops1) ∅ ops1 HI') as (Hm & _ & Hs).
    { intros d [f Hd]. apply Hz. exists f. apply elem_of_app. by left. }
    { done. }
    rewrite (right_id_L ∅ (∪) (mapOf ops1)) in Hm, Hs. done. }
  destruct (forced_run sortDocs Hsort ops s0 ∅) as (s & Hrun & HI' & Hc'); [done..|].
  assert (HR : reach sortDocs o ops s) by (split; [done|split; [done|by exists s0]]).
  exists s. split; [done|]. split; [by eapply inv_shows|].
  destruct (total_lem sortDocs o zl ops s HR) as (M & D & HC & Hd & Hm & Hs & HW & Hlt); [done| |].
  { intros ops1 s1 M D Hp HR1 HC Hd Hm. destruct (Hpre _ _ Hp HR1) as (_ & Hm1 & Hs1).
    rewrite (measures_sum zl s1 D (mapOf ops1)); [by apply Hb| |done|done|done].
    intros id d Hid. destruct Hp as [ops2 ->]. destruct (Hd _ _ Hid) as [[f Hin] _]. apply Hz. exists f. apply elem_of_app. by left. }
  destruct (Hpre ops s) as (_ & Hm1 & Hs1); [done|done|].
  rewrite <- (measures_sum zl s D (mapOf ops)) by done. rewrite <- sumZ_lensOf. apply (wtl_total _ _ HW). by rewrite sumZ_lensOf.
Qed.

Lemma sum_len_insert zl D id d : D !! id = None → sum_len zl (<[id := d]> D) = zl d + sum_len zl D.
Proof. intros H. unfold sum_len. rewrite map_fold_insert_L; [done|intros; lia|done]. Qed.

Lemma drawn_sum zl ops : ∀ D, (∀ d, added d ops → 0 <= zl d) → drawn ops D → sum_len zl D <= added_len zl ops.
Proof.
  induction ops as [|o ops IH]; intros D Hz Hd.
  - assert (D = ∅) as ->; [|done]. apply map_eq. intros id. rewrite lookup_empty. destruct (D !! id) as [d|] eqn:E; [|done].
    destruct (Hd _ _ E) as [[f Hf] _]. by apply elem_of_nil in Hf.
  - assert (Hz' : ∀ d, added d ops → 0 <= zl d).
    { intros d [f Hf]. apply Hz. exists f. by right. }
    assert (Hskip : (∀ d f, o = OpAdd (Some d) f → D !! DocId d ≠ Some d) → drawn ops D).
    { intros Hno id d Hid. destruct (Hd _ _ Hid) as [[f Hf] Heq]. split; [|done]. exists f.
      apply elem_of_cons in Hf as [<-|Hf]; [|done]. exfalso. apply (Hno d f); [done|]. by rewrite Heq. }
    destruct o as [[d|] f|id f].
    + change (added_len zl (OpAdd (Some d) f :: ops)) with (zl d + added_len zl ops).
      assert (0 <= zl d) by (apply Hz; exists f; left).
      destruct (decide (D !! DocId d = Some d)) as [Hin|Hout].
      * rewrite <- (insert_delete D _ _ Hin), sum_len_insert by apply lookup_delete.
        assert (sum_len zl (delete (DocId d) D) <= added_len zl ops); [|lia]. apply IH; [done|].
        intros id d' [Hne Hid]%lookup_delete_Some. destruct (Hd _ _ Hid) as [[f' Hf] Heq]. split; [|done]. exists f'.
        apply elem_of_cons in Hf as [[= -> ->]|Hf]; [congruence|done].
      * assert (sum_len zl D <= added_len zl ops); [|lia]. apply IH; [done|]. apply Hskip. by intros d' f' [= <- <-].
    + change (added_len zl (OpAdd None f :: ops)) with (added_len zl ops). apply IH; [done|]. by apply Hskip.
    + change (added_len zl (OpRemove id f :: ops)) with (added_len zl ops). apply IH; [done|]. by apply Hskip.
Qed.

Lemma added_len_prefix zl ops1 ops2 : (∀ d, added d (ops1 ++ ops2) → 0 <= zl d) →
  added_len zl ops1 <= added_len zl (ops1 ++ ops2).
Proof.
  induction ops1 as [|o ops1 IH]; intros Hz.
  - simpl. induction ops2 as [|o ops2 IH2]; [done|].
    assert (0 <= added_len zl ops2) by (apply IH2; intros d [f Hf]; apply Hz; exists f; by right).
    unfold added_len in *. simpl. destruct o as [[d|] f|id f]; [|done|done].
    assert (0 <= zl d) by (apply Hz; exists f; left). simpl in *. lia.
  - assert (added_len zl ops1 <= added_len zl (ops1 ++ ops2)) by (apply IH; intros d [f Hf]; apply Hz; exists f; by right).
    unfold added_len in *. simpl. destruct o as [[d|] f|id f]; lia.
Qed.

Lemma C20_additions_lem sortDocs o zl ops s : reach sortDocs o ops s →
  (∀ d, added d ops → TokenLen d = f32_of_Z (zl d) ∧ 0 <= zl d < 2 ^ 24) →
  added_len zl ops < 2 ^ 24 →
  ∃ M D, content s M D ∧ drawn ops D ∧ totalTokenLen s = f32_of_Z (sum_len zl D).
Proof.
  intros HR Hz Hb. apply (C20_lem _ o zl _ _ HR Hz). intros ops1 s1 M D [ops2 ->] _ _ Hd _.
  assert (Hz1 : ∀ d, added d (ops1 ++ ops2) → 0 <= zl d) by (intros d Hd1; by apply Hz).
  pose proof (drawn_sum zl ops1 D) as H1. pose proof (added_len_prefix zl ops1 ops2 Hz1).
  assert (sum_len zl D <= added_len zl ops1); [|lia]. apply H1; [|done].
  intros d [f Hf]. apply Hz1. exists f. apply elem_of_app. by left.
Qed.
