(** Indexer: lemmas behind C07, C09, C13-C15. *)
From Verif Require Import ModelLookup SpecIndexer ProofSearch ProofTable ProofIndexer ProofCache
  ProofHistory ProofIxThms ProofIxMap.

(** [id] is gone: not live and not waiting. *)
Definition gone (s : Indexer) (id : string) : Prop := HasDoc s id = false ∧ ¬ waits s id.

Lemma hasdoc_false s live dying id : Inv s live dying → HasDoc s id = false ↔ live !! id = None.
Proof.
  intros HI. pose proof (inv_hasdoc s live dying id HI) as H.
  destruct (HasDoc s id), (live !! id); split; try done; intros _.
  - destruct (proj1 H eq_refl). congruence.
  - exfalso. assert (false = true) by (apply H; eauto). done.
Qed.

Section More.
  Context (sortDocs : list DocIndex → list DocIndex) (Hsort : valid_sort sortDocs).

  Lemma step_gone s live dying id o s' :
    Inv s live dying → good_op o → ¬ adds_id id o → step sortDocs s o = Some s' →
    gone s id → gone s' id.
  Proof.
    intros HI Hg Hna Hs' [Hnl Hnw]. apply (hasdoc_false _ _ _ _ HI) in Hnl.
    destruct o as [doc force|i force]; simpl in Hs'.
    - pose proof (wait_lt _ _ _ _ _ Hs') as Hlt.
      destruct (AddDocToCache_inv sortDocs Hsort doc force s live dying) as (s1 & Hrun & _ & Hcase);
        [done|destruct doc; [done|done]|].
      rewrite Hrun in Hs'. injection Hs' as ->.
      assert (HW : id ∉ ids (waiting doc s)).
      { unfold waiting, ids. rewrite fmap_app. intros [?|Hin]%elem_of_app; [by apply Hnw|].
        destruct doc as [d|]; [|by apply elem_of_nil in Hin].
        apply elem_of_list_singleton in Hin as ->. by apply Hna. }
      assert (Hl1 : live1 (waiting doc s) live !! id = None).
      { rewrite live1_lookup. by destruct (decide _). }
      destruct (addFlush _ _ _).
      + cbv zeta in Hcase. destruct (rmFlush _ _ _).
        * destruct Hcase as (l & Hl & _ & HI' & Hc). split.
          -- apply (hasdoc_false _ _ _ _ HI'). rewrite insertAll_lookup_notin; [done|].
             unfold ids in *. by rewrite Hl.
          -- unfold waits. rewrite Hc. by intros ?%elem_of_nil.
        * destruct Hcase as (kept & other & l & Hko & _ & _ & Hl & _ & HI' & Hc). split.
          -- apply (hasdoc_false _ _ _ _ HI'). rewrite insertAll_lookup_notin; [done|].
             unfold ids in *. rewrite Hl. intros Hin. apply HW. rewrite <- Hko, fmap_app.
             apply elem_of_app. by right.
          -- unfold waits. rewrite Hc. intros Hin. apply HW. unfold ids. rewrite <- Hko, fmap_app.
             apply elem_of_app. by left.
      + destruct Hcase as [HI' Hc]. split; [by apply (hasdoc_false _ _ _ _ HI')|].
        unfold waits. by rewrite Hc.
    - pose proof (RemoveDocToCache_inv s live dying i force HI) as HR.
      destruct (aMark i live dying) as [l' d'] eqn:EM. destruct HR as (s1 & Hrun & HI' & Hc & _).
      rewrite Hrun in Hs'. rewrite bind_Some_eq in Hs'. injection Hs' as ->. split.
      + apply (hasdoc_false _ _ _ _ HI'). unfold aMark in EM.
        destruct (decide _); [by injection EM as <- <-|].
        destruct (live !! i); [|by injection EM as <- <-]. injection EM as <- <-.
        apply lookup_delete_None. by right.
      + unfold waits. by rewrite Hc.
  Qed.

  Lemma run_gone ops : ∀ s live dying id s',
    Inv s live dying → Forall good_op ops → Forall (λ o, ¬ adds_id id o) ops →
    run sortDocs ops s = Some s' → gone s id → gone s' id.
  Proof.
    induction ops as [|o ops IH]; intros s live dying id s' HI Hg Hna Hrun Hgone.
    - by injection Hrun as <-.
    - inversion Hg as [|? ? Hgo Hgs]; inversion Hna as [|? ? Hno Hns]; subst.
      unfold run in Hrun. simpl in Hrun. destruct (step sortDocs s o) as [s1|] eqn:E; [|done].
      simpl in Hrun. destruct (step_inv sortDocs Hsort s live dying o s1) as (l1 & d1 & HI1 & _); [done..|].
      apply (IH s1 l1 d1 id s'); [done..|]. exact (step_gone s live dying id o s1 HI Hgo Hno E Hgone).
  Qed.
End More.

(** After a remove call the id is not live. *)
Lemma removed_not_live s live dying id force s' b :
  Inv s live dying → id ≠ "0" → RemoveDocToCache id force s = Some (s', b) →
  HasDoc s' id = false ∧ addCache s' = addCache s.
Proof.
  intros HI Hid Hrun. pose proof (RemoveDocToCache_inv s live dying id force HI) as HR.
  unfold aMark in HR. rewrite decide_False in HR by done.
  destruct (live !! id) as [d|] eqn:El.
  - destruct HR as (s1 & Hrun1 & HI' & Hc & _). rewrite Hrun in Hrun1. injection Hrun1 as -> ->.
    split; [|done]. apply (hasdoc_false _ _ _ _ HI'). apply lookup_delete.
  - destruct HR as (s1 & Hrun1 & HI' & Hc & _). rewrite Hrun in Hrun1. injection Hrun1 as -> ->.
    split; [|done]. by apply (hasdoc_false _ _ _ _ HI').
Qed.

Lemma remove_stays_gone sortDocs o ops1 s id force s' b ops2 s'' :
  reach sortDocs o ops1 s → id ≠ "0" → ¬ waits s id →
  RemoveDocToCache id force s = Some (s', b) →
  Forall good_op ops2 → Forall (λ o, ¬ adds_id id o) ops2 →
  run sortDocs ops2 s' = Some s'' →
  HasDoc s' id = false ∧ HasDoc s'' id = false.
Proof.
  intros HR Hid Hw Hrm Hg Hna Hrun. destruct (reach_inv _ _ _ _ HR) as (live & dying & HI & _).
  destruct (removed_not_live _ _ _ _ _ _ _ HI Hid Hrm) as [Hn Hc]. split; [done|].
  assert (Hstep : step sortDocs s (OpRemove id force) = Some s') by (simpl; by rewrite Hrm).
  destruct (step_inv sortDocs (proj1 HR) s live dying (OpRemove id force) s' HI) as (l1 & d1 & HI1 & _); [done..|].
  eapply (run_gone sortDocs (proj1 HR) ops2 s' l1 d1 id s''); try done.
  split; [done|]. unfold waits. by rewrite Hc.
Qed.

Lemma reach_step sortDocs o ops s op' s' :
  reach sortDocs o ops s → good_op op' → step sortDocs s op' = Some s' →
  reach sortDocs o (ops ++ [op']) s'.
Proof.
  intros (Hsort & Hg & s0 & Hi & Hrun) Hg' Hs'. split; [done|]. split.
  - apply Forall_app. split; [done|]. by constructor.
  - exists s0. split; [done|]. rewrite run_app, Hrun. simpl. unfold run. simpl. by rewrite Hs'.
Qed.

Lemma reach_run sortDocs o ops s ops' s' :
  reach sortDocs o ops s → Forall good_op ops' → run sortDocs ops' s = Some s' →
  reach sortDocs o (ops ++ ops') s'.
Proof.
  intros (Hsort & Hg & s0 & Hi & Hrun) Hg' Hs'. split; [done|]. split.
  - by apply Forall_app.
  - exists s0. split; [done|]. by rewrite run_app, Hrun.
Qed.

(** * C09 *)
Lemma reindex_replaces sortDocs o ops s d s' :
  reach sortDocs o ops s → good_doc d → ¬ waits s (DocId d) →
  AddDocToCache sortDocs (Some d) true s = Some s' →
  ∃ M M', shows s M ∧ shows s' M' ∧ clean s' M' ∧
    M' !! DocId d = Some d ∧
    (∀ id, id ≠ DocId d → ¬ waits s id → M' !! id = M !! id).
Proof.
  intros HR Hg Hw Hadd. destruct (reach_inv _ _ _ _ HR) as (live & dying & HI & _).
  pose proof (wait_lt _ _ _ _ _ Hadd) as Hlt. simpl in Hlt.
  destruct (forced_add sortDocs (proj1 HR) (Some d) s live dying HI) as (s1 & l & Hrun & Hl & HI' & Hc); [done|].
  rewrite Hrun in Hadd. injection Hadd as ->.
  exists live. eexists. split; [by eapply inv_shows|]. split; [by eapply inv_shows|].
  split; [by eapply inv_clean|]. split.
  - destruct (insertAll_lookup_in l (live1 (waiting (Some d) s) live) (DocId d)) as (d' & -> & Hd' & Heq).
    { unfold ids. rewrite Hl. unfold waiting. rewrite fmap_app. apply elem_of_app. right. by left. }
    f_equal. rewrite Hl in Hd'. unfold waiting in Hd'. apply elem_of_app in Hd' as [Hd'|Hd'].
    + exfalso. apply Hw. unfold waits. rewrite <- Heq. by apply elem_of_list_fmap_1.
    + by apply elem_of_list_singleton in Hd'.
  - intros id Hne Hnw.
    assert (Hni : id ∉ ids (waiting (Some d) s)).
    { unfold ids, waiting. rewrite fmap_app. intros [?|Hin]%elem_of_app; [done|].
      by apply elem_of_list_singleton in Hin. }
    rewrite insertAll_lookup_notin by (unfold ids in *; by rewrite Hl).
    rewrite live1_lookup. by rewrite decide_False.
Qed.

(** * C13 *)
Lemma one_version_survives sortDocs o ops s doc force s' :
  reach sortDocs o ops s →
  (match doc with Some d => good_doc d | None => True end) →
  AddDocToCache sortDocs doc force s = Some s' →
  let W := addCache s ++ match doc with Some d => [d] | None => [] end in
  ∃ M', shows s' M' ∧
    ∀ d, d ∈ W →
      (d ∈ addCache s') ∨
      (¬ waits s' (DocId d) ∧ ∃ d', d' ∈ W ∧ DocId d' = DocId d ∧ M' !! DocId d = Some d').
Proof.
  intros HR Hg Hadd W. destruct (reach_inv _ _ _ _ HR) as (live & dying & HI & _).
  pose proof (wait_lt _ _ _ _ _ Hadd) as Hlt.
  destruct (AddDocToCache_inv sortDocs (proj1 HR) doc force s live dying) as (s1 & Hrun & _ & Hcase);
    [done|destruct doc; done|].
  rewrite Hrun in Hadd. injection Hadd as ->. fold (waiting doc s) in W.
  destruct (addFlush _ _ _).
  - cbv zeta in Hcase. destruct (rmFlush _ _ _).
    + destruct Hcase as (l & Hl & _ & HI' & Hc). eexists. split; [by eapply inv_shows|].
      intros d Hd. right. split; [unfold waits; rewrite Hc; by intros ?%elem_of_nil|].
      destruct (insertAll_lookup_in l (live1 (waiting doc s) live) (DocId d)) as (d' & Hd1 & Hd' & Heq).
      { unfold ids. rewrite Hl. by apply elem_of_list_fmap_1. }
      exists d'. rewrite Hl in Hd'. done.
    + destruct Hcase as (kept & other & l & Hko & Hk & Ho & Hl & _ & HI' & Hc).
      eexists. split; [by eapply inv_shows|]. intros d Hd.
      assert (Hd0 := Hd). unfold W in Hd0. rewrite <- Hko in Hd0.
      apply elem_of_app in Hd0 as [Hd0|Hd0]; [left; by rewrite Hc|]. right. split.
      * unfold waits. rewrite Hc. intros (d2 & Heq & Hd2)%elem_of_list_fmap.
        apply Hk in Hd2. rewrite <- Heq in Hd2. rewrite (Ho d Hd0) in Hd2. by destruct Hd2.
      * destruct (insertAll_lookup_in l (live1 (waiting doc s) live) (DocId d)) as (d' & Hd1 & Hd' & Heq).
        { unfold ids. rewrite Hl. by apply elem_of_list_fmap_1. }
        exists d'. split; [|done]. unfold W. rewrite <- Hko. apply elem_of_app. right. by rewrite <- Hl.
  - destruct Hcase as [HI' Hc]. exists live. split; [by eapply inv_shows|].
    intros d Hd. left. by rewrite Hc.
Qed.

(** * C14 *)
Lemma remove_waiting_is_noop s id force :
  docsState s !! id = None →
  RemoveDocToCache id force s = RemoveDocToCache "0" force s.
Proof.
  intros H. unfold RemoveDocToCache. unfold markRemove at 1. rewrite H.
  destruct (seqb id "0"); unfold markRemove; by rewrite seqb_refl.
Qed.

Lemma remove_unknown_noop sortDocs o ops s id force :
  reach sortDocs o ops s → HasDoc s id = false → id ∉ removeCache s →
  RemoveDocToCache id force s = RemoveDocToCache "0" force s.
Proof.
  intros HR Hn Hrc. destruct (reach_inv _ _ _ _ HR) as (live & dying & HI & _).
  apply remove_waiting_is_noop. pose proof (inv_core _ _ _ HI) as HC.
  rewrite (core_state _ _ _ _ HC). unfold stateOf.
  apply (hasdoc_false _ _ _ _ HI) in Hn. rewrite Hn.
  destruct (dying !! id) eqn:E; [exfalso; apply Hrc, (core_rc _ _ _ _ HC); eauto|].
  destruct (decide _); [set_solver|done].
Qed.

Lemma remove_of_waiting_fails sortDocs o d f :
  valid_sort sortDocs → 2 <= DocCacheSize o → good_doc d →
  ∃ s0 s, Init o = Some s0 ∧
    run sortDocs [OpAdd (Some d) false; OpRemove (DocId d) f; OpAdd None true] s0 = Some s ∧
    HasDoc s (DocId d) = true.
Proof.
  intros Hsort Hn Hg.
  assert (Hopt : optsInit o = o).
  { unfold optsInit. destruct o as [a b c]. simpl in *. destruct (Z.eqb_spec b 0); [lia|done]. }
  assert (Hinit : Init o = Some (mkIndexer ∅ ∅ [] [] o 0 f_zero ∅)).
  { unfold Init. rewrite Hopt. destruct (Z.ltb_spec (DocCacheSize o) 0); [lia|done]. }
  destruct (Init_inv o _ Hinit) as [HI0 Hc0].
  set (s0 := mkIndexer _ _ _ _ _ _ _ _) in *. exists s0.
  destruct (AddDocToCache_inv sortDocs Hsort (Some d) false s0 ∅ ∅ HI0) as (s1 & Hrun1 & Ho1 & Hcase).
  { split; [|done]. rewrite Hc0, zlen_nil. unfold cap, s0. simpl. lia. }
  assert (addFlush s0 (waiting (Some d) s0) false = false) as Hf.
  { unfold addFlush. rewrite orb_false_r. apply Z.leb_gt. unfold waiting. rewrite Hc0.
    simpl app. rewrite zlen_cons, zlen_nil. unfold cap, s0. simpl. lia. }
  rewrite Hf in Hcase. destruct Hcase as [HI1 Hc1].
  pose proof (RemoveDocToCache_inv s1 ∅ ∅ (DocId d) f HI1) as HR.
  assert (aMark (DocId d) ∅ ∅ = (∅, ∅)) as Hm.
  { unfold aMark. destruct (decide _); [done|]. by rewrite lookup_empty. }
  rewrite Hm in HR. destruct HR as (s2 & Hrun2 & HI2 & Hc2 & Ho2).
  assert (HI2' : Inv s2 ∅ ∅) by (by destruct (rmFlush s1 ∅ f)).
  destruct (forced_add sortDocs Hsort None s2 ∅ ∅ HI2') as (s3 & l & Hrun3 & Hl & HI3 & Hc3); [done|].
  exists s3. split; [exact Hinit|]. split.
  - unfold run. simpl. rewrite Hrun1. simpl. rewrite Hrun2. simpl. by rewrite Hrun3.
  - apply (inv_hasdoc _ _ _ _ HI3). unfold waiting in Hl. rewrite app_nil_r, Hc2, Hc1 in Hl.
    unfold waiting in Hl. rewrite Hc0 in Hl. simpl in Hl. apply Permutation_singleton_r in Hl as ->.
    simpl. rewrite lookup_insert. eauto.
Qed.

(** * C15 *)
Lemma remove_keeps_zero s live dying id force s' b :
  Inv s live dying → RemoveDocToCache id force s = Some (s', b) →
  ∃ live' dying', Inv s' live' dying' ∧ live' !! "0" = live !! "0".
Proof.
  intros HI Hrun. pose proof (RemoveDocToCache_inv s live dying id force HI) as HR.
  destruct (aMark id live dying) as [l' d'] eqn:EM. destruct HR as (s1 & Hrun1 & HI' & _).
  rewrite Hrun in Hrun1. injection Hrun1 as -> ->. do 2 eexists. split; [done|].
  unfold aMark in EM. destruct (decide (id = "0")); [by injection EM as <- <-|].
  destruct (live !! id); injection EM as <- <-; [|done]. by rewrite lookup_delete_ne.
Qed.

Lemma removes_keep_zero sortDocs rms : ∀ s live dying s',
  valid_sort sortDocs → Inv s live dying →
  Forall (λ o, match o with OpRemove _ _ => True | _ => False end) rms →
  run sortDocs rms s = Some s' →
  ∃ live' dying', Inv s' live' dying' ∧ live' !! "0" = live !! "0".
Proof.
  induction rms as [|o rms IH]; intros s live dying s' Hsort HI Hf Hrun.
  - injection Hrun as <-. by exists live, dying.
  - inversion Hf as [|? ? Ho Hos]; subst. destruct o as [|id f]; [done|].
    unfold run in Hrun. simpl in Hrun.
    destruct (RemoveDocToCache id f s) as [[s1 b]|] eqn:E; [|done]. simpl in Hrun.
    destruct (remove_keeps_zero _ _ _ _ _ _ _ HI E) as (l1 & d1 & HI1 & H1).
    destruct (IH s1 l1 d1 s' Hsort HI1 Hos Hrun) as (l2 & d2 & HI2 & H2).
    exists l2, d2. split; [done|]. congruence.
Qed.

Lemma zero_not_removable sortDocs o ops s rms s' :
  reach sortDocs o ops s →
  Forall (λ o, match o with OpRemove _ _ => True | _ => False end) rms →
  run sortDocs rms s = Some s' →
  ∃ M M', shows s M ∧ shows s' M' ∧ M' !! "0" = M !! "0".
Proof.
  intros HR Hf Hrun. destruct (reach_inv _ _ _ _ HR) as (live & dying & HI & _).
  destruct (removes_keep_zero sortDocs rms s live dying s') as (l1 & d1 & HI1 & H1); [apply HR|done..|].
  exists live, l1. split; [by eapply inv_shows|]. split; [by eapply inv_shows|done].
Qed.
