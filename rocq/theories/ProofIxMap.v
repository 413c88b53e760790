(** Indexer as a map: lemmas behind C05-C07, C09, C13-C15. *)
From Verif Require Import ModelLookup SpecIndexer ProofSearch ProofTable ProofIndexer ProofCache
  ProofHistory ProofIxThms.

Lemma insertAll_perm_lookup l W (M : docmap) d :
  l ≡ₚ W → NoDup (ids W) → d ∈ W → insertAll l M !! DocId d = Some d.
Proof.
  intros Hl Hnd Hd.
  destruct (insertAll_lookup_in l M (DocId d)) as (d' & -> & Hd' & Heq).
  { unfold ids. rewrite Hl. by apply elem_of_list_fmap_1. }
  rewrite Hl in Hd'. f_equal.
  apply elem_of_list_lookup in Hd as [i Hi]. apply elem_of_list_lookup in Hd' as [j Hj].
  assert (i = j) as ->; [|congruence].
  eapply NoDup_lookup; [exact Hnd| |]; unfold ids; rewrite list_lookup_fmap, ?Hi, ?Hj; simpl; [done|by f_equal].
Qed.

Lemma insertAll_live1 l W M : l ≡ₚ W → NoDup (ids W) → insertAll l (live1 W M) = insertAll W M.
Proof.
  intros Hl Hnd. apply map_eq. intros id. destruct (decide (id ∈ ids W)) as [Hin|Hnin].
  - unfold ids in Hin. apply elem_of_list_fmap in Hin as (d & -> & Hd).
    by rewrite !(insertAll_perm_lookup _ W).
  - rewrite !insertAll_lookup_notin; [|done|unfold ids; by rewrite Hl].
    rewrite live1_lookup. by rewrite decide_False.
Qed.

Lemma map_size_zero (D : docmap) : size D = 0%nat → D = ∅.
Proof. apply map_size_empty_inv. Qed.

Lemma rmFlush_false_force s D : rmFlush s D true = false → D = ∅.
Proof.
  unfold rmFlush. rewrite orb_true_r, andb_true_r. intros H%Z.ltb_ge. apply map_size_zero. lia.
Qed.

Section Forced.
  Context (sortDocs : list DocIndex → list DocIndex) (Hsort : valid_sort sortDocs).

  (** A forced add commits everything that waits. *)
  Lemma forced_add doc s live dying :
    Inv s live dying →
    (match doc with Some d => zlen (addCache s) < cap s ∧ good_doc d | None => True end) →
    ∃ s' l, AddDocToCache sortDocs doc true s = Some s' ∧ l ≡ₚ waiting doc s ∧
      Inv s' (insertAll l (live1 (waiting doc s) live)) ∅ ∧ addCache s' = [].
  Proof.
    intros HI Hdoc.
    destruct (AddDocToCache_inv sortDocs Hsort doc true s live dying) as (s1 & Hrun & Ho & Hcase);
      [done|done|].
    exists s1. assert (addFlush s (waiting doc s) true = true) as Hf by apply orb_true_r.
    rewrite Hf in Hcase. cbv zeta in Hcase. destruct (rmFlush s _ true) eqn:ER.
    - destruct Hcase as (l & Hl & _ & HI' & Hc). by exists l.
    - apply rmFlush_false_force in ER. rewrite ER in Hcase.
      destruct Hcase as (kept & other & l & Hko & Hk & _ & Hl & _ & HI' & Hc).
      assert (kept = []) as ->.
      { destruct kept as [|z kept]; [done|]. destruct (Hk z) as [? Hz]; [left|]. by rewrite lookup_empty in Hz. }
      exists l. split; [done|]. split; [by rewrite Hl|]. by split.
  Qed.

  Lemma forced_remove id s live :
    Inv s live ∅ → id ≠ "0" →
    ∃ s' b, RemoveDocToCache id true s = Some (s', b) ∧ Inv s' (delete id live) ∅ ∧
      addCache s' = addCache s.
  Proof.
    intros HI Hid. pose proof (RemoveDocToCache_inv s live ∅ id true HI) as HR.
    unfold aMark in HR. rewrite decide_False in HR by done.
    destruct (live !! id) as [d|] eqn:El.
    - destruct HR as (s' & Hrun & HI' & Hc & _). exists s', (rmFlush s (<[id:=d]> ∅) true).
      split; [done|]. split; [|done].
      assert (rmFlush s (<[id:=d]> ∅) true = true) as Hr.
      { unfold rmFlush. rewrite orb_true_r, andb_true_r. apply Z.ltb_lt.
        rewrite map_size_insert_None, map_size_empty by apply lookup_empty. lia. }
      by rewrite Hr in HI'.
    - destruct HR as (s' & Hrun & HI' & Hc & _). exists s', (rmFlush s ∅ true).
      split; [done|]. split; [|done]. rewrite delete_notin by done. done.
  Qed.

  Lemma forced_step s live o :
    Inv s live ∅ → addCache s = [] → good_op o → forced o →
    ∃ s', step sortDocs s o = Some s' ∧ Inv s' (mapStep live o) ∅ ∧ addCache s' = [].
  Proof.
    intros HI Hc Hg Hf. destruct o as [doc f|id f]; simpl in *.
    - subst f. destruct (forced_add doc s live ∅) as (s' & l & Hrun & Hl & HI' & Hc'); [done| |].
      { destruct doc; [|done]. split; [|done]. rewrite Hc, zlen_nil.
        pose proof (inv_cap _ _ _ HI). lia. }
      exists s'. split; [done|]. split; [|done].
      assert (insertAll l (live1 (waiting doc s) live) =
              match doc with Some d => <[DocId d:=d]> live | None => live end) as HE.
      { rewrite (insertAll_live1 _ (waiting doc s)).
        - unfold waiting. rewrite Hc. by destruct doc.
        - done.
        - unfold waiting. rewrite Hc. destruct doc; [apply NoDup_singleton|constructor]. }
      rewrite HE in HI'. by destruct doc.
    - destruct Hf as [-> Hid]. destruct (forced_remove id s live HI Hid) as (s' & b & Hrun & HI' & Hc').
      exists s'. rewrite Hrun. split; [done|]. split; [done|]. congruence.
  Qed.

  Lemma forced_run ops : ∀ s live,
    Inv s live ∅ → addCache s = [] → Forall good_op ops → Forall forced ops →
    ∃ s', run sortDocs ops s = Some s' ∧ Inv s' (foldl mapStep live ops) ∅ ∧ addCache s' = [].
  Proof.
    induction ops as [|o ops IH]; intros s live HI Hc Hg Hf; [by exists s|].
    inversion Hg as [|? ? Hgo Hgs]; inversion Hf as [|? ? Hfo Hfs]; subst.
    destruct (forced_step s live o) as (s1 & Hs1 & HI1 & Hc1); [done..|].
    destruct (IH s1 (mapStep live o)) as (s' & Hrun & HI' & Hc'); [done..|].
    exists s'. unfold run in *. simpl. rewrite Hs1. done.
  Qed.
End Forced.

Lemma inv_rc_empty s live : Inv s live ∅ → removeCache s = [].
Proof.
  intros HI. apply nil_length_inv. rewrite (core_rc_size _ _ _ _ (inv_core _ _ _ HI)).
  apply map_size_empty.
Qed.

(** * C05 *)
Lemma forced_is_map sortDocs o s0 ops :
  valid_sort sortDocs → Init o = Some s0 → Forall good_op ops → Forall forced ops →
  ∃ s, run sortDocs ops s0 = Some s ∧ shows s (mapOf ops) ∧ clean s (mapOf ops) ∧
    addCache s = [] ∧ removeCache s = [].
Proof.
  intros Hsort Hi Hg Hf. destruct (Init_inv o s0 Hi) as [HI Hc].
  destruct (forced_run sortDocs Hsort ops s0 ∅) as (s & Hrun & HI' & Hc'); [done..|].
  exists s. split; [done|]. split; [by eapply inv_shows|]. split; [by apply inv_clean|].
  split; [done|]. by eapply inv_rc_empty.
Qed.

Section Batch.
  Context (sortDocs : list DocIndex → list DocIndex) (Hsort : valid_sort sortDocs).

  Lemma insertAll_app l1 l2 M : insertAll (l1 ++ l2) M = insertAll l2 (insertAll l1 M).
  Proof. unfold insertAll. by rewrite foldl_app. Qed.

  Lemma insertAll_perm l1 l2 M : l1 ≡ₚ l2 → NoDup (ids l2) → insertAll l1 M = insertAll l2 M.
  Proof.
    intros Hl Hnd. apply map_eq. intros id. destruct (decide (id ∈ ids l2)) as [Hin|Hnin].
    - unfold ids in Hin. apply elem_of_list_fmap in Hin as (d & -> & Hd).
      by rewrite !(insertAll_perm_lookup _ l2).
    - rewrite !insertAll_lookup_notin; [done|done|unfold ids; by rewrite Hl].
  Qed.

  Lemma insertAll_delete l M id : id ∉ ids l → insertAll l (delete id M) = delete id (insertAll l M).
  Proof.
    revert M. induction l as [|d l IH]; intros M Hid; [done|].
    unfold ids in Hid. rewrite fmap_cons in Hid. apply not_elem_of_cons in Hid as [Hne Hid].
    rewrite !insertAll_cons, <- IH by done. by rewrite delete_insert_ne.
  Qed.

  Lemma batch_step s live dying o M :
    Inv s live dying → roomy s → M = insertAll (addCache s) live → good_op o →
    (match o with
     | OpAdd (Some d) _ => ¬ waits s (DocId d)
     | OpAdd None _ => True
     | OpRemove id _ => ¬ waits s id ∧ id ≠ "0"
     end) →
    ∃ s' live' dying', step sortDocs s o = Some s' ∧ Inv s' live' dying' ∧ roomy s' ∧
      mapStep M o = insertAll (addCache s') live'.
  Proof.
    intros HI Hr HM Hg Hnc.
    destruct (step_roomy sortDocs Hsort s live dying o) as (s' & Hs' & Hr'); [done..| |].
    { by destruct o as [[?|]|]. }
    exists s'. destruct o as [doc force|id force]; simpl in Hs'.
    - destruct Hr as [Hnd Hlt].
      destruct (AddDocToCache_inv sortDocs Hsort doc force s live dying) as (s1 & Hrun & Ho & Hcase);
        [done|destruct doc; [done|done]|].
      rewrite Hrun in Hs'. injection Hs' as ->.
      pose proof (waiting_nodup doc s Hnd Hnc) as HndW.
      assert (HMW : mapStep M (OpAdd doc force) = insertAll (waiting doc s) live).
      { unfold waiting. rewrite insertAll_app, <- HM. by destruct doc. }
      rewrite HMW.
      destruct (addFlush s (waiting doc s) force).
      + cbv zeta in Hcase. destruct (rmFlush s _ force).
        * destruct Hcase as (l & Hl & _ & HI' & Hc). do 2 eexists. split; [done|].
          split; [done|]. split; [done|]. rewrite Hc. simpl. symmetry. by apply insertAll_live1.
        * destruct Hcase as (kept & other & l & Hko & Hk & _ & Hl & _ & HI' & Hc).
          do 2 eexists. split; [done|]. split; [done|]. split; [done|]. rewrite Hc.
          rewrite <- insertAll_app. symmetry. apply insertAll_live1; [|done].
          rewrite Hl. rewrite <- Hko. apply Permutation_app_comm.
      + destruct Hcase as [HI' Hc]. exists live, dying. split; [done|]. split; [done|]. split; [done|].
        by rewrite Hc.
    - destruct Hnc as [Hw Hid].
      pose proof (RemoveDocToCache_inv s live dying id force HI) as HR.
      unfold aMark in HR. rewrite decide_False in HR by done.
      destruct (live !! id) as [d|] eqn:El.
      + destruct HR as (s1 & Hrun & HI' & Hc & Ho). rewrite Hrun in Hs'. rewrite bind_Some_eq in Hs'.
        injection Hs' as ->. do 2 eexists. simpl. rewrite Hrun. split; [done|]. split; [done|].
        split; [done|]. rewrite Hc. rewrite insertAll_delete by done. by rewrite HM.
      + destruct HR as (s1 & Hrun & HI' & Hc & Ho). rewrite Hrun in Hs'. rewrite bind_Some_eq in Hs'.
        injection Hs' as ->. do 2 eexists. simpl. rewrite Hrun. split; [done|]. split; [done|].
        split; [done|]. rewrite Hc, HM. apply delete_notin. by rewrite insertAll_lookup_notin.
  Qed.

  Lemma batch_run ops : ∀ s live dying M,
    Inv s live dying → roomy s → M = insertAll (addCache s) live → Forall good_op ops →
    no_conflict sortDocs ops s →
    ∃ s' live' dying', run sortDocs ops s = Some s' ∧ Inv s' live' dying' ∧ roomy s' ∧
      foldl mapStep M ops = insertAll (addCache s') live'.
  Proof.
    induction ops as [|o ops IH]; intros s live dying M HI Hr HM Hg Hnc.
    - exists s, live, dying. done.
    - inversion Hg as [|? ? Hgo Hgs]. destruct Hnc as [Hno Hns].
      destruct (batch_step s live dying o M) as (s1 & l1 & d1 & Hs1 & HI1 & Hr1 & HM1); [done..|].
      destruct (IH s1 l1 d1 (mapStep M o)) as (s' & l' & d' & Hrun & HI' & Hr' & HM'); [by auto..|].
      exists s', l', d'. unfold run in *. simpl. rewrite Hs1. done.
  Qed.
End Batch.

Lemma batching_transparent sortDocs o s0 ops :
  valid_sort sortDocs → Init o = Some s0 → Forall good_op ops → no_conflict sortDocs ops s0 →
  ∃ s, run sortDocs (ops ++ [OpAdd None true]) s0 = Some s ∧
    shows s (mapOf ops) ∧ clean s (mapOf ops) ∧ addCache s = [] ∧ removeCache s = [].
Proof.
  intros Hsort Hi Hg Hnc. destruct (Init_inv o s0 Hi) as [HI Hc].
  destruct (batch_run sortDocs Hsort ops s0 ∅ ∅ ∅) as (s1 & live & dying & Hrun & HI1 & Hr1 & HM);
    [done| |by rewrite Hc|done|done|].
  { split; rewrite Hc; [constructor|]. rewrite zlen_nil. pose proof (inv_cap _ _ _ HI). lia. }
  destruct (forced_add sortDocs Hsort None s1 live dying HI1) as (s & l & Hrun2 & Hl & HI2 & Hc2); [done|].
  unfold waiting in *. rewrite app_nil_r in *.
  rewrite (insertAll_live1 _ (addCache s1)) in HI2 by (done || apply Hr1).
  rewrite <- HM in HI2. exists s. split.
  { rewrite run_app, Hrun. simpl. unfold run. simpl. by rewrite Hrun2. }
  split; [by eapply inv_shows|]. split; [by apply inv_clean|].
  split; [done|]. by eapply inv_rc_empty.
Qed.

Lemma distinct_no_conflict sortDocs ops : ∀ s live dying,
  valid_sort sortDocs → Inv s live dying → Forall good_op ops →
  NoDup (omap op_id ops) → "0" ∉ omap op_id ops →
  (∀ id, id ∈ omap op_id ops → ¬ waits s id) →
  no_conflict sortDocs ops s.
Proof.
  induction ops as [|o ops IH]; intros s live dying Hsort HI Hg Hnd H0 Hw; [done|].
  inversion Hg as [|? ? Hgo Hgs]; subst. simpl. split.
  - destruct o as [[d|]|id]; simpl in *; [apply Hw; left|done|].
    split; [apply Hw; left|]. intros ->. apply H0. left.
  - intros s' Hs'.
    assert (Hsub : NoDup (omap op_id ops) ∧ "0" ∉ omap op_id ops ∧
      ∀ id, id ∈ omap op_id ops → ¬ waits s id ∧ op_id o ≠ Some id).
    { simpl in *. destruct (op_id o) as [i|] eqn:E.
      - apply NoDup_cons in Hnd as [Hni Hnd]. apply not_elem_of_cons in H0 as [_ H0].
        split; [done|]. split; [done|]. intros id Hid. split; [apply Hw; by right|]. by intros [= ->].
      - split; [done|]. split; [done|]. intros id Hid. split; [by apply Hw|done]. }
    destruct Hsub as (Hnd' & H0' & Hw').
    destruct (step_inv sortDocs Hsort s live dying o s' HI) as (l1 & d1 & HI1 & _ & _); [done..|].
    eapply IH; try done. intros id Hid. destruct (Hw' id Hid) as [Hnw Hne].
    intros Hin. apply Hnw. unfold waits in *. clear -Hsort HI Hgo Hs' Hin Hne.
    destruct o as [doc force|i force]; simpl in Hs'.
    + pose proof (wait_lt _ _ _ _ _ Hs') as Hlt.
      destruct (AddDocToCache_inv sortDocs Hsort doc force s live dying) as (s1 & Hrun & _ & Hcase);
        [done|destruct doc; [done|done]|].
      rewrite Hrun in Hs'. injection Hs' as ->.
      assert (Hsub : ∀ d, d ∈ addCache s' → d ∈ waiting doc s).
      { destruct (addFlush _ _ _).
        - cbv zeta in Hcase. destruct (rmFlush _ _ _).
          + destruct Hcase as (l & _ & _ & _ & ->). intros d Hd. by apply elem_of_nil in Hd.
          + destruct Hcase as (kept & other & l & Hko & _ & _ & _ & _ & _ & ->). intros d Hd.
            rewrite <- Hko. apply elem_of_app. by left.
        - by destruct Hcase as [_ ->]. }
      apply elem_of_list_fmap in Hin as (d & -> & Hd). apply Hsub in Hd. unfold waiting in Hd.
      apply elem_of_app in Hd as [Hd|Hd]; [by apply elem_of_list_fmap_1|].
      destruct doc as [d'|]; [|by apply elem_of_nil in Hd].
      apply elem_of_list_singleton in Hd as ->. by simpl in Hne.
    + pose proof (RemoveDocToCache_inv s live dying i force HI) as HR.
      destruct (aMark i live dying). destruct HR as (s1 & Hrun & _ & Hc & _).
      rewrite Hrun in Hs'. rewrite bind_Some_eq in Hs'. injection Hs' as ->. by rewrite <- Hc.
Qed.

Lemma batching_distinct sortDocs o s0 ops :
  valid_sort sortDocs → Init o = Some s0 → Forall good_op ops →
  NoDup (omap op_id ops) → "0" ∉ omap op_id ops → no_conflict sortDocs ops s0.
Proof.
  intros Hsort Hi Hg Hnd H0. destruct (Init_inv o s0 Hi) as [HI Hc].
  eapply distinct_no_conflict; try done. intros id _. unfold waits. rewrite Hc. by intros ?%elem_of_nil.
Qed.
