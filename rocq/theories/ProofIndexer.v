(** The indexer state as a representation of abstract document maps. *)
From Verif Require Import ModelIndexer ProofSearch ProofTable.

Notation docmap := (gmap string DocIndex).

Definition stateOf (live dying : docmap) (p2 : gset string) (id : string) : option Z :=
  match live !! id with
  | Some _ => Some 0
  | None => match dying !! id with
            | Some _ => Some 1
            | None => if decide (id ∈ p2) then Some 2 else None
            end
  end.

Record Core (s : Indexer) (live dying : docmap) (p2 : gset string) : Prop := {
  core_disj : live ##ₘ dying;
  core_p2 : ∀ id, id ∈ p2 → live !! id = None ∧ dying !! id = None;
  core_table : table_ok (IndexType (initOptions s)) (live ∪ dying) (table s);
  core_state : ∀ id, docsState s !! id = stateOf live dying p2 id;
  core_rc_nodup : NoDup (removeCache s);
  core_rc : ∀ id, id ∈ removeCache s ↔ is_Some (dying !! id);
  core_num : numDocs s = Z.of_nat (size live);
  core_ids : map_Forall (λ id d, DocId d = id ∧ NoDup (texts d)) (live ∪ dying);
  core_lens : ∀ id, docTokenLens s !! id =
    (d ← (live ∪ dying) !! id;
     if f_eqb (TokenLen d) f_zero then None else Some (TokenLen d)) }.

Definition ids (docs : list DocIndex) : list string := DocId <$> docs.

(** Inserting documents one after the other; later ones overwrite. *)
Definition insertAll (docs : list DocIndex) (M : docmap) : docmap :=
  foldl (λ M d, <[DocId d := d]> M) M docs.

Lemma insertAll_cons d docs M : insertAll (d :: docs) M = insertAll docs (<[DocId d:=d]> M).
Proof. done. Qed.

Lemma insertAll_lookup_notin docs M id : id ∉ ids docs → insertAll docs M !! id = M !! id.
Proof.
  revert M. induction docs as [|d docs IH]; intros M Hid; [done|].
  rewrite insertAll_cons. unfold ids in Hid. rewrite fmap_cons in Hid.
  apply not_elem_of_cons in Hid as [Hne Hid]. rewrite IH by done.
  by rewrite lookup_insert_ne by done.
Qed.

Lemma insertAll_lookup_in docs M id : id ∈ ids docs →
  ∃ d, insertAll docs M !! id = Some d ∧ d ∈ docs ∧ DocId d = id.
Proof.
  revert M. induction docs as [|d docs IH]; intros M Hid.
  - by apply elem_of_nil in Hid.
  - rewrite insertAll_cons. destruct (decide (id ∈ ids docs)) as [Hin|Hnin].
    + destruct (IH (<[DocId d:=d]> M) Hin) as (d' & ? & ? & ?). exists d'. repeat split; try done. by right.
    + rewrite insertAll_lookup_notin by done.
      unfold ids in Hid. rewrite fmap_cons in Hid. apply elem_of_cons in Hid as [->|?]; [|done].
      exists d. rewrite lookup_insert. repeat split; try done. left.
Qed.

(** * AddDocs *)

Lemma addDocsLoop_core docs : ∀ s ptrs live dying p2,
  Core s live dying p2 →
  StronglySorted doc_le docs →
  Forall (λ d, NoDup (texts d)) docs →
  (∀ d, d ∈ docs → live !! DocId d = None ∧ dying !! DocId d = None) →
  (∀ d, d ∈ docs → ptrs_ok (table s) ptrs (DocId d)) →
  ∃ s' ptrs', addDocsLoop docs (s, ptrs) = Some (s', ptrs') ∧
    Core s' (insertAll docs live) dying (p2 ∖ list_to_set (ids docs)) ∧
    addCache s' = addCache s ∧ removeCache s' = removeCache s ∧ initOptions s' = initOptions s.
Proof.
  induction docs as [|d docs IH]; intros s ptrs live dying p2 HC Hs Hnd Hfresh Hptrs.
  - exists s, ptrs. split; [done|]. split; [|done].
    simpl. by rewrite difference_empty_L.
  - cbn [addDocsLoop]. apply StronglySorted_inv in Hs as [Hs Hd]. rewrite Forall_forall in Hd.
    apply Forall_cons in Hnd as [Hndd Hnd].
    destruct (Hfresh d) as [Hl Hdy]; [left|].
    unfold addOneDoc at 1.
    destruct (match head docs with Some d' => seqb (DocId d) (DocId d') | None => false end) eqn:Enext.
    { rewrite bind_Some_eq. destruct docs as [|d2 docs]; [done|]. simpl in Enext.
      apply seqb_eq in Enext.
      destruct (IH s ptrs live dying p2) as (s' & ptrs' & -> & HC' & Heq); [done..| | |].
      { intros d' Hd'. apply Hfresh. by right. }
      { intros d' Hd'. apply Hptrs. by right. }
      exists s', ptrs'. split; [done|]. split; [|done].
      replace (insertAll (d :: d2 :: docs) live) with (insertAll (d2 :: docs) live); cycle 1.
      { rewrite !insertAll_cons. rewrite Enext, insert_insert. done. }
      replace (p2 ∖ list_to_set (ids (d :: d2 :: docs))) with (p2 ∖ list_to_set (ids (d2 :: docs)));
        [done|]. unfold ids. rewrite !fmap_cons, Enext. set_solver. }
    assert (Hne : ∀ d', d' ∈ docs → DocId d' ≠ DocId d).
    { destruct docs as [|d2 docs]; [intros d' Hd'; by apply elem_of_nil in Hd'|].
      simpl in Enext. apply seqb_neq in Enext. intros d' Hd' Heq.
      assert (sle (DocId d) (DocId d2)) as H1 by (apply Hd; left).
      apply elem_of_cons in Hd' as [->|Hd']; [by rewrite Heq in Enext|].
      apply StronglySorted_inv in Hs as [_ Hd2]. rewrite Forall_forall in Hd2.
      assert (sle (DocId d2) (DocId d')) as H2 by by apply Hd2.
      rewrite Heq in H2. apply Enext. by apply (anti_symm sle). }
    assert (Hst : docsState s !! DocId d = if decide (DocId d ∈ p2) then Some 2 else None).
    { rewrite (core_state _ _ _ _ HC). unfold stateOf. by rewrite Hl, Hdy. }
    assert ((match docsState s !! DocId d with Some z => z =? 1 | None => false end) = false) as ->.
    { rewrite Hst. by destruct (decide _). }
    cbv zeta.
    destruct (addDocKeywords_ok (IndexType (initOptions s)) (live ∪ dying) d (table s) ptrs)
      as (T' & ptrs' & -> & HT' & Hp').
    { by apply lookup_union_None. }
    { done. }
    { apply HC. }
    { apply Hptrs. left. }
    rewrite !bind_Some_eq.
    set (s1 := mkIndexer T' _ _ _ _ _ _ _).
    assert (Hunion : <[DocId d:=d]> live ∪ dying = <[DocId d:=d]> (live ∪ dying)).
    { by rewrite insert_union_l. }
    destruct (IH s1 ptrs' (<[DocId d:=d]> live) dying (p2 ∖ {[DocId d]}))
      as (s' & ptrs'' & -> & HC' & Heq); [|done|done|..].
    + split.
      * apply map_disjoint_insert_l_2; [done|apply HC].
      * intros id [Hid Hne']%elem_of_difference. apply (core_p2 _ _ _ _ HC) in Hid as [??].
        split; [|done]. apply lookup_insert_None. split; [done|]. set_solver.
      * simpl. by rewrite Hunion.
      * intros id. simpl. unfold stateOf. destruct (decide (DocId d = id)) as [<-|Hid].
        -- by rewrite !lookup_insert.
        -- rewrite !lookup_insert_ne by done. rewrite (core_state _ _ _ _ HC). unfold stateOf.
           destruct (live !! id); [done|]. destruct (dying !! id); [done|].
           destruct (decide (id ∈ p2)), (decide (id ∈ p2 ∖ {[DocId d]})); try done; set_solver.
      * apply HC.
      * intros id. apply HC.
      * simpl. rewrite (core_num _ _ _ _ HC). rewrite map_size_insert_None by done. lia.
      * rewrite Hunion. apply map_Forall_insert_2; [done|apply HC].
      * intros id. simpl. rewrite Hunion. destruct (decide (DocId d = id)) as [<-|Hid].
        -- rewrite lookup_insert, bind_Some_eq. destruct (f_eqb (TokenLen d) f_zero); simpl.
           ++ rewrite (core_lens _ _ _ _ HC). by rewrite (proj2 (lookup_union_None _ _ _)).
           ++ by rewrite lookup_insert.
        -- rewrite lookup_insert_ne by done.
           destruct (f_eqb (TokenLen d) f_zero); simpl; [apply HC|].
           rewrite lookup_insert_ne by done. apply HC.
    + intros d' Hd'. rewrite lookup_insert_ne by (apply not_eq_sym; by apply Hne).
      apply Hfresh. by right.
    + intros d' Hd'. simpl. eapply ptrs_ok_mono; [|exact Hp']. by apply Hd.
    + exists s', ptrs''. split; [done|]. split; [|done].
      rewrite insertAll_cons.
      replace (p2 ∖ list_to_set (ids (d :: docs)))
        with (p2 ∖ {[DocId d]} ∖ list_to_set (ids docs)); [done|].
      unfold ids. rewrite fmap_cons. set_solver.
Qed.

Lemma AddDocs_core docs s live dying p2 :
  Core s live dying p2 →
  StronglySorted doc_le docs →
  Forall (λ d, NoDup (texts d)) docs →
  (∀ d, d ∈ docs → live !! DocId d = None ∧ dying !! DocId d = None) →
  ∃ s', AddDocs docs s = Some s' ∧
    Core s' (insertAll docs live) dying (p2 ∖ list_to_set (ids docs)) ∧
    addCache s' = addCache s ∧ removeCache s' = removeCache s ∧ initOptions s' = initOptions s.
Proof.
  intros HC Hs Hnd Hf. unfold AddDocs.
  destruct (addDocsLoop_core docs s ∅ live dying p2) as (s' & p' & -> & HC' & Heq); try done.
  by exists s'.
Qed.

(** * RemoveDocs *)

Lemma removeStates_spec docs : ∀ s,
  table (removeStates docs s) = table s ∧ addCache (removeStates docs s) = addCache s ∧
  removeCache (removeStates docs s) = removeCache s ∧
  initOptions (removeStates docs s) = initOptions s ∧ numDocs (removeStates docs s) = numDocs s ∧
  (∀ id, docsState (removeStates docs s) !! id =
         if decide (id ∈ docs) then None else docsState s !! id) ∧
  (∀ id, docTokenLens (removeStates docs s) !! id =
         if decide (id ∈ docs) then None else docTokenLens s !! id).
Proof.
  induction docs as [|d docs IH]; intros s.
  - simpl. repeat (split; [done|]). split; intros id;
      destruct (decide (id ∈ [])) as [Hin|]; try done; by apply elem_of_nil in Hin.
  - unfold removeStates. cbn [foldl].
    set (s1 := mkIndexer _ _ _ _ _ _ _ _). destruct (IH s1) as (H1 & H2 & H3 & H4 & H5 & H6 & H7).
    fold (removeStates docs s1). repeat (split; [done|]). split; intros id.
    + rewrite H6. destruct (decide (id ∈ docs)), (decide (id ∈ d :: docs)) as [Hin|Hnin]; try done.
      * exfalso. apply Hnin. by right.
      * apply elem_of_cons in Hin as [->|]; [|done]. simpl. by rewrite lookup_delete.
      * simpl. apply not_elem_of_cons in Hnin as [??]. by rewrite lookup_delete_ne.
    + rewrite H7. destruct (decide (id ∈ docs)), (decide (id ∈ d :: docs)) as [Hin|Hnin]; try done.
      * exfalso. apply Hnin. by right.
      * apply elem_of_cons in Hin as [->|]; [|done]. simpl. by rewrite lookup_delete.
      * simpl. apply not_elem_of_cons in Hnin as [??]. by rewrite lookup_delete_ne.
Qed.

Lemma without_dying docs live dying :
  live ##ₘ dying → (∀ id, id ∈ docs ↔ is_Some (dying !! id)) →
  without docs (live ∪ dying) = live.
Proof.
  intros Hdisj Hdocs. apply map_eq. intros id. rewrite without_lookup.
  destruct (decide (id ∈ docs)) as [Hin|Hnin].
  - apply Hdocs in Hin as [d Hd]. symmetry.
    eapply map_disjoint_Some_r; done.
  - destruct (dying !! id) eqn:E; [exfalso; apply Hnin, Hdocs; eauto|].
    by rewrite lookup_union_l.
Qed.

Lemma RemoveDocs_core docs s live dying p2 :
  Core s live dying p2 →
  StronglySorted sle docs →
  (∀ id, id ∈ docs ↔ is_Some (dying !! id)) →
  ∃ s', RemoveDocs docs (setRemoveCache [] s) = Some s' ∧
    Core s' live ∅ p2 ∧
    addCache s' = addCache s ∧ removeCache s' = [] ∧ initOptions s' = initOptions s.
Proof.
  intros HC Hs Hdocs. unfold RemoveDocs. cbv zeta.
  set (s0 := setRemoveCache [] s).
  destruct (removeStates_spec docs s0) as (H1 & H2 & H3 & H4 & H5 & H6 & H7).
  rewrite H1. simpl (table s0). simpl (initOptions s0).
  destruct (removeRows_ok (IndexType (initOptions s)) docs (live ∪ dying) (table s)) as [HF HT];
    [done|apply HC|].
  rewrite decide_True by done. eexists. split; [done|]. simpl.
  rewrite H2, H3, H4, H5. simpl. split; [|done].
  assert (Hwo := without_dying _ _ _ (core_disj _ _ _ _ HC) Hdocs).
  split; simpl.
  - apply map_disjoint_empty_r.
  - intros id Hid. split; [by apply (core_p2 _ _ _ _ HC)|done].
  - rewrite right_id_L by apply _. by rewrite <- Hwo.
  - intros id. rewrite H6. simpl. rewrite (core_state _ _ _ _ HC). unfold stateOf.
    rewrite lookup_empty. destruct (decide (id ∈ docs)) as [Hin|Hnin].
    + apply Hdocs in Hin as [d Hd].
      assert (live !! id = None) as -> by (eapply map_disjoint_Some_r; [apply HC|done]).
      destruct (decide (id ∈ p2)) as [Hp|]; [|done].
      apply (core_p2 _ _ _ _ HC) in Hp as [_ ?]. congruence.
    + destruct (live !! id); [done|].
      destruct (dying !! id) eqn:E; [|done]. exfalso. apply Hnin, Hdocs. eauto.
  - constructor.
  - intros id. rewrite lookup_empty. split; [by intros ?%elem_of_nil|by intros []].
  - apply HC.
  - rewrite right_id_L by apply _. pose proof (core_ids _ _ _ _ HC) as Hids.
    by apply map_Forall_union_1_1 in Hids.
  - intros id. rewrite H7. simpl. rewrite (core_lens _ _ _ _ HC).
    rewrite (right_id_L ∅ (∪) live).
    assert (live !! id = if decide (id ∈ docs) then None else (live ∪ dying) !! id) as ->
      by (rewrite <- without_lookup; by rewrite Hwo).
    by destruct (decide (id ∈ docs)).
Qed.

(** * RemoveDocToCache *)

Lemma sortIds_perm l : sortIds l ≡ₚ l.
Proof. apply merge_sort_Permutation. Qed.
Lemma sortIds_sorted l : StronglySorted sle (sortIds l).
Proof. apply Sorted_StronglySorted; [apply _|]. apply Sorted_merge_sort. apply _. Qed.

Lemma core_rc_size s live dying p2 : Core s live dying p2 → length (removeCache s) = size dying.
Proof.
  intros HC. rewrite <- size_dom, <- (size_list_to_set (C:=gset string) (removeCache s))
    by apply HC. f_equal. apply set_eq. intros id.
  rewrite elem_of_list_to_set, elem_of_dom. apply HC.
Qed.

Definition cap (s : Indexer) : Z := DocCacheSize (initOptions s).

(** The flush part of RemoveDocToCache (what the call with id "0" does). *)
Lemma RemoveDocToCache_flush s live dying p2 force :
  Core s live dying p2 →
  ∃ s' b, RemoveDocToCache "0" force s = Some (s', b) ∧
    b = (0 <? Z.of_nat (size dying)) && ((cap s <=? Z.of_nat (size dying)) || force) ∧
    Core s' live (if b then ∅ else dying) p2 ∧
    addCache s' = addCache s ∧ initOptions s' = initOptions s.
Proof.
  intros HC. unfold RemoveDocToCache, markRemove. rewrite seqb_refl. rewrite bind_Some_eq.
  cbv zeta. unfold zlen. rewrite (core_rc_size _ _ _ _ HC). fold (cap s).
  destruct ((0 <? Z.of_nat (size dying)) && ((cap s <=? Z.of_nat (size dying)) || force)) eqn:E.
  - destruct (RemoveDocs_core (sortIds (removeCache s)) s live dying p2)
      as (s' & -> & HC' & H1 & H2 & H3); [done|apply sortIds_sorted| |].
    { intros id. rewrite sortIds_perm. apply HC. }
    exists s', true. rewrite bind_Some_eq. done.
  - exists s, false. done.
Qed.

Lemma pushRemove_ok id s :
  zlen (removeCache s) < 2 * cap s →
  pushRemove id s = Some (setRemoveCache (removeCache s ++ [id]) s).
Proof.
  intros H. unfold pushRemove. fold (cap s). destruct (Z.ltb_spec (zlen (removeCache s)) (2 * cap s)); [done|lia].
Qed.

(** Moving a live document to the dying ones. *)
Lemma core_kill s live dying p2 id d :
  Core s live dying p2 → live !! id = Some d →
  Core (setState id 1 (-1) (setRemoveCache (removeCache s ++ [id]) s))
       (delete id live) (<[id:=d]> dying) p2.
Proof.
  intros HC Hid.
  assert (Hdy : dying !! id = None) by (eapply map_disjoint_Some_l; [apply HC|done]).
  assert (Hunion : delete id live ∪ <[id:=d]> dying = live ∪ dying).
  { rewrite <- insert_union_r by (by rewrite lookup_delete).
    rewrite insert_union_l, insert_delete by done. done. }
  split; simpl.
  - apply map_disjoint_insert_r_2; [by rewrite lookup_delete|].
    apply map_disjoint_delete_l, HC.
  - intros id' Hid'. apply (core_p2 _ _ _ _ HC) in Hid' as [Hl' Hd'].
    assert (id ≠ id') by (intros ->; congruence).
    by rewrite lookup_delete_ne, lookup_insert_ne.
  - rewrite Hunion. apply HC.
  - intros id'. unfold stateOf. destruct (decide (id = id')) as [<-|].
    + by rewrite !lookup_insert, lookup_delete.
    + rewrite !lookup_insert_ne, lookup_delete_ne by done. apply HC.
  - apply NoDup_app. split; [apply HC|]. split; [|apply NoDup_singleton].
    intros x Hx ->%elem_of_list_singleton. apply (core_rc _ _ _ _ HC) in Hx as [? Hx]. congruence.
  - intros id'. rewrite elem_of_app, elem_of_list_singleton, (core_rc _ _ _ _ HC).
    destruct (decide (id = id')) as [<-|].
    + rewrite lookup_insert. split; [eauto|by right].
    + rewrite lookup_insert_ne by done. naive_solver.
  - rewrite (core_num _ _ _ _ HC). rewrite map_size_delete. rewrite Hid.
    assert (size live ≠ 0%nat) by (apply map_size_non_empty_iff; intros ->; by rewrite lookup_empty in Hid).
    lia.
  - rewrite Hunion. apply HC.
  - intros id'. rewrite Hunion. apply HC.
Qed.

(** The whole RemoveDocToCache. *)
Lemma markRemove_core s live dying docId :
  Core s live dying ∅ → zlen (removeCache s) < 2 * cap s →
  ∃ s', markRemove docId s = Some s' ∧
    addCache s' = addCache s ∧ initOptions s' = initOptions s ∧
    match live !! docId with
    | Some d => if decide (docId = "0") then s' = s
                else Core s' (delete docId live) (<[docId:=d]> dying) ∅
    | None => s' = s
    end.
Proof.
  intros HC Hcap. unfold markRemove. destruct (seqb docId "0") eqn:E0.
  - apply seqb_eq in E0. exists s. repeat (split; [done|]).
    destruct (live !! docId); [|done]. by rewrite decide_True.
  - apply seqb_neq in E0. rewrite (core_state _ _ _ _ HC). unfold stateOf.
    destruct (live !! docId) as [d|] eqn:El.
    + rewrite pushRemove_ok by done. rewrite bind_Some_eq. eexists. split; [done|].
      split; [done|]. split; [done|]. rewrite decide_False by done.
      by apply core_kill.
    + exists s. destruct (dying !! docId); [done|].
      destruct (decide (docId ∈ ∅)) as [Hin|]; [set_solver|done].
Qed.
