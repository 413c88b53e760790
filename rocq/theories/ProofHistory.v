(** Invariants along histories. *)
From Verif Require Import ModelLookup SpecIndexer ProofSearch ProofTable ProofIndexer ProofCache.

Section Hist.
  Context (sortDocs : list DocIndex → list DocIndex) (Hsort : valid_sort sortDocs).

  (** One step of the abstract machine. *)
  Definition allDocs (s : Indexer) (live dying : docmap) (d : DocIndex) : Prop :=
    d ∈ addCache s ∨ (∃ id, live !! id = Some d) ∨ (∃ id, dying !! id = Some d).

  Lemma insertAll_lookup_inv docs M id d :
    insertAll docs M !! id = Some d → d ∈ docs ∨ M !! id = Some d.
  Proof.
    intros H. destruct (decide (id ∈ ids docs)) as [Hin|Hnin].
    - destruct (insertAll_lookup_in docs M id Hin) as (d' & H' & Hd' & _).
      left. congruence.
    - right. by rewrite insertAll_lookup_notin in H.
  Qed.

  Lemma wait_lt doc force s s' :
    AddDocToCache sortDocs doc force s = Some s' →
    match doc with Some _ => zlen (addCache s) < cap s | None => True end.
  Proof.
    destruct doc as [d|]; [|done]. intros H.
    destruct (Z.lt_ge_cases (zlen (addCache s)) (cap s)); [done|].
    by rewrite AddDocToCache_full in H.
  Qed.

  Lemma step_inv s live dying o s' :
    Inv s live dying → good_op o → step sortDocs s o = Some s' →
    ∃ live' dying', Inv s' live' dying' ∧ initOptions s' = initOptions s ∧
      ∀ d, allDocs s' live' dying' d → allDocs s live dying d ∨ ∃ f, o = OpAdd (Some d) f.
  Proof.
    intros HI Hg Hstep. destruct o as [doc force|id force].
    - simpl in Hstep. pose proof (wait_lt _ _ _ _ Hstep) as Hlt.
      assert (HW : ∀ d, d ∈ waiting doc s → allDocs s live dying d ∨ ∃ f, OpAdd doc force = OpAdd (Some d) f).
      { unfold waiting. intros d [?|Hd]%elem_of_app; [left; by left|]. destruct doc.
        - apply elem_of_list_singleton in Hd as ->. right. by eexists.
        - by apply elem_of_nil in Hd. }
      assert (Hl1 : ∀ W id d, live1 W live !! id = Some d → live !! id = Some d).
      { intros W id d. rewrite live1_lookup. by destruct (decide _). }
      assert (Hd1 : ∀ W id d, dying1 W live dying !! id = Some d → live !! id = Some d ∨ dying !! id = Some d).
      { intros W id d. rewrite dying1_lookup. destruct (dying !! id); [by right|].
        destruct (decide _); [by left|done]. }
      destruct (AddDocToCache_inv sortDocs Hsort doc force s live dying) as (s1 & Hrun & Ho & Hcase);
        [done|destruct doc; [done|done]|].
      rewrite Hstep in Hrun. injection Hrun as <-.
      destruct (addFlush s (waiting doc s) force).
      + cbv zeta in Hcase. destruct (rmFlush s _ force).
        * destruct Hcase as (l & Hl & Hs & HI' & Hc). exists (insertAll l (live1 (waiting doc s) live)), ∅.
          split; [done|]. split; [done|]. intros d [Hd|[[id Hd]|[id Hd]]].
          -- rewrite Hc in Hd. by apply elem_of_nil in Hd.
          -- apply insertAll_lookup_inv in Hd as [Hd|Hd].
             ++ apply HW. by rewrite <- Hl.
             ++ left. right. left. exists id. eauto.
          -- by rewrite lookup_empty in Hd.
        * destruct Hcase as (kept & other & l & Hko & _ & _ & Hl & Hs & HI' & Hc).
          exists (insertAll l (live1 (waiting doc s) live)), (dying1 (waiting doc s) live dying).
          split; [done|]. split; [done|]. intros d [Hd|[[id Hd]|[id Hd]]].
          -- rewrite Hc in Hd. apply HW. rewrite <- Hko. apply elem_of_app. by left.
          -- apply insertAll_lookup_inv in Hd as [Hd|Hd].
             ++ apply HW. rewrite <- Hko. apply elem_of_app. right. by rewrite <- Hl.
             ++ left. right. left. exists id. eauto.
          -- left. right. apply Hd1 in Hd as [?|?]; [left|right]; by exists id.
      + destruct Hcase as [HI' Hc]. exists live, dying. split; [done|]. split; [done|].
        intros d [Hd|Hd].
        * rewrite Hc in Hd. by apply HW.
        * left. by right.
    - simpl in Hstep.
      pose proof (RemoveDocToCache_inv s live dying id force HI) as HR.
      destruct (aMark id live dying) as [l' d'] eqn:EM.
      destruct HR as (s1 & Hrun & HI' & Hc & Ho). rewrite Hrun in Hstep. rewrite bind_Some_eq in Hstep.
      injection Hstep as <-. eexists _, _. split; [done|]. split; [done|].
      assert (Hl : ∀ id d, l' !! id = Some d → live !! id = Some d).
      { intros i d. unfold aMark in EM. destruct (decide (id = "0")); [by simplify_eq|].
        destruct (live !! id) eqn:E; [|by simplify_eq]. injection EM as <- <-.
        intros [_ ?]%lookup_delete_Some. done. }
      assert (Hd : ∀ i d, d' !! i = Some d → dying !! i = Some d ∨ live !! i = Some d).
      { intros i d. unfold aMark in EM. destruct (decide (id = "0")); [injection EM as <- <-; by left|].
        destruct (live !! id) eqn:E; [|injection EM as <- <-; by left]. injection EM as <- <-.
        intros [[<- <-]|[_ ?]]%lookup_insert_Some; [by right|by left]. }
      intros d [Hx|[[i Hx]|[i Hx]]].
      + left. left. by rewrite <- Hc.
      + left. right. left. exists i. eauto.
      + left. right. destruct (rmFlush s d' force); [by rewrite lookup_empty in Hx|].
        apply Hd in Hx as [?|?]; [right|left]; by exists i.
  Qed.

  Lemma run_app ops1 ops2 s :
    run sortDocs (ops1 ++ ops2) s = run sortDocs ops1 s ≫= run sortDocs ops2.
  Proof.
    revert s. induction ops1 as [|o ops1 IH]; intros s; [done|].
    unfold run in *. simpl. destruct (step sortDocs s o); simpl; [apply IH|done].
  Qed.

  Lemma run_inv ops : ∀ s live dying s',
    Inv s live dying → Forall good_op ops → run sortDocs ops s = Some s' →
    ∃ live' dying', Inv s' live' dying' ∧ initOptions s' = initOptions s ∧
      ∀ d, allDocs s' live' dying' d → allDocs s live dying d ∨ added d ops.
  Proof.
    induction ops as [|o ops IH]; intros s live dying s' HI Hg Hrun.
    - injection Hrun as <-. exists live, dying. split; [done|]. split; [done|]. by left.
    - inversion Hg as [|? ? Hgo Hgs]; subst. unfold run in Hrun. simpl in Hrun.
      destruct (step sortDocs s o) as [s1|] eqn:E; [|done]. simpl in Hrun.
      destruct (step_inv s live dying o s1 HI Hgo E) as (live1 & dying1 & HI1 & Ho1 & Hd1).
      destruct (IH s1 live1 dying1 s' HI1 Hgs Hrun) as (live2 & dying2 & HI2 & Ho2 & Hd2).
      exists live2, dying2. split; [done|]. split; [congruence|].
      intros d Hd. apply Hd2 in Hd as [Hd|[f Hf]].
      + apply Hd1 in Hd as [?|[f ->]]; [by left|]. right. exists f. left.
      + right. exists f. by right.
  Qed.
End Hist.

Lemma reach_inv sortDocs o ops s :
  reach sortDocs o ops s →
  ∃ live dying, Inv s live dying ∧ initOptions s = optsInit o ∧
    ∀ d, allDocs s live dying d → added d ops.
Proof.
  intros (Hsort & Hg & s0 & Hi & Hrun). destruct (Init_inv o s0 Hi) as [HI Hc].
  destruct (run_inv sortDocs Hsort ops s0 ∅ ∅ s HI Hg Hrun) as (live & dying & HI' & Ho & Hd).
  exists live, dying. split; [done|]. split.
  - rewrite Ho. unfold Init in Hi. destruct (_ <? _); [done|]. by injection Hi as <-.
  - intros d Hd'. apply Hd in Hd' as [[Hx|[[i Hx]|[i Hx]]]|?]; [..|done].
    + rewrite Hc in Hx. by apply elem_of_nil in Hx.
    + by rewrite lookup_empty in Hx.
    + by rewrite lookup_empty in Hx.
Qed.

(** * What an indexer in a good state shows *)

Lemma inv_hasdoc s live dying id : Inv s live dying → HasDoc s id = true ↔ is_Some (live !! id).
Proof.
  intros HI. unfold HasDoc. rewrite (core_state _ _ _ _ (inv_core _ _ _ HI)). unfold stateOf.
  destruct (live !! id); [split; [eauto|done]|].
  destruct (dying !! id); [split; [done|by intros []]|].
  destruct (decide _); split; try done; try (by intros []); set_solver.
Qed.

Lemma in_row_iff ity D s k id :
  table_ok ity D (table s) → in_row s k id ↔ is_Some (kwOf D k id).
Proof.
  intros HT. unfold in_row. specialize (HT k). destruct (table s !! k) as [r|] eqn:E.
  - rewrite <- (row_ok_ids _ _ _ _ HT). split; [by intros (? & [= <-] & ?)|eauto].
  - rewrite HT. split; [by intros (? & ? & ?)|by intros []].
Qed.

Lemma find_kw_in k kws kw :
  NoDup (Text <$> kws) → kw ∈ kws → Text kw = k → find_kw k kws = Some kw.
Proof.
  intros Hnd Hin <-. destruct (find_kw (Text kw) kws) as [kw'|] eqn:E.
  - apply find_kw_Some in E as [Hin' Ht]. f_equal.
    apply elem_of_list_lookup in Hin as [i Hi]. apply elem_of_list_lookup in Hin' as [j Hj].
    assert (i = j) as ->; [|congruence].
    eapply NoDup_lookup; [done| |]; rewrite list_lookup_fmap, ?Hi, ?Hj; simpl; [done|by f_equal].
  - apply find_kw_None in E. exfalso. apply E. by apply elem_of_list_fmap_1.
Qed.

Lemma kwOf_is_Some D k id d :
  D !! id = Some d → is_Some (kwOf D k id) ↔ k ∈ Text <$> Keywords d.
Proof.
  intros Hd. unfold kwOf. rewrite Hd. simpl. destruct (find_kw k (Keywords d)) eqn:E.
  - apply find_kw_Some in E as [Hin <-]. split; [|by eexists]. intros _. by apply elem_of_list_fmap_1.
  - apply find_kw_None in E. split; [by intros []|done].
Qed.

Lemma union_live (live dying : docmap) id d : live !! id = Some d → (live ∪ dying) !! id = Some d.
Proof. apply lookup_union_Some_l. Qed.

Lemma row_ok_entry ity g r id kw :
  row_ok ity g r → g id = Some kw →
  ∃ i, docIds r !! i = Some id ∧
    (ity = FrequenciesIndex → frequencies r !! i = Some (Frequency kw)) ∧
    (ity = LocsIndex → locations r !! i = Some (Starts kw)).
Proof.
  intros (es & -> & _ & _ & Hes) Hg. apply Hes, elem_of_list_lookup in Hg as [i Hi].
  exists i. unfold row_of. simpl. rewrite list_lookup_fmap, Hi. split; [done|]. split.
  - intros ->. simpl. by rewrite list_lookup_fmap, Hi.
  - intros ->. simpl. by rewrite list_lookup_fmap, Hi.
Qed.

Lemma inv_shows s live dying : Inv s live dying → shows s live.
Proof.
  intros HI. pose proof (inv_core _ _ _ HI) as HC. split; [|split; [|split]].
  - intros id. by apply (inv_hasdoc _ _ _ _ HI).
  - intros id d Hd. apply (union_live live dying) in Hd. by apply (core_ids _ _ _ _ HC) in Hd as [? _].
  - intros id d k Hd. rewrite (in_row_iff _ _ _ _ _ (core_table _ _ _ _ HC)).
    apply kwOf_is_Some. by apply union_live.
  - intros id d kw Hd Hkw.
    pose proof (union_live live dying _ _ Hd) as Hu.
    destruct (core_ids _ _ _ _ HC _ _ Hu) as [_ Hnd].
    assert (Hf : kwOf (live ∪ dying) (Text kw) id = Some kw).
    { unfold kwOf. rewrite Hu. simpl. by apply find_kw_in. }
    pose proof (core_table _ _ _ _ HC (Text kw)) as HT.
    destruct (table s !! Text kw) as [r|] eqn:E.
    + destruct (row_ok_entry _ _ _ _ _ HT Hf) as (i & ? & ? & ?). exists r, i. done.
    + congruence.
Qed.

Lemma inv_clean s live : Inv s live ∅ → clean s live.
Proof.
  intros HI k id. rewrite (in_row_iff _ _ _ _ _ (core_table _ _ _ _ (inv_core _ _ _ HI))).
  rewrite (right_id_L ∅ (∪) live). unfold kwOf. destruct (live !! id); [eauto|by intros []].
Qed.
