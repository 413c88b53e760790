(** Indexer write side: the lemmas behind PropIndexer.v. *)
From Verif Require Import ModelLookup SpecIndexer ProofSearch ProofTable ProofIndexer ProofCache ProofHistory.

(** A concrete admissible sort. *)
Global Instance doc_le_dec : RelDecision doc_le.
Proof. unfold doc_le. intros x y. apply _. Defined.
Global Instance doc_le_total : Total doc_le.
Proof. intros x y. unfold doc_le. apply (total sle). Qed.
Global Instance doc_le_trans : Transitive doc_le.
Proof. intros x y z. unfold doc_le. apply transitivity. Qed.
(** Insertion sort: what Go's sort.Sort does on fewer than 12 elements. *)
Fixpoint insSorted (x : DocIndex) (l : list DocIndex) : list DocIndex :=
  match l with
  | [] => [x]
  | y :: l' => if decide (doc_le x y) then x :: l else y :: insSorted x l'
  end.
Definition stableSort (l : list DocIndex) : list DocIndex := foldr insSorted [] l.

Lemma insSorted_perm x l : insSorted x l ≡ₚ x :: l.
Proof.
  induction l as [|y l IH]; [done|]. cbn [insSorted]. case_decide; [done|].
  rewrite IH. constructor.
Qed.
Lemma insSorted_sorted x l : StronglySorted doc_le l → StronglySorted doc_le (insSorted x l).
Proof.
  induction 1 as [|y l Hs IH Hy]; [repeat constructor|]. cbn [insSorted]. case_decide as Hle.
  - constructor; [by constructor|]. constructor; [done|]. eapply Forall_impl; [exact Hy|].
    intros z Hz. by trans y.
  - constructor; [done|]. rewrite insSorted_perm. constructor; [|done].
    by destruct (total doc_le x y).
Qed.
Lemma stableSort_valid : valid_sort stableSort.
Proof.
  intros l. induction l as [|x l [IH1 IH2]]; [split; [done|constructor]|]. split.
  - change (stableSort (x :: l)) with (insSorted x (stableSort l)). rewrite insSorted_perm. by rewrite IH1.
  - by apply insSorted_sorted.
Qed.
(** It is stable: documents with the same id keep their order. *)
Lemma stableSort_stable id l :
  filter (λ d, DocId d = id) (stableSort l) = filter (λ d, DocId d = id) l.
Proof.
  assert (Hins : ∀ x l, filter (λ d, DocId d = id) (insSorted x l) = filter (λ d, DocId d = id) (x :: l)).
  { intros x k. induction k as [|y k IH]; [done|]. cbn [insSorted]. case_decide as Hle; [done|].
    rewrite (filter_cons _ y), IH, !filter_cons.
    destruct (decide (DocId x = id)) as [Hx|]; [|done]. destruct (decide (DocId y = id)) as [Hy|]; [|done].
    exfalso. apply Hle. unfold doc_le. rewrite Hx, Hy. apply sle_refl. }
  induction l as [|x l IH]; [done|].
  change (stableSort (x :: l)) with (insSorted x (stableSort l)). rewrite Hins, !filter_cons, IH. done.
Qed.

(** * C01 *)
Lemma row_ok_wf ity g r : row_ok ity g r → row_wf ity r.
Proof.
  intros (es & -> & Hne & Hs & _). unfold row_wf, row_of. simpl. split; [done|]. split.
  - intros H%fmap_nil_inv. done.
  - rewrite fmap_length. destruct (ity =? _), (ity =? _); rewrite ?fmap_length; done.
Qed.

Lemma rows_wf sortDocs o ops s k r :
  reach sortDocs o ops s → table s !! k = Some r → row_wf (IndexType o) r.
Proof.
  intros HR Hk. destruct (reach_inv _ _ _ _ HR) as (live & dying & HI & Ho & _).
  pose proof (core_table _ _ _ _ (inv_core _ _ _ HI) k) as HT. rewrite Hk, Ho in HT.
  by apply row_ok_wf in HT.
Qed.

(** * C02 *)
Lemma searchIndex_exact ids start end_ id :
  StronglySorted slt ids → 0 <= start → start <= end_ → end_ < zlen ids →
  ∃ p b, searchIndex ids start end_ id = Some (p, b) ∧
    start <= p <= end_ + 1 ∧
    (b = true ↔ ∃ i, start <= i <= end_ ∧ zget ids i = Some id) ∧
    (b = true → zget ids p = Some id) ∧
    (b = false → (∀ i x, start <= i < p → zget ids i = Some x → slt x id) ∧
                 (∀ i x, p <= i <= end_ → zget ids i = Some x → slt id x)).
Proof.
  intros Hs H0 Hse He. destruct (searchIndex_spec ids start end_ id) as (p & b & Hrun & Hpl);
    [done|lia|lia|].
  exists p, b. split; [done|]. destruct Hpl as (Hp & H1 & H2 & H3). split; [done|].
  destruct b.
  - destruct H3 as [H3 H4]. split; [|split; [done|done]]. split; [|done].
    intros _. exists p. split; [lia|done].
  - assert (Hge : ∀ i x, p <= i <= end_ → zget ids i = Some x → slt id x).
    { intros i x Hi Hx. destruct (decide (i = p)) as [->|]; [apply H3; [lia|done]|].
      eapply H2; [|done]. lia. }
    split; [|split; [done|done]]. split; [done|].
    intros (i & Hi & Hx). exfalso. destruct (Z.lt_ge_cases i p).
    + eapply slt_irrefl, H1; [|done]. lia.
    + eapply slt_irrefl, Hge; [|done]. lia.
Qed.

(** * C08 *)
Lemma row_wf_entries ity r : row_wf ity r →
  ∃ es, r = row_of ity es ∧ es ≠ [] ∧ StronglySorted slt (fst <$> es).
Proof.
  intros (Hs & Hne & Hf & Hl). destruct r as [I Fq L]. simpl in *.
  set (es := imap (λ i id, (id, mkKw "" (nth i Fq f_zero) (nth i L []))) I).
  assert (Hcol : ∀ A (f : entry → A) col d, length col = length I →
      (∀ i id, f (id, mkKw "" (nth i Fq f_zero) (nth i L [])) = nth i col d) →
      f <$> es = col).
  { intros A f col d Hlen Heq. apply list_eq. intros i. rewrite list_lookup_fmap. unfold es.
    rewrite list_lookup_imap. destruct (I !! i) as [id|] eqn:E; simpl.
    - rewrite Heq. destruct (lookup_lt_is_Some_2 col i) as [x Hx].
      { rewrite Hlen. by eapply lookup_lt_Some. }
      rewrite Hx. f_equal. by apply nth_lookup_Some.
    - symmetry. apply lookup_ge_None. rewrite Hlen. by apply lookup_ge_None. }
  exists es. assert (Hfst : fst <$> es = I).
  { apply list_eq. intros i. rewrite list_lookup_fmap. unfold es.
    rewrite list_lookup_imap. by destruct (I !! i). }
  split; [|split].
  - unfold row_of. rewrite Hfst. f_equal.
    + destruct (ity =? FrequenciesIndex); [|by apply nil_length_inv].
      symmetry. by apply (Hcol _ (λ e, Frequency e.2) Fq f_zero).
    + destruct (ity =? LocsIndex); [|by apply nil_length_inv].
      symmetry. by apply (Hcol _ (λ e, Starts e.2) L []).
  - intros E. rewrite E in Hfst. by subst.
  - by rewrite Hfst.
Qed.

Lemma keepCol_row {A} (f : entry → A) docs es :
  keepCol docs (fst <$> es) (f <$> es) = f <$> keepE docs es.
Proof.
  unfold keepCol, keepE. induction es as [|e es IH]; [done|].
  rewrite !fmap_cons. cbn [zip zip_with]. rewrite !filter_cons. cbn [fst].
  destruct (decide (e.1 ∉ docs)); [|exact IH]. rewrite !fmap_cons. f_equal. exact IH.
Qed.

Lemma keepCol_nil {A} docs ids : @keepCol A docs ids [] = [].
Proof. unfold keepCol. by destruct ids. Qed.

Lemma row_after_of ity docs es :
  row_after docs (row_of ity es) =
  match keepE docs es with [] => None | es' => Some (row_of ity es') end.
Proof.
  unfold row_after. simpl.
  assert (Hf : filter (λ id, id ∉ docs) (fst <$> es) = fst <$> keepE docs es).
  { unfold keepE. induction es as [|e es IH]; [done|]. rewrite fmap_cons, !filter_cons. simpl.
    destruct (decide (e.1 ∉ docs)); simpl; by rewrite IH. }
  rewrite Hf. destruct (keepE docs es) as [|e es'] eqn:E; [done|].
  rewrite fmap_cons. f_equal. unfold row_of. f_equal.
  - destruct (ity =? _); [|apply keepCol_nil]. by rewrite keepCol_row, E.
  - destruct (ity =? _); [|apply keepCol_nil]. by rewrite keepCol_row, E.
Qed.

Lemma RemoveDocs_rows docs s :
  StronglySorted sle docs →
  (∀ k r, table s !! k = Some r → row_wf (IndexType (initOptions s)) r) →
  ∃ s', RemoveDocs docs s = Some s' ∧
    ∀ k, table s' !! k = table s !! k ≫= row_after docs.
Proof.
  intros Hs Hwf. unfold RemoveDocs. cbv zeta.
  destruct (removeStates_spec docs s) as (H1 & _). rewrite H1.
  assert (Hrow : ∀ k r, table s !! k = Some r →
    removeFromRow (IndexType (initOptions s)) docs r = Some (row_after docs r)).
  { intros k r Hk. destruct (row_wf_entries _ _ (Hwf _ _ Hk)) as (es & -> & Hne & Hse).
    by rewrite removeFromRow_spec, row_after_of. }
  rewrite decide_True.
  - eexists. split; [done|]. simpl. intros k. rewrite lookup_omap.
    destruct (table s !! k) as [r|] eqn:E; [|done]. simpl. by rewrite (Hrow k r E).
  - intros k r Hk. rewrite (Hrow k r Hk). eauto.
Qed.

(** * C10 *)
Lemma numDocs_count sortDocs o ops s : reach sortDocs o ops s → live_count s (numDocs s).
Proof.
  intros HR. destruct (reach_inv _ _ _ _ HR) as (live & dying & HI & Ho & _).
  exists (elements (dom live)). split; [apply NoDup_elements|]. split.
  - intros id. rewrite elem_of_elements, elem_of_dom. symmetry. by apply inv_hasdoc with dying.
  - rewrite (core_num _ _ _ _ (inv_core _ _ _ HI)). unfold zlen.
    change (length (elements (dom live))) with (size (dom live)). by rewrite size_dom.
Qed.

(** * C11 / C12 *)
Lemma remove_never_crashes sortDocs o ops s id force :
  reach sortDocs o ops s → is_Some (RemoveDocToCache id force s).
Proof.
  intros HR. destruct (reach_inv _ _ _ _ HR) as (live & dying & HI & _).
  pose proof (RemoveDocToCache_inv s live dying id force HI) as H.
  destruct (aMark id live dying). destruct H as (s' & -> & _). eauto.
Qed.

Lemma add_crashes_iff sortDocs o ops s doc force :
  reach sortDocs o ops s →
  (match doc with Some d => good_doc d | None => True end) →
  AddDocToCache sortDocs doc force s = None ↔
  (∃ d, doc = Some d) ∧ zlen (addCache s) = DocCacheSize (initOptions s).
Proof.
  intros HR Hg. destruct (reach_inv _ _ _ _ HR) as (live & dying & HI & _).
  pose proof (inv_ac _ _ _ HI) as Hac. fold (cap s). split.
  - intros Hnone. destruct doc as [d|].
    + split; [by exists d|]. destruct (Z.lt_ge_cases (zlen (addCache s)) (cap s)); [|lia].
      destruct (AddDocToCache_inv sortDocs (proj1 HR) (Some d) force s live dying)
        as (s' & Hs' & _); [done..|]. congruence.
    + destruct (AddDocToCache_inv sortDocs (proj1 HR) None force s live dying)
        as (s' & Hs' & _); [done..|]. congruence.
  - intros [[d ->] Hfull]. apply AddDocToCache_full. unfold cap in *. lia.
Qed.

Definition roomy (s : Indexer) : Prop := NoDup (ids (addCache s)) ∧ zlen (addCache s) < cap s.

Lemma ids_sub_size (W : list DocIndex) (D : docmap) :
  NoDup (ids W) → (∀ d, d ∈ W → is_Some (D !! DocId d)) → (length W ≤ size D)%nat.
Proof.
  intros Hnd Hin. rewrite <- (fmap_length DocId W). fold (ids W).
  rewrite <- (size_list_to_set (C:=gset string) (ids W)) by done. rewrite <- size_dom.
  apply subseteq_size. intros id. rewrite elem_of_list_to_set, elem_of_dom.
  unfold ids. intros (d & -> & Hd)%elem_of_list_fmap. by apply Hin.
Qed.

Section Hist.
  Context (sortDocs : list DocIndex → list DocIndex) (Hsort : valid_sort sortDocs).

  Lemma waiting_nodup doc s :
    NoDup (ids (addCache s)) →
    (match doc with Some d => ¬ waits s (DocId d) | None => True end) →
    NoDup (ids (waiting doc s)).
  Proof.
    intros Hnd Hw. unfold waiting, ids. rewrite fmap_app. destruct doc as [d|]; simpl.
    - apply NoDup_app. split; [done|]. split; [|apply NoDup_singleton].
      intros x Hx ->%elem_of_list_singleton. by apply Hw.
    - by rewrite app_nil_r.
  Qed.

  Lemma step_roomy s live dying o :
    Inv s live dying → roomy s → good_op o →
    (match o with OpAdd (Some d) _ => ¬ waits s (DocId d) | _ => True end) →
    ∃ s', step sortDocs s o = Some s' ∧ roomy s'.
  Proof.
    intros HI [Hnd Hlt] Hg Hw. destruct o as [doc force|id force]; simpl.
    - destruct (AddDocToCache_inv sortDocs Hsort doc force s live dying) as (s1 & Hrun & Ho & Hcase);
        [done|destruct doc; [done|done]|].
      exists s1. split; [done|].
      assert (Hcap : cap s1 = cap s) by (unfold cap; by rewrite Ho).
      pose proof (waiting_nodup doc s Hnd Hw) as HndW.
      destruct (addFlush s (waiting doc s) force) eqn:EA.
      + cbv zeta in Hcase. destruct (rmFlush s _ force) eqn:ER.
        * destruct Hcase as (l & _ & _ & HI' & Hc). split; rewrite Hc.
          -- constructor.
          -- rewrite zlen_nil. pose proof (inv_cap _ _ _ HI'). lia.
        * destruct Hcase as (kept & other & l & Hko & Hk & _ & Hl & _ & HI' & Hc).
          assert (Hnk : NoDup (ids kept)).
          { assert (NoDup (ids (kept ++ other))) as Hn by (unfold ids in *; by rewrite Hko).
            unfold ids in *. rewrite fmap_app in Hn. by apply NoDup_app in Hn as [? _]. }
          split; rewrite Hc; [done|].
          pose proof (ids_sub_size kept _ Hnk Hk) as Hsz.
          pose proof (size_dying_bound _ _ _ _ (inv_core _ _ _ HI')) as Hsd.
          pose proof (inv_rc _ _ _ HI'). unfold zlen. lia.
      + destruct Hcase as [HI' Hc]. split; rewrite Hc; [done|]. rewrite Hcap.
        unfold addFlush in EA. apply orb_false_iff in EA as [EA _]. apply Z.leb_gt in EA. lia.
    - pose proof (RemoveDocToCache_inv s live dying id force HI) as HR.
      destruct (aMark id live dying) as [l' d'].
      destruct HR as (s1 & -> & HI' & Hc & Ho). exists s1. split; [done|].
      unfold roomy, cap. by rewrite Hc, Ho.
  Qed.

  Lemma run_no_readd ops : ∀ s live dying,
    Inv s live dying → roomy s → Forall good_op ops → no_readd sortDocs ops s →
    is_Some (run sortDocs ops s).
  Proof.
    induction ops as [|o ops IH]; intros s live dying HI Hr Hg Hn; [by eexists|].
    inversion Hg as [|? ? Hgo Hgs]; subst. destruct Hn as [Hno Hns].
    destruct (step_roomy s live dying o) as (s1 & Hs1 & Hr1); [done..|].
    destruct (step_inv sortDocs Hsort s live dying o s1) as (live1 & dying1 & HI1 & _); [done..|].
    unfold run. simpl. rewrite Hs1. simpl. eapply IH; eauto.
  Qed.
End Hist.

Lemma no_readd_no_crash sortDocs o s0 ops :
  valid_sort sortDocs → Init o = Some s0 → Forall good_op ops → no_readd sortDocs ops s0 →
  is_Some (run sortDocs ops s0).
Proof.
  intros Hsort Hi Hg Hn. destruct (Init_inv o s0 Hi) as [HI Hc].
  eapply run_no_readd; try done. split; rewrite Hc; [constructor|].
  rewrite zlen_nil. pose proof (inv_cap _ _ _ HI). lia.
Qed.

(** C12: the crash is reachable for every cache size. *)
Lemma foldlM_app {A S} (f : S → A → option S) l1 l2 s :
  foldlM f (l1 ++ l2) s = foldlM f l1 s ≫= foldlM f l2.
Proof. revert s. induction l1 as [|a l1 IH]; intros s; [done|]. simpl. destruct (f s a); simpl; [apply IH|done]. Qed.

Section Crash.
  Context (sortDocs : list DocIndex → list DocIndex) (Hsort : valid_sort sortDocs).

  (** [m] unforced adds of the live document's id fill the cache and stay there. *)
  Lemma fill x m : ∀ s d live,
    good_doc x → Inv s live ∅ → live !! DocId x = Some d → 2 <= cap s →
    (∀ y, y ∈ addCache s → DocId y = DocId x) → zlen (addCache s) + Z.of_nat m < cap s →
    ∃ s', run sortDocs (replicate m (OpAdd (Some x) false)) s = Some s' ∧
      Inv s' live ∅ ∧ cap s' = cap s ∧ (∀ y, y ∈ addCache s' → DocId y = DocId x) ∧
      zlen (addCache s') = zlen (addCache s) + Z.of_nat m.
  Proof.
    induction m as [|m IH]; intros s d live Hgx HI Hx Hcap Hw Hlt.
    - exists s. repeat (split; [done|]). lia.
    - destruct (AddDocToCache_inv sortDocs Hsort (Some x) false s live ∅) as (s1 & Hrun & Ho & Hcase).
      { done. } { split; [lia|done]. }
      assert (Hlen : zlen (waiting (Some x) s) = zlen (addCache s) + 1).
      { unfold waiting. rewrite zlen_app, zlen_cons, zlen_nil. lia. }
      assert (addFlush s (waiting (Some x) s) false = false) as Hf.
      { unfold addFlush. rewrite Hlen, orb_false_r. apply Z.leb_gt. lia. }
      rewrite Hf in Hcase. destruct Hcase as [HI1 Hc1].
      assert (Hcap1 : cap s1 = cap s) by (unfold cap; by rewrite Ho).
      destruct (IH s1 d live) as (s' & Hrun' & HI' & Hcap' & Hw' & Hlen'); try done.
      + lia.
      + intros y. rewrite Hc1. unfold waiting. intros [?|E%elem_of_list_singleton]%elem_of_app; [auto|by rewrite E].
      + rewrite Hc1, Hcap1, Hlen. lia.
      + exists s'. split; [unfold run; simpl; rewrite Hrun; exact Hrun'|].
        split; [done|]. split; [congruence|]. split; [done|]. rewrite Hlen', Hc1, Hlen. lia.
  Qed.

  Lemma crash_reachable o n x y force :
    DocCacheSize o = n → 2 <= n → good_doc x → good_doc y →
    ∃ s0 s, Init o = Some s0 ∧
      run sortDocs (OpAdd (Some x) true :: replicate (Z.to_nat n) (OpAdd (Some x) false)) s0 = Some s ∧
      AddDocToCache sortDocs (Some y) force s = None.
  Proof.
    intros Hn Hn2 Hgx Hgy.
    assert (Hopt : optsInit o = o).
    { unfold optsInit. destruct o as [a b c]. simpl in *. destruct (Z.eqb_spec b 0); [lia|done]. }
    assert (Hinit : Init o = Some (mkIndexer ∅ ∅ [] [] o 0 f_zero ∅)).
    { unfold Init. rewrite Hopt. destruct (Z.ltb_spec (DocCacheSize o) 0); [lia|done]. }
    destruct (Init_inv o _ Hinit) as [HI0 Hc0].
    set (s0 := mkIndexer _ _ _ _ _ _ _ _) in *.
    assert (Hcap0 : cap s0 = n) by done.
    (* the forced add *)
    destruct (AddDocToCache_inv sortDocs Hsort (Some x) true s0 ∅ ∅) as (s1 & Hrun1 & Ho1 & Hcase).
    { done. } { split; [|done]. rewrite Hc0, zlen_nil. lia. }
    assert (Hcap1 : cap s1 = n) by (unfold cap; by rewrite Ho1).
    assert (Hw0 : waiting (Some x) s0 = [x]) by done.
    assert (∃ live, Inv s1 live ∅ ∧ addCache s1 = [] ∧ live !! DocId x = Some x) as (live & HI1 & Hc1 & Hx).
    { rewrite Hw0 in Hcase.
      assert (addFlush s0 [x] true = true) as Hf by (unfold addFlush; apply orb_true_r).
      rewrite Hf in Hcase. cbv zeta in Hcase.
      assert (Hd1 : dying1 [x] ∅ ∅ = ∅).
      { apply map_eq. intros id. rewrite dying1_lookup, lookup_empty. by destruct (decide _). }
      rewrite Hd1 in Hcase. assert (rmFlush s0 ∅ true = false) as Hr by done. rewrite Hr in Hcase.
      destruct Hcase as (kept & other & l & Hko & Hk & _ & Hl & _ & HI1 & Hc).
      assert (kept = []) as ->.
      { destruct kept as [|z kept]; [done|]. destruct (Hk z) as [? Hz]; [left|]. by rewrite lookup_empty in Hz. }
      simpl in Hko. apply Permutation_singleton_r in Hko as ->. apply Permutation_singleton_r in Hl as ->.
      exists (insertAll [x] (live1 [x] ∅)). split; [done|]. split; [done|]. simpl. by rewrite lookup_insert. }
    (* n-1 adds that do not flush *)
    destruct (fill x (Z.to_nat (n - 1)) s1 x live) as (s2 & Hrun2 & HI2 & Hcap2 & Hw2 & Hlen2); try done.
    { lia. }
    { intros z. rewrite Hc1. by intros ?%elem_of_nil. }
    { rewrite Hc1, zlen_nil. lia. }
    (* the n-th one *)
    rewrite Hc1, zlen_nil in Hlen2.
    destruct (AddDocToCache_inv sortDocs Hsort (Some x) false s2 live ∅) as (s3 & Hrun3 & Ho3 & Hcase3).
    { done. } { split; [lia|done]. }
    set (W := waiting (Some x) s2) in *.
    assert (HlenW : zlen W = n).
    { unfold W, waiting. rewrite zlen_app, zlen_cons, zlen_nil. lia. }
    assert (HW : ∀ z, z ∈ W → DocId z = DocId x).
    { intros z. unfold W, waiting. intros [?|E%elem_of_list_singleton]%elem_of_app; [auto|by rewrite E]. }
    assert (HxW : DocId x ∈ ids W).
    { unfold W, waiting, ids. rewrite fmap_app. apply elem_of_app. right. by apply elem_of_list_singleton. }
    assert (addFlush s2 W false = true) as Hf.
    { unfold addFlush. rewrite orb_false_r. apply Z.leb_le. lia. }
    rewrite Hf in Hcase3. cbv zeta in Hcase3.
    assert (Hd1 : dying1 W live ∅ = {[DocId x := x]}).
    { apply map_eq. intros id. rewrite dying1_lookup, lookup_empty.
      destruct (decide (id = DocId x)) as [->|Hne].
      - by rewrite decide_True, lookup_singleton.
      - rewrite lookup_singleton_ne by done. rewrite decide_False; [done|].
        unfold ids. intros (z & -> & Hz)%elem_of_list_fmap. apply Hne. by apply HW. }
    assert (Hszd : size (dying1 W live ∅) = 1%nat) by (rewrite Hd1; apply map_size_singleton).
    assert (rmFlush s2 (dying1 W live ∅) false = false) as Hr.
    { unfold rmFlush. rewrite Hszd, orb_false_r. apply andb_false_iff. right. apply Z.leb_gt. lia. }
    rewrite Hr in Hcase3. destruct Hcase3 as (kept & other & l & Hko & _ & Hoth & _ & _ & HI3 & Hc3).
    assert (other = []) as ->.
    { destruct other as [|z other]; [done|]. exfalso.
      assert (z ∈ W) as Hz by (rewrite <- Hko; apply elem_of_app; right; left).
      specialize (Hoth z (elem_of_list_here _ _)). rewrite Hd1, (HW z Hz), lookup_singleton in Hoth. done. }
    rewrite app_nil_r in Hko.
    exists s0, s3. split; [exact Hinit|]. split.
    - replace (Z.to_nat n) with (Z.to_nat (n - 1) + 1)%nat by lia.
      rewrite replicate_add. unfold run in *. cbn [foldlM].
      assert (step sortDocs s0 (OpAdd (Some x) true) = Some s1) as -> by exact Hrun1.
      rewrite bind_Some_eq, foldlM_app, Hrun2, bind_Some_eq. cbn [replicate foldlM].
      assert (step sortDocs s2 (OpAdd (Some x) false) = Some s3) as -> by exact Hrun3. done.
    - apply AddDocToCache_full. unfold cap in *. rewrite Ho3.
      assert (zlen (addCache s3) = zlen W) as -> by (rewrite Hc3; unfold zlen; by rewrite Hko). lia.
  Qed.
End Crash.
