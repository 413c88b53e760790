(** Logic search: theorems over reachable states. *)
From Verif Require Import ModelLookup SpecIndexer SpecSearch SpecLogic ProofSearch ProofTable ProofIndexer
  ProofCache ProofHistory ProofLookup ProofSearchThms ProofLogic ProofIxMap.

Lemma kwOf_carries D k id : is_Some (kwOf D k id) ↔ carries D k id.
Proof.
  unfold carries. destruct (D !! id) as [d|] eqn:E.
  - rewrite (kwOf_is_Some _ _ _ _ E). split; [eauto|]. by intros (? & [= <-] & ?).
  - unfold kwOf. rewrite E. split; [by intros []|by intros (? & ? & _)].
Qed.

Lemma inv_good s live dying : Inv s live dying → ∀ k r, table s !! k = Some r → row_good r.
Proof.
  intros HI k r Hk. pose proof (core_table _ _ _ _ (inv_core _ _ _ HI) k) as HT. rewrite Hk in HT.
  split; [by eapply row_ok_sorted|by eapply row_ok_nonempty].
Qed.

Lemma inv_indexes s live dying : Inv s live dying → indexes s (live ∪ dying).
Proof.
  intros HI k id. rewrite (in_row_iff _ _ _ _ _ (core_table _ _ _ _ (inv_core _ _ _ HI))). apply kwOf_carries.
Qed.

Lemma union_is_Some (live dying : docmap) id :
  is_Some ((live ∪ dying) !! id) ↔ is_Some (live !! id) ∨ is_Some (dying !! id).
Proof.
  rewrite lookup_union. destruct (live !! id), (dying !! id); simpl; split; eauto; by intros [|].
Qed.

(** * Dispatch *)

Lemma nonempty_true {A} (l : list A) : nonempty l = true ↔ l ≠ [].
Proof. by destruct l. Qed.

Lemma is_logic_b keywords lg :
  is_logic keywords lg ↔
  (nonempty keywords && (lMust lg || lShould lg || lNotIn lg)) || (nonempty (eMust lg) || nonempty (eShould lg)) = true.
Proof.
  unfold is_logic. rewrite !orb_true_iff, andb_true_iff, !orb_true_iff, !nonempty_true. tauto.
Qed.

Lemma lookup_dispatch log2 s tokens labels flt c lg : is_logic (tokens ++ labels) lg →
  Lookup log2 s tokens labels flt c (Some lg) =
    if numDocs s =? 0 then Some ([], 0) else LogicLookup s flt c (tokens ++ labels) lg.
Proof.
  intros H%is_logic_b. unfold Lookup. destruct (numDocs s =? 0); [done|].
  destruct (nonempty (tokens ++ labels) && (lMust lg || lShould lg || lNotIn lg)); [done|].
  simpl in H. by rewrite H.
Qed.

Lemma lookup_plain log2 s tokens labels flt c lg : ¬ is_logic (tokens ++ labels) lg →
  Lookup log2 s tokens labels flt c (Some lg) = Lookup log2 s tokens labels flt c None.
Proof.
  intros H. rewrite is_logic_b in H. apply not_true_iff_false, orb_false_iff in H as [H1 H2].
  unfold Lookup. destruct (numDocs s =? 0); [done|]. by rewrite H1, H2.
Qed.

Lemma LogicLookup_query s flt c kw1 kw2 lg1 lg2 :
  query_of kw1 lg1 = query_of kw2 lg2 → LogicLookup s flt c kw1 lg1 = LogicLookup s flt c kw2 lg2.
Proof.
  rewrite !parts_eq. intros [= H1 H2 H3]. unfold LogicLookup.
  destruct (lMust lg1 || nonempty (eMust lg1)), (lMust lg2 || nonempty (eMust lg2)); try done;
  destruct (lShould lg1 || nonempty (eShould lg1)), (lShould lg2 || nonempty (eShould lg2)); try done;
  destruct (lNotIn lg1 || nonempty (eNotIn lg1)), (lNotIn lg2 || nonempty (eNotIn lg2)); try done;
  repeat match goal with H : Some _ = Some _ |- _ => injection H as H; rewrite H; clear H end; done.
Qed.

Lemma only_parts log2 s t1 l1 t2 l2 flt c lg1 lg2 :
  is_logic (t1 ++ l1) lg1 → is_logic (t2 ++ l2) lg2 →
  query_of (t1 ++ l1) lg1 = query_of (t2 ++ l2) lg2 →
  Lookup log2 s t1 l1 flt c (Some lg1) = Lookup log2 s t2 l2 flt c (Some lg2).
Proof.
  intros H1 H2 HQ. rewrite !lookup_dispatch by done. destruct (_ =? _); [done|]. by apply LogicLookup_query.
Qed.

(** * Reachable states *)

Lemma reach_content sortDocs o ops s : reach sortDocs o ops s →
  ∃ M D, content s M D ∧ (∀ k r, table s !! k = Some r → row_good r) ∧ numDocs s = Z.of_nat (size M) ∧
    (removeCache s = [] → D = M).
Proof.
  intros HR. destruct (reach_inv _ _ _ _ HR) as (live & dying & HI & _ & _).
  exists live, (live ∪ dying). split; [|split; [by eapply inv_good|split; [apply HI|]]].
  - split; [by eapply inv_shows|]. split; [apply map_union_subseteq_l|]. split; [by apply inv_indexes|].
    intros id. rewrite union_is_Some, (inv_hasdoc _ _ _ _ HI).
    by rewrite (core_rc _ _ _ _ (inv_core _ _ _ HI)).
  - intros Hrc. assert (dying = ∅) as ->; [|by rewrite (right_id_L ∅ (∪))].
    apply map_eq. intros id. rewrite lookup_empty. destruct (dying !! id) eqn:E; [|done].
    assert (id ∈ removeCache s) as Hin by (apply (core_rc _ _ _ _ (inv_core _ _ _ HI)); by eexists).
    rewrite Hrc in Hin. by apply elem_of_nil in Hin.
Qed.

Lemma empty_unsat (q : query) w ws id : qMust q = Some (w :: ws) → ¬ satisfies ∅ q id.
Proof. intros Hq (H & _). rewrite Hq in H. destruct (H w) as (d & Hd & _); [left|]. done. Qed.
Lemma empty_unsat_should (q : query) ws id : qShould q = Some ws → ¬ satisfies ∅ q id.
Proof. intros Hq (_ & H & _). rewrite Hq in H. destruct H as (w & _ & d & Hd & _). done. Qed.

Lemma size_awake s M : shows s M → numDocs s = Z.of_nat (size M) →
  (awake s ∧ numDocs s =? 0 = false) ∨ (¬ awake s ∧ M = ∅ ∧ numDocs s =? 0 = true).
Proof.
  intros (HH & _) Hn. destruct (decide (M = ∅)) as [->|Hne].
  - right. split; [|split; [done|]].
    + intros [id Hid]. apply HH in Hid as [d Hd]. done.
    + rewrite Hn, map_size_empty. done.
  - left. split.
    + destruct (map_choose M Hne) as (id & d & Hd). exists id. apply HH. by eexists.
    + apply Z.eqb_neq. rewrite Hn. intros H0. apply Hne. apply map_size_empty_iff. lia.
Qed.

Lemma must_thm sortDocs o ops s log2 : reach sortDocs o ops s →
  ∃ M D, content s M D ∧ (removeCache s = [] → D = M) ∧
  ∀ tokens labels flt lg ws, is_logic (tokens ++ labels) lg →
    qMust (query_of (tokens ++ labels) lg) = Some ws → ws ≠ [] →
    ∃ ids, answers log2 s tokens labels flt lg ids ∧ StronglySorted (flip slt) ids ∧
      ∀ id, id ∈ ids ↔ awake s ∧ passes flt id ∧ satisfies D (query_of (tokens ++ labels) lg) id.
Proof.
  intros HR. destruct (reach_content _ _ _ _ HR) as (M & D & HC & HG & Hn & HDM).
  exists M, D. split; [done|]. split; [done|]. intros tokens labels flt lg ws HL Hq Hne.
  destruct HC as (Hs & _ & HD & _).
  unfold answers. rewrite !lookup_dispatch by done.
  destruct (size_awake _ _ Hs Hn) as [[Ha ->]|(Ha & _ & ->)].
  - pose proof (LogicLookup_spec s D HG HD flt (tokens ++ labels) lg) as HO. unfold outcome in HO.
    rewrite Hq in HO. destruct ws as [|w ws]; [done|]. destruct HO as (ids & Hres & Hsort & Hin).
    exists ids. split; [by rewrite !Hres|]. split; [done|]. intros id. rewrite Hin. tauto.
  - exists []. split; [done|]. split; [constructor|]. intros id. rewrite elem_of_nil. tauto.
Qed.

Lemma C21_lem sortDocs o ops s log2 : reach sortDocs o ops s → removeCache s = [] →
  ∃ M, shows s M ∧
  ∀ tokens labels flt lg ws, is_logic (tokens ++ labels) lg →
    qMust (query_of (tokens ++ labels) lg) = Some ws → ws ≠ [] →
    ∃ ids, answers log2 s tokens labels flt lg ids ∧ StronglySorted (flip slt) ids ∧
      ∀ id, id ∈ ids ↔ passes flt id ∧ satisfies M (query_of (tokens ++ labels) lg) id.
Proof.
  intros HR Hrc. destruct (must_thm _ _ _ _ log2 HR) as (M & D & HC & HDM & HT). rewrite (HDM Hrc) in *.
  exists M. split; [apply HC|]. intros tokens labels flt lg ws HL Hq Hne.
  destruct (HT tokens labels flt lg ws HL Hq Hne) as (ids & Ha & Hs & Hin). exists ids. split; [done|]. split; [done|].
  intros id. rewrite Hin. split; [tauto|]. intros [Hp Hsat]. split; [|done].
  destruct ws as [|w ws]; [done|]. destruct Hsat as (H1 & _). rewrite Hq in H1. destruct (H1 w) as (d & Hd & _); [left|].
  exists id. apply HC. by eexists.
Qed.

Lemma should_thm sortDocs o ops s log2 : reach sortDocs o ops s →
  ∃ M D, content s M D ∧ (removeCache s = [] → D = M) ∧
  ∀ tokens labels lg ws, is_logic (tokens ++ labels) lg →
    qMust (query_of (tokens ++ labels) lg) = None → qShould (query_of (tokens ++ labels) lg) = Some ws →
    ∃ ids, (∀ flt, answers log2 s tokens labels flt lg ids) ∧ NoDup ids ∧
      ∀ id, id ∈ ids ↔ awake s ∧ satisfies D (query_of (tokens ++ labels) lg) id.
Proof.
  intros HR. destruct (reach_content _ _ _ _ HR) as (M & D & HC & HG & Hn & HDM).
  exists M, D. split; [done|]. split; [done|]. intros tokens labels lg ws HL Hq Hsh.
  destruct HC as (Hs & _ & HD & _).
  destruct (size_awake _ _ Hs Hn) as [[Ha Hz]|(Ha & _ & Hz)].
  - pose proof (LogicLookup_spec s D HG HD None (tokens ++ labels) lg) as HO. unfold outcome in HO.
    rewrite Hq, Hsh in HO. destruct HO as (ids & Hres & Hsort & Hin).
    assert (HF : ∀ flt c, LogicLookup s flt c (tokens ++ labels) lg = LogicLookup s None c (tokens ++ labels) lg).
    { intros flt c. rewrite parts_eq in Hq. cbn [qMust] in Hq. unfold LogicLookup. cbv zeta.
      destruct (lMust lg || nonempty (eMust lg)); [discriminate Hq|reflexivity]. }
    exists ids. split; [|split; [done|]].
    + intros flt. unfold answers. rewrite !lookup_dispatch by done. rewrite Hz. rewrite (HF flt false), (HF flt true). split; apply Hres.
    + intros id. rewrite Hin. tauto.
  - exists []. split; [|split; [constructor|]].
    + intros flt. unfold answers. rewrite !lookup_dispatch by done. by rewrite Hz.
    + intros id. rewrite elem_of_nil. tauto.
Qed.

Lemma C22_lem sortDocs o ops s log2 : reach sortDocs o ops s → removeCache s = [] →
  ∃ M, shows s M ∧
  ∀ tokens labels lg ws, is_logic (tokens ++ labels) lg →
    qMust (query_of (tokens ++ labels) lg) = None → qShould (query_of (tokens ++ labels) lg) = Some ws →
    ∃ ids, (∀ flt, answers log2 s tokens labels flt lg ids) ∧ NoDup ids ∧
      ∀ id, id ∈ ids ↔ satisfies M (query_of (tokens ++ labels) lg) id.
Proof.
  intros HR Hrc. destruct (should_thm _ _ _ _ log2 HR) as (M & D & HC & HDM & HT). rewrite (HDM Hrc) in *.
  exists M. split; [apply HC|]. intros tokens labels lg ws HL Hq Hsh.
  destruct (HT tokens labels lg ws HL Hq Hsh) as (ids & Ha & Hs & Hin). exists ids. split; [done|]. split; [done|].
  intros id. rewrite Hin. split; [tauto|]. intros Hsat. split; [|done].
  destruct Hsat as (_ & H1 & _). rewrite Hsh in H1. destruct H1 as (w & _ & d & Hd & _).
  exists id. apply HC. by eexists.
Qed.

(** * Not-in only *)

Lemma occurrences_app id l k : occurrences id (l ++ k) = (occurrences id l + occurrences id k)%nat.
Proof. unfold occurrences. by rewrite filter_app, app_length. Qed.
Lemma occurrences_notin id l : id ∉ l → occurrences id l = 0%nat.
Proof.
  unfold occurrences. induction l as [|x l IH]; [done|]. intros [Hx Hl]%not_elem_of_cons.
  rewrite filter_cons_False by congruence. auto.
Qed.
Lemma occurrences_nodup id l : NoDup l → id ∈ l → occurrences id l = 1%nat.
Proof.
  induction 1 as [|x l Hx Hl IH]; intros Hin; [by apply elem_of_nil in Hin|].
  change (x :: l) with ([x] ++ l). rewrite occurrences_app.
  apply elem_of_cons in Hin as [->|Hin].
  - rewrite (occurrences_notin x l Hx). unfold occurrences. rewrite filter_cons_True by done. done.
  - rewrite IH by done. unfold occurrences. rewrite filter_cons_False; [done|]. intros ->. done.
Qed.

Lemma rows_occ s D ws id d : (∀ k r, table s !! k = Some r → row_good r) → indexes s D → D !! id = Some d →
  occurrences id (mjoin (docIds <$> omap (λ k, table s !! k) ws)) = word_hits d ws.
Proof.
  intros HG HD Hd. induction ws as [|w ws IH]; [done|]. unfold word_hits in *. rewrite filter_cons.
  assert (E : mjoin (docIds <$> omap (λ k, table s !! k) (w :: ws)) =
    match table s !! w with Some r => docIds r | None => [] end ++ mjoin (docIds <$> omap (λ k, table s !! k) ws)).
  { cbn [omap list_omap]. by destruct (table s !! w). }
  rewrite E, occurrences_app, IH. clear E IH.
  assert (Hw : w ∈ Text <$> Keywords d ↔ in_row s w id).
  { rewrite (HD w id). split; [intros ?; by exists d|]. intros (d' & Hd' & ?). by simplify_eq. }
  destruct (table s !! w) as [r|] eqn:Er.
  - destruct (HG w r Er) as [Hso _]. destruct (decide (w ∈ Text <$> Keywords d)) as [Hin|Hin].
    + apply Hw in Hin as (r' & Hr' & Hin). simplify_eq. rewrite occurrences_nodup; [done|by apply StronglySorted_NoDup|done].
    + rewrite occurrences_notin; [done|]. intros Hid. apply Hin, Hw. by exists r.
  - rewrite decide_False; [done|]. rewrite Hw. intros (r & Hr & _). congruence.
Qed.

Lemma C23_lem sortDocs o ops s log2 : reach sortDocs o ops s → awake s →
  ∃ M D, content s M D ∧ (removeCache s = [] → D = M) ∧
  ∀ tokens labels lg ws, is_logic (tokens ++ labels) lg →
    query_of (tokens ++ labels) lg = mkQuery None None (Some ws) →
    ∃ ids, (∀ flt, answers log2 s tokens labels flt lg ids) ∧
      (∀ id d, D !! id = Some d → occurrences id ids = word_hits d ws) ∧
      (∀ id, id ∈ ids ↔ ∃ k, k ∈ ws ∧ carries D k id).
Proof.
  intros HR Haw. destruct (reach_content _ _ _ _ HR) as (M & D & HC & HG & Hn & HDM).
  exists M, D. split; [done|]. split; [done|]. intros tokens labels lg ws HL Hq.
  destruct HC as (Hs & _ & HD & _).
  destruct (size_awake _ _ Hs Hn) as [[Ha Hz]|(Ha & _ & Hz)]; [|done].
  exists (mjoin (docIds <$> omap (λ k, table s !! k) ws)). split; [|split].
  - intros flt. pose proof (LogicLookup_spec s D HG HD flt (tokens ++ labels) lg) as HO. unfold outcome in HO.
    rewrite Hq in HO. cbn [qMust qShould qNot default] in HO.
    unfold answers. rewrite !lookup_dispatch by done. rewrite Hz. split; apply HO.
  - intros id d Hd. by eapply rows_occ.
  - intros id. rewrite elem_of_list_join. split.
    + intros (l & Hid & (r & -> & (k & Hk & Hr)%elem_of_list_omap)%elem_of_list_fmap).
      exists k. split; [done|]. apply HD. by exists r.
    + intros (k & Hk & Hc). apply HD in Hc as (r & Hr & Hid). exists (docIds r). split; [done|].
      apply elem_of_list_fmap_1, elem_of_list_omap. eauto.
Qed.

(** * Crashes *)

Lemma C25_lem sortDocs o ops s log2 tokens labels flt c lg :
  reach sortDocs o ops s → is_logic (tokens ++ labels) lg →
  Lookup log2 s tokens labels flt c (Some lg) = None ↔
  awake s ∧ lMust lg = true ∧ tokens = [] ∧ labels = [] ∧ eMust lg = [] ∧
  ∃ k id, k ∈ eShould lg ∧ in_row s k id.
Proof.
  intros HR HL. destruct (reach_content _ _ _ _ HR) as (M & D & (Hs & _ & HD & _) & HG & Hn & HDM).
  rewrite lookup_dispatch by done.
  destruct (size_awake _ _ Hs Hn) as [[Ha ->]|(Ha & _ & ->)]; [|naive_solver].
  pose proof (LogicLookup_spec s D HG HD flt (tokens ++ labels) lg) as HO. rewrite parts_eq in HO. unfold outcome in HO.
  cbn [qMust qShould qNot] in HO.
  assert (Hkw : tokens ++ labels = [] ↔ tokens = [] ∧ labels = []) by apply app_nil.
  destruct (lMust lg) eqn:EM, (eMust lg) as [|m ms] eqn:EE; cbn [orb nonempty] in HO.
  - destruct (tokens ++ labels) as [|w ws] eqn:EK.
    + destruct Hkw as [Hkw _]. destruct (Hkw eq_refl) as [-> ->].
      assert (Hne : eShould lg ≠ []).
      { destruct HL as [[]|[|]]; done. }
      assert (nonempty (eShould lg) = true) as HneB by by apply nonempty_true.
      rewrite HneB, orb_true_r in HO.
      destruct HO as [[(k & id & Hk & Hr) Hc]|[Hno Hc]].
      * split; [|by rewrite Hc]. intros _. split_and!; try done. eauto.
      * rewrite Hc. split; [done|]. intros (_ & _ & _ & _ & _ & Hex). done.
    + destruct HO as (ids & Hres & _). rewrite Hres. split; [done|].
      intros (_ & _ & -> & -> & _). done.
  - destruct HO as (ids & Hres & _). rewrite Hres. naive_solver.
  - destruct (lShould lg || nonempty (eShould lg)).
    + destruct HO as (ids & Hres & _). rewrite Hres. naive_solver.
    + rewrite HO. naive_solver.
  - destruct HO as (ids & Hres & _). rewrite Hres. naive_solver.
Qed.

(** * Pending removals *)

Lemma LogicLookup_table s s' flt c keywords lg :
  table s' = table s → LogicLookup s' flt c keywords lg = LogicLookup s flt c keywords lg.
Proof. intros H. unfold LogicLookup. by rewrite H. Qed.

Lemma markRemove_table id s s' : markRemove id s = Some s' → table s' = table s.
Proof.
  unfold markRemove, pushRemove, setState. destruct (seqb id "0"); [by intros [= <-]|].
  destruct (docsState s !! id) as [z|]; [|by intros [= <-]].
  destruct z as [|p|p]; [|destruct p as [|p|]; try destruct p; by intros [= <-]|by intros [= <-]].
  destruct (_ <? _); [|done]. rewrite bind_Some_eq. by intros [= <-].
Qed.

Lemma unflushed_table id force s s' : RemoveDocToCache id force s = Some (s', false) → table s' = table s.
Proof.
  unfold RemoveDocToCache. destruct (markRemove id s) as [s1|] eqn:E; [|done]. rewrite bind_Some_eq.
  destruct (_ && _).
  - destruct (RemoveDocs _ _); done.
  - intros [= <-]. by eapply markRemove_table.
Qed.

Lemma reach_step sortDocs o ops s op s' : reach sortDocs o ops s → good_op op → step sortDocs s op = Some s' →
  reach sortDocs o (ops ++ [op]) s'.
Proof.
  intros (Hv & Hg & s0 & Hi & Hr) Hop Hs. split; [done|]. split; [apply Forall_app; auto|].
  exists s0. split; [done|]. rewrite run_app, Hr. simpl. unfold run. cbn [foldlM]. by rewrite Hs.
Qed.

Lemma reach_awake sortDocs o ops s : reach sortDocs o ops s → awake s → numDocs s =? 0 = false.
Proof.
  intros HR Ha. destruct (reach_content _ _ _ _ HR) as (M & D & (Hs & _) & _ & Hn & _).
  destruct (size_awake _ _ Hs Hn) as [[_ ->]|(Ha' & _)]; done.
Qed.

Lemma pending_same sortDocs o ops s log2 id force s' tokens labels flt c lg :
  reach sortDocs o ops s → RemoveDocToCache id force s = Some (s', false) →
  awake s → awake s' → is_logic (tokens ++ labels) lg →
  Lookup log2 s' tokens labels flt c (Some lg) = Lookup log2 s tokens labels flt c (Some lg).
Proof.
  intros HR Hrm Ha Ha' HL.
  assert (HR' : reach sortDocs o (ops ++ [OpRemove id force]) s').
  { eapply reach_step; [done|done|]. unfold step. by rewrite Hrm. }
  rewrite !lookup_dispatch by done. rewrite (reach_awake _ _ _ _ HR Ha), (reach_awake _ _ _ _ HR' Ha').
  apply LogicLookup_table. by eapply unflushed_table.
Qed.

Lemma flushed_agree sortDocs o ops s log2 tokens labels flt : reach sortDocs o ops s → removeCache s = [] →
  tokens ++ labels ≠ [] →
  ∀ docs n, Lookup log2 s tokens labels flt false None = Some (docs, n) →
  answers log2 s tokens labels flt allOf (ixDocId <$> docs).
Proof.
  intros HR Hrc Hne docs n Hrun.
  destruct (C21_lem _ _ _ _ log2 HR Hrc) as (M & Hs & HT).
  destruct (HT tokens labels flt allOf (tokens ++ labels)) as (ids & Ha & Hso & Hin).
  { left. split; [done|]. by left. }
  { unfold query_of, allOf, part. simpl. by destruct (tokens ++ labels). }
  { done. }
  destruct (C04_lem _ _ _ _ log2 tokens labels flt None docs n HR I Hrun) as (Hso2 & _ & _ & _).
  assert (ids = ixDocId <$> docs) as ->; [|done].
  destruct (C03_lem _ _ _ _ log2 HR) as (M' & Hs' & _ & HM).
  assert (Heq : ∀ id, id ∈ ids ↔ id ∈ ixDocId <$> docs).
  { intros id. rewrite (HM tokens labels flt None docs n I Hrun id), Hin.
    rewrite (shows_matches _ _ _ _ _ Hs').
    rewrite <- (shows_matches _ M _ _ _ Hs).
    unfold matches, satisfies, query_of, allOf, part. cbn [qMust qShould qNot lMust lShould lNotIn eMust eShould eNotIn has_one has_none].
    assert (first_given [[]; tokens ++ labels] = tokens ++ labels) as -> by (simpl; by destruct (tokens ++ labels)).
    cbn [has_all]. split.
    - intros (Hp & Hall & _). split; [done|]. split; [done|].
      destruct (tokens ++ labels) as [|w ws]; [done|]. destruct (Hall w) as (d & Hd & _); [left|].
      exists d. split; [done|]. intros k Hk. destruct (Hall k Hk) as (d' & Hd' & ?). by simplify_eq.
    - intros (_ & Hp & d & Hd & Hall). split; [done|]. split; [|done]. intros k Hk. exists d. auto. }
  assert (Hrev : reverse ids = reverse (ixDocId <$> docs)).
  { apply StronglySorted_unique_elem.
    - clear -Hso. induction Hso as [|x l _ IH Hx]; [constructor|]. rewrite reverse_cons. apply StronglySorted_app_iff.
      split; [done|]. split; [repeat constructor|]. intros a b Ha ->%elem_of_list_singleton.
      rewrite elem_of_reverse in Ha. rewrite Forall_forall in Hx. by apply Hx.
    - clear -Hso2. induction Hso2 as [|x l _ IH Hx]; [constructor|]. rewrite reverse_cons. apply StronglySorted_app_iff.
      split; [done|]. split; [repeat constructor|]. intros a b Ha ->%elem_of_list_singleton.
      rewrite elem_of_reverse in Ha. rewrite Forall_forall in Hx. by apply Hx.
    - intros x. rewrite !elem_of_reverse. apply Heq. }
  by apply (inj reverse) in Hrev.
Qed.

Lemma words_ignored log2 s t1 l1 t2 l2 flt c lg : eMust lg ≠ [] →
  Lookup log2 s t1 l1 flt c (Some lg) = Lookup log2 s t2 l2 flt c (Some lg).
Proof.
  intros Hne. apply only_parts; [right; by left..|]. unfold query_of, part.
  destruct (eMust lg); [done|].
  by destruct (lMust lg), (lShould lg), (lNotIn lg), (eShould lg), (eNotIn lg).
Qed.
