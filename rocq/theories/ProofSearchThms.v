(** Plain search: soundness, completeness, order, fields, crashes. *)
From Verif Require Import ModelLookup SpecIndexer SpecProx SpecSearch ProofSearch ProofTable ProofIndexer
  ProofCache ProofHistory ProofLookup ProofProx ProofProx2.

Lemma sorted_reverse l : StronglySorted slt l → StronglySorted (flip slt) (reverse l).
Proof.
  induction 1 as [|x l _ IH Hx]; [constructor|]. rewrite reverse_cons. apply StronglySorted_app_iff.
  split; [done|]. split; [repeat constructor|].
  intros a b Ha Hb. apply elem_of_list_singleton in Hb as ->. rewrite elem_of_reverse in Ha.
  rewrite Forall_forall in Hx. by apply Hx.
Qed.

Lemma mapM_None_iff {A B} (f : A → option B) l : mapM f l = None → ∃ x, x ∈ l ∧ f x = None.
Proof.
  induction l as [|x l IH]; simpl; [done|]. destruct (f x) as [y|] eqn:E.
  - simpl. destruct (mapM f l); [done|]. intros _. destruct IH as (z & ? & ?); [done|].
    exists z. split; [by right|done].
  - intros _. exists x. split; [by left|done].
Qed.

Lemma mapM_ext_in {A B} (f g : A → option B) l : (∀ x, x ∈ l → f x = g x) → mapM f l = mapM g l.
Proof.
  induction l as [|x l IH]; intros H; [done|]. simpl. rewrite (H x) by left.
  destruct (g x); simpl; [|done]. rewrite IH; [done|]. intros y Hy. apply H. by right.
Qed.

Section Search.
  Variable log2 : F → F.
  Context (s : Indexer) (live dying : docmap) (HI : Inv s live dying).
  Notation ity := (IndexType (initOptions s)).

  Lemma rows_ok keywords rows :
    mapM (λ k, table s !! k) keywords = Some rows →
    Forall2 (λ k r, table s !! k = Some r ∧ row_ok ity (kwOf (live ∪ dying) k) r) keywords rows.
  Proof.
    intros HM%mapM_Some. eapply Forall2_impl; [exact HM|]. intros k r Hk. simpl. split; [done|].
    pose proof (core_table _ _ _ _ (inv_core _ _ _ HI) k) as HT. by rewrite Hk in HT.
  Qed.

  Lemma rows_good keywords rows :
    mapM (λ k, table s !! k) keywords = Some rows → Forall row_good rows.
  Proof.
    intros HF%rows_ok. apply Forall_forall. intros r [i Hi]%elem_of_list_lookup.
    destruct (Forall2_lookup_r _ _ _ _ _ HF Hi) as (k & _ & _ & Hr).
    split; [by eapply row_ok_sorted|by eapply row_ok_nonempty].
  Qed.

  Lemma hit_matches keywords rows flt id :
    keywords ≠ [] → mapM (λ k, table s !! k) keywords = Some rows →
    is_hit s flt rows id ↔ matches live keywords flt id.
  Proof.
    intros Hne HM. pose proof (rows_ok _ _ HM) as HF. unfold is_hit, matches.
    rewrite (inv_hasdoc _ _ _ _ HI). split.
    - intros (Hp & Hall & d & Hd). split; [done|]. split; [done|]. exists d. split; [done|].
      intros k [i Hi]%elem_of_list_lookup.
      destruct (Forall2_lookup_l _ _ _ _ _ HF Hi) as (r & Hr & _ & Hok).
      apply elem_of_list_lookup_2, Hall, (row_ok_ids _ _ _ _ Hok) in Hr.
      eapply kwOf_is_Some; [by apply union_live|done].
    - intros (_ & Hp & d & Hd & Hall). split; [done|]. split; [|by eexists].
      intros r [i Hi]%elem_of_list_lookup.
      destruct (Forall2_lookup_r _ _ _ _ _ HF Hi) as (k & Hk & _ & Hok).
      apply (row_ok_ids _ _ _ _ Hok). eapply kwOf_is_Some; [by apply union_live|].
      apply Hall. by eapply elem_of_list_lookup_2.
  Qed.

  Lemma no_row_no_match keywords flt id :
    mapM (λ k, table s !! k) keywords = None → ¬ matches live keywords flt id.
  Proof.
    intros (k & Hk & Hn)%mapM_None_iff (_ & _ & d & Hd & Hall).
    pose proof (core_table _ _ _ _ (inv_core _ _ _ HI) k) as HT. rewrite Hn in HT.
    assert (is_Some (kwOf (live ∪ dying) k id)) as [x Hx].
    { eapply kwOf_is_Some; [by apply union_live|auto]. }
    by rewrite HT in Hx.
  Qed.

  (** The position of a live document in a row gives its own data. *)
  Lemma entry_data k r id kw :
    row_ok ity (kwOf (live ∪ dying) k) r → kwOf (live ∪ dying) k id = Some kw →
    (ity = FrequenciesIndex → zget (frequencies r) (posOf (docIds r) id) = Some (Frequency kw)) ∧
    (ity = LocsIndex → zget (locations r) (posOf (docIds r) id) = Some (Starts kw)).
  Proof.
    intros Hok Hkw. destruct (row_ok_entry _ _ _ _ _ Hok Hkw) as (i & Hi & Hf & Hl).
    assert (posOf (docIds r) id = Z.of_nat i) as ->.
    { symmetry. apply posOf_unique; [by eapply row_ok_sorted|]. by rewrite zget_nat. }
    rewrite !zget_nat. by split.
  Qed.

  Lemma hitLocs_spec rows : ∀ kws id,
    ity = LocsIndex →
    Forall2 (λ r kw, ∃ k, row_ok ity (kwOf (live ∪ dying) k) r ∧ kwOf (live ∪ dying) k id = Some kw) rows kws →
    hitLocs rows ((λ r, posOf (docIds r) id) <$> rows) = Some (Starts <$> kws).
  Proof.
    induction rows as [|r rows IH]; intros kws id Hity HF; inversion HF as [|? kw ? kws' (k & Hok & Hkw) HF']; subst; [done|].
    cbn [hitLocs fmap list_fmap]. destruct (entry_data k r id kw Hok Hkw) as [_ Hl].
    rewrite (Hl Hity), bind_Some_eq. rewrite (IH kws' id Hity HF'), bind_Some_eq. done.
  Qed.

  Definition termOf (par : BM25Params) (len avg : F) (acc : F) (t : Z * F) : F :=
    if f_gtb (snd t) f_zero && negb (f_eqb avg f_zero)
    then f32_add acc (bm25_term log2 par (numDocs s) (fst t) (snd t) len avg) else acc.

  Lemma bm25Loop_spec len avg rows : ∀ kws id acc,
    ity = LocsIndex ∨ ity = FrequenciesIndex →
    Forall2 (λ r kw, ∃ k, row_ok ity (kwOf (live ∪ dying) k) r ∧ kwOf (live ∪ dying) k id = Some kw) rows kws →
    bm25Loop log2 s len avg rows ((λ r, posOf (docIds r) id) <$> rows) acc =
      Some (match BM25Parameters (initOptions s) with
            | Some par => foldl (termOf par len avg) acc (zip ((λ r, zlen (docIds r)) <$> rows) (tf ity <$> kws))
            | None => acc end).
  Proof.
    induction rows as [|r rows IH]; intros kws id acc Hity HF; inversion HF as [|? kw ? kws' (k & Hok & Hkw) HF']; subst.
    - simpl. by destruct (BM25Parameters _).
    - cbn [bm25Loop fmap list_fmap]. destruct (entry_data k r id kw Hok Hkw) as [Hf Hl].
      assert (Hfreq : (if ity =? LocsIndex then l ← zget (locations r) (posOf (docIds r) id); Some (f32_of_Z (zlen l))
                       else zget (frequencies r) (posOf (docIds r) id)) = Some (tf ity kw)).
      { unfold tf. destruct (Z.eqb_spec ity LocsIndex) as [E|E]; [by rewrite Hl|]. apply Hf. by destruct Hity. }
      rewrite Hfreq, bind_Some_eq. rewrite (IH kws' id _ Hity HF'). f_equal.
      destruct (BM25Parameters (initOptions s)) as [par|]; [|done]. cbn [zip zip_with foldl]. f_equal.
      unfold termOf. cbn [fst snd].
      assert (0 <? zlen (docIds r) = true) as ->.
      { apply row_ok_nonempty in Hok. apply Z.ltb_lt. unfold zlen. destruct (docIds r); [done|simpl; lia]. }
      done.
  Qed.

  Lemma termOf_value par N : BM25Parameters (initOptions s) = par → N = numDocs s → ∀ len avg l,
    (match par with Some p => foldl (termOf p len avg) f_zero l | None => f_zero end) =
    bm25_value log2 par N avg len l.
  Proof.
    intros _ -> len avg l. unfold bm25_value. destruct par as [p|]; [|done].
    assert (H : ∀ acc, foldl (termOf p len avg) acc l =
       if f_eqb avg f_zero then acc else
       foldl f32_add acc ((λ t, bm25_term log2 p (numDocs s) t.1 t.2 len avg) <$> filter (λ t, f_gtb t.2 f_zero = true) l));
      [|apply H].
    induction l as [|t l IH]; intros acc; [by destruct (f_eqb avg f_zero)|].
    cbn [foldl]. rewrite IH. unfold termOf. rewrite filter_cons.
    destruct (f_eqb avg f_zero); [by rewrite andb_false_r|]. cbn [negb]. rewrite andb_true_r.
    destruct (f_gtb t.2 f_zero) eqn:EG.
    - rewrite decide_True by done. done.
    - rewrite decide_False by congruence. done.
  Qed.

  Lemma row_count_row k r : table s !! k = Some r → row_ok ity (kwOf (live ∪ dying) k) r →
    row_count s k (zlen (docIds r)).
  Proof.
    intros Hk Hok. exists (docIds r). split; [by eapply StronglySorted_NoDup, row_ok_sorted|]. split; [|done].
    intros id. unfold in_row. rewrite Hk. split; [eauto|by intros (? & [= <-] & ?)].
  Qed.

  Lemma doc_len_spec id d : live !! id = Some d → default f_zero (docTokenLens s !! id) = doc_len d.
  Proof.
    intros Hd. rewrite (core_lens _ _ _ _ (inv_core _ _ _ HI)). rewrite (union_live _ _ _ _ Hd), bind_Some_eq.
    unfold doc_len. by destruct (f_eqb _ _).
  Qed.

  Lemma find_kws d id tokens : live !! id = Some d → (∀ k, k ∈ tokens → k ∈ Text <$> Keywords d) →
    ∃ kws, Forall2 (λ t kw, kwOf (live ∪ dying) t id = Some kw) tokens kws ∧ hit_kws d tokens kws.
  Proof.
    intros Hd. induction tokens as [|t tokens IH]; intros Hall.
    - exists []. split; constructor.
    - destruct IH as (kws & H1 & H2); [intros k Hk; apply Hall; by right|].
      assert (is_Some (kwOf (live ∪ dying) t id)) as [kw Hkw].
      { eapply kwOf_is_Some; [by apply union_live|]. apply Hall. left. }
      exists (kw :: kws). split; constructor; try done.
      unfold kwOf in Hkw. rewrite (union_live _ _ _ _ Hd), bind_Some_eq in Hkw. by apply find_kw_Some.
  Qed.

  Lemma report_spec tokens labels rows id d :
    mapM (λ k, table s !! k) (tokens ++ labels) = Some rows → live !! id = Some d →
    (∀ k, k ∈ tokens ++ labels → k ∈ Text <$> Keywords d) →
    (ity = LocsIndex ∧ tokens = [] ∧ report log2 s tokens rows id = None) ∨
    (¬ (ity = LocsIndex ∧ tokens = []) ∧
     ∃ kws r, report log2 s tokens rows id = Some r ∧ hit_kws d tokens kws ∧ fields_of log2 s tokens d kws r).
  Proof.
    intros HM Hd Hall.
    assert (Hid : DocId d = id).
    { pose proof (union_live live dying _ _ Hd) as Hu. by apply (core_ids _ _ _ _ (inv_core _ _ _ HI)) in Hu as [? _]. }
    destruct (find_kws d id tokens) as (kws & Hkws & Hhit); [done|intros k Hk; apply Hall; set_solver|].
    pose proof (rows_ok _ _ HM) as HF. apply Forall2_app_inv_l in HF as (trows & lrows & HFt & HFl & ->).
    unfold report.
    pose proof (Forall2_length _ _ _ HFt) as Hlen.
    rewrite <- fmap_take. rewrite Hlen, take_app.
    assert (HR : Forall2 (λ r kw, ∃ k, row_ok ity (kwOf (live ∪ dying) k) r ∧ kwOf (live ∪ dying) k id = Some kw) trows kws).
    { clear -HFt Hkws. revert kws Hkws. induction HFt as [|t r ts rs [_ Hok] HFt IH]; intros kws Hkws;
        inversion Hkws as [|? kw ? kws' Hkw Hkws']; subst; constructor; [|by apply IH]. by exists t. }
    assert (Hdfs : Forall2 (row_count s) tokens ((λ r, zlen (docIds r)) <$> trows)).
    { apply Forall2_fmap_r. eapply Forall2_impl; [exact HFt|]. intros k r [Hk Hok]. by eapply row_count_row. }
    pose proof (Forall2_length _ _ _ Hkws) as Hlk.
    unfold hitDoc. rewrite (doc_len_spec _ _ Hd).
    destruct (Z.eqb_spec ity LocsIndex) as [EL|EL].
    - rewrite (hitLocs_spec _ kws _ EL HR), bind_Some_eq.
      destruct (forallb (λ l, 0 <? zlen l) (Starts <$> kws)) eqn:EF; cbn [negb].
      + assert (Hne : Forall (λ kw, Starts kw ≠ []) kws).
        { rewrite forallb_forall in EF. apply Forall_forall. intros kw Hkw E.
          assert (0 <? zlen (Starts kw) = true) as Hz; [|by rewrite E in Hz].
          apply EF, elem_of_list_In. by apply elem_of_list_fmap_1. }
        destruct tokens as [|t tokens].
        { left. split; [done|]. split; [done|]. inversion Hkws; subst. done. }
        right. split; [naive_solver|].
        destruct (proximity_total (Starts <$> kws) (t :: tokens)) as (best & tl & Hrun & Hch).
        { destruct kws; [simpl in Hlk; lia|done]. }
        { by apply Forall_fmap. }
        { by rewrite fmap_length. }
        rewrite Hrun, bind_Some_eq.
        rewrite (bm25Loop_spec _ _ _ kws id f_zero (or_introl EL) HR), bind_Some_eq.
        exists kws. eexists. split; [done|]. split; [done|]. cbv zeta.
        unfold fields_of. cbv zeta. cbn [ixDocId BM25 TokenProximity TokenSnippetLocs TokenLocs].
        split; [done|]. split; [done|]. split; [done|]. split; [unfold LocsIndex, FrequenciesIndex in *; lia|]. split.
        * intros _ Hex. exfalso. apply Exists_exists in Hex as (kw & Hkw & E).
          rewrite Forall_forall in Hne. by apply (Hne kw).
        * intros _ _. split; [|split; [done|split; [done|]]].
          -- eexists. split; [exact Hdfs|]. by rewrite (termOf_value _ (numDocs s)).
          -- intros Hsm. apply (proximity_spec _ _ _ _) in Hrun as (_ & _ & -> & _); try done.
             ++ destruct kws; [simpl in Hlk; lia|done].
             ++ by apply Forall_fmap.
             ++ by rewrite fmap_length.
      + assert (Hex : Exists (λ kw, Starts kw = []) kws).
        { destruct (decide (Exists (λ kw, Starts kw = []) kws)) as [?|HnE]; [done|].
          exfalso. apply Forall_Exists_neg in HnE. rename HnE into Hne. rewrite <- not_true_iff_false in EF. apply EF, forallb_forall. intros l Hl.
          apply elem_of_list_In, elem_of_list_fmap in Hl as (kw & -> & Hkw). rewrite Forall_forall in Hne.
          specialize (Hne kw Hkw). apply Z.ltb_lt. unfold zlen. destruct (Starts kw); [done|simpl; lia]. }
        right. split.
        { intros [_ ->]. inversion Hkws; subst. by apply Exists_nil in Hex. }
        exists kws, (emptyIDoc id). split; [done|]. split; [done|].
        unfold fields_of. cbv zeta. cbn. split; [done|]. split; [done|]. split; [done|]. split; [unfold LocsIndex, FrequenciesIndex in *; lia|].
        split; [by rewrite Hid|]. intros _ Hne. exfalso. apply Exists_exists in Hex as (kw & Hkw & E).
        rewrite Forall_forall in Hne. by apply (Hne kw).
    - right. split; [by intros [? _]|].
      destruct (Z.eqb_spec ity FrequenciesIndex) as [EFq|EFq].
      + rewrite (bm25Loop_spec _ _ _ kws id f_zero (or_intror EFq) HR), bind_Some_eq.
        exists kws. eexists. split; [done|]. split; [done|]. unfold fields_of. cbv zeta.
        cbn [ixDocId BM25 TokenProximity TokenSnippetLocs TokenLocs].
        split; [done|]. split; [done|]. split; [done|]. split; [|done].
        intros _. eexists. split; [exact Hdfs|]. by rewrite (termOf_value _ (numDocs s)).
      + exists kws, (emptyIDoc id). split; [done|]. split; [done|]. unfold fields_of. cbv zeta. cbn. done.
  Qed.

  (** * The whole search *)

  Lemma lookup_spec tokens labels flt countOnly logic :
    plain_logic logic →
    ∃ hits, StronglySorted (flip slt) hits ∧
      (∀ id, id ∈ hits ↔ matches live (tokens ++ labels) flt id) ∧
      ((ity = LocsIndex ∧ tokens = [] ∧ hits ≠ [] ∧
        Lookup log2 s tokens labels flt countOnly logic = None) ∨
       (¬ (ity = LocsIndex ∧ tokens = [] ∧ hits ≠ []) ∧ ∃ docs,
        Lookup log2 s tokens labels flt countOnly logic =
          Some (if countOnly then [] else docs, zlen hits) ∧
        Forall2 (λ id r, ∃ d kws, live !! id = Some d ∧ hit_kws d tokens kws ∧
                   fields_of log2 s tokens d kws r) hits docs)).
  Proof.
    intros Hpl.
    assert (HL : Lookup log2 s tokens labels flt countOnly logic =
      if numDocs s =? 0 then Some ([], 0) else internalLookup log2 s (tokens ++ labels) tokens flt countOnly).
    { unfold Lookup. destruct (numDocs s =? 0); [done|]. destruct logic as [lg|]; [|done].
      destruct Hpl as (-> & -> & -> & -> & ->). simpl. by rewrite andb_false_r. }
    rewrite HL. clear HL.
    assert (Hempty : (∀ id, ¬ matches live (tokens ++ labels) flt id) →
      ∃ hits : list string, StronglySorted (flip slt) hits ∧
      (∀ id, id ∈ hits ↔ matches live (tokens ++ labels) flt id) ∧
      ((ity = LocsIndex ∧ tokens = [] ∧ hits ≠ [] ∧
        Some (@nil IndexedDoc, 0) = None) ∨
       (¬ (ity = LocsIndex ∧ tokens = [] ∧ hits ≠ []) ∧ ∃ docs,
        Some (@nil IndexedDoc, 0) = Some (if countOnly then [] else docs, zlen hits) ∧
        Forall2 (λ id r, ∃ d kws, live !! id = Some d ∧ hit_kws d tokens kws ∧
                   fields_of log2 s tokens d kws r) hits docs))).
    { intros Hno. exists []. split; [constructor|]. split; [intros id; split; [by intros ?%elem_of_nil|by intros ?%Hno]|].
      right. split; [by intros (_ & _ & ?)|]. exists []. split; [by destruct countOnly|constructor]. }
    destruct (Z.eqb_spec (numDocs s) 0) as [E0|_].
    { apply Hempty. intros id (_ & _ & d & Hd & _). rewrite (core_num _ _ _ _ (inv_core _ _ _ HI)) in E0.
      assert (live = ∅) as Hl by (apply map_size_empty_inv; lia). by rewrite Hl, lookup_empty in Hd. }
    destruct (mapM (λ k, table s !! k) (tokens ++ labels)) as [rows|] eqn:HM.
    2:{ assert (internalLookup log2 s (tokens ++ labels) tokens flt countOnly = Some ([], 0)) as ->
          by (unfold internalLookup; by rewrite HM).
        apply Hempty. intros id. by apply no_row_no_match. }
    destruct (decide (tokens ++ labels = [])) as [Enil|Hne].
    { rewrite Enil in HM. injection HM as <-.
      assert (internalLookup log2 s (tokens ++ labels) tokens flt countOnly = Some ([], 0)) as ->
        by (unfold internalLookup; by rewrite Enil).
      apply Hempty. by intros id (? & _). }
    rewrite (internalLookup_spec log2 s _ tokens flt countOnly rows HM (rows_good _ _ HM)).
    pose proof (rows_ok _ _ HM) as HF.
    destruct rows as [|row0 rows]; [apply Forall2_length in HF; destruct (tokens ++ labels); [done|simpl in HF; lia]|].
    set (hits := hitsOf s flt (row0 :: rows) (reverse (docIds row0))).
    assert (Hh : ∀ id, id ∈ hits ↔ matches live (tokens ++ labels) flt id).
    { intros id. unfold hits, hitsOf. rewrite elem_of_list_filter, elem_of_reverse.
      rewrite (hit_matches _ _ flt id Hne HM). split; [by intros [? _]|]. intros Hm. split; [done|].
      apply (hit_matches _ _ flt id Hne HM) in Hm as (_ & Hall & _). apply Hall. left. }
    exists hits. split.
    { apply StronglySorted_filter, sorted_reverse. pose proof (rows_good _ _ HM) as Hg. by inversion Hg as [|? ? []]. }
    split; [done|].
    destruct (decide (ity = LocsIndex ∧ tokens = [] ∧ hits ≠ [])) as [(E1 & E2 & E3)|Hnc].
    - left. split; [done|]. split; [done|]. split; [done|].
      destruct hits as [|id hits']; [done|]. cbn [mapM].
      destruct (Hh id) as [(_ & _ & d & Hd & Hall) _]; [left|].
      destruct (report_spec tokens labels _ id d HM Hd Hall) as [(_ & _ & ->)|[Hc _]]; [done|]. by exfalso; apply Hc.
    - right. split; [done|].
      assert (HM' : ∀ hs, (∀ id, id ∈ hs → id ∈ hits) → ∃ docs, mapM (report log2 s tokens (row0 :: rows)) hs = Some docs ∧
        Forall2 (λ id r, ∃ d kws, live !! id = Some d ∧ hit_kws d tokens kws ∧
                   fields_of log2 s tokens d kws r) hs docs).
      { induction hs as [|id hs IH]; intros Hin; [by exists []|].
        destruct IH as (docs & HMd & HFd); [intros x Hx; apply Hin; by right|].
        destruct (Hh id) as [(_ & _ & d & Hd & Hall) _]; [apply Hin; left|].
        destruct (report_spec tokens labels _ id d HM Hd Hall) as [(E1 & E2 & _)|(_ & kws & r & Hr & Hk & Hf)].
        { exfalso. apply Hnc. split; [done|]. split; [done|]. intros E3. specialize (Hin id (elem_of_list_here _ _)).
          rewrite E3 in Hin. by apply elem_of_nil in Hin. }
        exists (r :: docs). cbn [mapM]. rewrite Hr, bind_Some_eq, HMd, bind_Some_eq. split; [done|].
        constructor; [by exists d, kws|done]. }
      destruct (HM' hits) as (docs & -> & HFd); [done|]. rewrite bind_Some_eq. exists docs.
      split; [|done]. f_equal. f_equal. unfold zlen. by rewrite (Forall2_length _ _ _ HFd).
  Qed.
End Search.

Lemma fields_id log2 s tokens d kws r : fields_of log2 s tokens d kws r → ixDocId r = DocId d.
Proof. by intros [? _]. Qed.

Lemma forall2_ids log2 s live dying hits docs tokens :
  Inv s live dying →
  Forall2 (λ id r, ∃ d kws, live !! id = Some d ∧ hit_kws d tokens kws ∧
                   fields_of log2 s tokens d kws r) hits docs → ixDocId <$> docs = hits.
Proof.
  intros HI. induction 1 as [|id r hits docs (d & kws & Hd & _ & Hf) _ IH]; [done|].
  rewrite fmap_cons, IH. f_equal. rewrite (fields_id _ _ _ _ _ _ Hf).
  pose proof (union_live live dying _ _ Hd) as Hu. by apply (core_ids _ _ _ _ (inv_core _ _ _ HI)) in Hu as [? _].
Qed.

(** * C03, C04, C16, C19 in one statement about the live documents *)
Lemma search_thm sortDocs o ops s log2 :
  reach sortDocs o ops s →
  ∃ M, shows s M ∧ (∀ id d, M !! id = Some d → added d ops) ∧
  ∀ tokens labels flt logic, plain_logic logic →
  ∃ hits, StronglySorted (flip slt) hits ∧
    (∀ id, id ∈ hits ↔ matches M (tokens ++ labels) flt id) ∧
    ((IndexType o = LocsIndex ∧ tokens = [] ∧ hits ≠ [] ∧
      ∀ countOnly, Lookup log2 s tokens labels flt countOnly logic = None) ∨
     (¬ (IndexType o = LocsIndex ∧ tokens = [] ∧ hits ≠ []) ∧ ∃ docs,
      Lookup log2 s tokens labels flt false logic = Some (docs, zlen docs) ∧
      Lookup log2 s tokens labels flt true logic = Some ([], zlen docs) ∧
      ixDocId <$> docs = hits ∧
      ∀ r, r ∈ docs → ∃ d kws, M !! ixDocId r = Some d ∧ hit_kws d tokens kws ∧
             fields_of log2 s tokens d kws r)).
Proof.
  intros HR. destruct (reach_inv _ _ _ _ HR) as (live & dying & HI & Ho & Hadd).
  exists live. split; [by eapply inv_shows|]. split.
  { intros id d Hd. apply Hadd. right; left. by exists id. }
  intros tokens labels flt logic Hpl.
  destruct (lookup_spec log2 s live dying HI tokens labels flt false logic Hpl) as (hits & Hs & Hh & Hc).
  destruct (lookup_spec log2 s live dying HI tokens labels flt true logic Hpl) as (hits' & Hs' & Hh' & Hc').
  assert (hits' = hits) as ->.
  { assert (HH : ∀ l, StronglySorted (flip slt) l → StronglySorted slt (reverse l)).
    { induction 1 as [|x l _ IH Hx]; [constructor|]. rewrite reverse_cons. apply StronglySorted_app_iff.
      split; [done|]. split; [repeat constructor|].
      intros a b Ha Hb. apply elem_of_list_singleton in Hb as ->. rewrite elem_of_reverse in Ha.
      rewrite Forall_forall in Hx. by apply Hx. }
    apply (inj reverse). apply StronglySorted_unique_elem; [by apply HH..|].
    intros x. by rewrite !elem_of_reverse, Hh, Hh'. }
  assert (IndexType (initOptions s) = IndexType o) as Hity by by rewrite Ho.
  exists hits. split; [done|]. split; [done|]. rewrite Hity in *.
  destruct Hc as [(E1 & E2 & E3 & HL)|(Hn & docs & HL & HF)].
  - left. split; [done|]. split; [done|]. split; [done|]. intros [|]; [|done].
    destruct Hc' as [(_ & _ & _ & ?)|(Hn & _)]; [done|]. by exfalso; apply Hn.
  - right. split; [done|]. exists docs. destruct Hc' as [(? & ? & ? & _)|(_ & docs' & HL' & _)].
    { exfalso. by apply Hn. }
    assert (zlen docs = zlen hits) as -> by (unfold zlen; by rewrite (Forall2_length _ _ _ HF)).
    split; [done|]. split; [done|]. split; [by eapply forall2_ids|].
    intros r [i Hi]%elem_of_list_lookup. destruct (Forall2_lookup_r _ _ _ _ _ HF Hi) as (id & _ & d & kws & Hd & Hk & Hf).
    exists d, kws. split; [|done]. rewrite (fields_id _ _ _ _ _ _ Hf).
    pose proof (union_live live dying _ _ Hd) as Hu. by apply (core_ids _ _ _ _ (inv_core _ _ _ HI)) in Hu as [-> _].
Qed.

Lemma shows_matches s M keywords flt id : shows s M →
  matches M keywords flt id ↔
  keywords ≠ [] ∧ passes flt id ∧ HasDoc s id = true ∧ ∀ k, k ∈ keywords → in_row s k id.
Proof.
  intros (H1 & _ & H3 & _). unfold matches. split.
  - intros (Hne & Hp & d & Hd & Hall). split; [done|]. split; [done|]. split; [apply H1; by eexists|].
    intros k Hk. eapply H3; [done|auto].
  - intros (Hne & Hp & Hh & Hall). apply H1 in Hh as [d Hd]. split; [done|]. split; [done|].
    exists d. split; [done|]. intros k Hk. eapply H3; [done|auto].
Qed.

Lemma C03_lem sortDocs o ops s log2 : reach sortDocs o ops s →
  ∃ M, shows s M ∧ (∀ id d, M !! id = Some d → added d ops) ∧
  ∀ tokens labels flt logic docs n, plain_logic logic →
    Lookup log2 s tokens labels flt false logic = Some (docs, n) →
    ∀ id, id ∈ ixDocId <$> docs ↔ matches M (tokens ++ labels) flt id.
Proof.
  intros HR. destruct (search_thm _ _ _ _ log2 HR) as (M & Hs & Ha & HL).
  exists M. split; [done|]. split; [done|]. intros tokens labels flt logic docs n Hpl Hrun id.
  destruct (HL tokens labels flt logic Hpl) as (hits & _ & Hh & [(_ & _ & _ & Hn)|(_ & docs' & HL' & _ & Hids & _)]).
  - by rewrite Hn in Hrun.
  - rewrite HL' in Hrun. injection Hrun as <- _. by rewrite Hids.
Qed.

Lemma C04_lem sortDocs o ops s log2 tokens labels flt logic docs n :
  reach sortDocs o ops s → plain_logic logic →
  Lookup log2 s tokens labels flt false logic = Some (docs, n) →
  StronglySorted (flip slt) (ixDocId <$> docs) ∧ NoDup (ixDocId <$> docs) ∧ n = zlen docs ∧
  Lookup log2 s tokens labels flt true logic = Some ([], n).
Proof.
  intros HR Hpl Hrun. destruct (search_thm _ _ _ _ log2 HR) as (M & Hs & Ha & HL).
  destruct (HL tokens labels flt logic Hpl) as (hits & Hsort & Hh & [(_ & _ & _ & Hn)|(_ & docs' & HL' & HLc & Hids & _)]).
  - by rewrite Hn in Hrun.
  - rewrite HL' in Hrun. injection Hrun as <- <-. rewrite Hids. split; [done|]. split; [|done].
    clear -Hsort. induction Hsort as [|x l _ IH Hx]; constructor; [|done]. intros Hin.
    rewrite Forall_forall in Hx. by eapply slt_irrefl, Hx.
Qed.

Lemma C16_lem sortDocs o ops s log2 : reach sortDocs o ops s →
  ∃ M, shows s M ∧
  ∀ tokens labels flt countOnly logic, plain_logic logic →
    Lookup log2 s tokens labels flt countOnly logic = None ↔
    IndexType o = LocsIndex ∧ tokens = [] ∧ ∃ id, matches M labels flt id.
Proof.
  intros HR. destruct (search_thm _ _ _ _ log2 HR) as (M & Hs & Ha & HL).
  exists M. split; [done|]. intros tokens labels flt co logic Hpl.
  destruct (HL tokens labels flt logic Hpl) as (hits & Hsort & Hh & [(E1 & E2 & E3 & Hn)|(Hn & docs' & HL' & HLc & Hids & _)]).
  - split; [|done]. intros _. split; [done|]. split; [done|]. destruct hits as [|id hits]; [done|].
    exists id. subst tokens. apply Hh. left.
  - split; [destruct co; congruence|]. intros (E1 & -> & id & Hid). exfalso. apply Hn. split; [done|].
    split; [done|]. intros ->. apply Hh in Hid. by apply elem_of_nil in Hid.
Qed.

Lemma C19_lem sortDocs o ops s log2 : reach sortDocs o ops s →
  ∃ M, shows s M ∧
  ∀ tokens labels flt logic docs n, plain_logic logic →
    Lookup log2 s tokens labels flt false logic = Some (docs, n) →
    ∀ r, r ∈ docs → ∃ d kws, M !! ixDocId r = Some d ∧ hit_kws d tokens kws ∧
      fields_of log2 s tokens d kws r.
Proof.
  intros HR. destruct (search_thm _ _ _ _ log2 HR) as (M & Hs & Ha & HL).
  exists M. split; [done|]. intros tokens labels flt logic docs n Hpl Hrun.
  destruct (HL tokens labels flt logic Hpl) as (hits & Hsort & Hh & [(_ & _ & _ & Hn)|(_ & docs' & HL' & _ & _ & Hr)]).
  - by rewrite Hn in Hrun.
  - rewrite HL' in Hrun. by injection Hrun as <- _.
Qed.

Lemma search_live sortDocs o ops s log2 tokens labels flt logic docs n id :
  reach sortDocs o ops s → plain_logic logic →
  Lookup log2 s tokens labels flt false logic = Some (docs, n) →
  id ∈ ixDocId <$> docs ↔
    tokens ++ labels ≠ [] ∧ passes flt id ∧ HasDoc s id = true ∧ ∀ k, k ∈ tokens ++ labels → in_row s k id.
Proof.
  intros HR Hpl Hrun. destruct (C03_lem _ _ _ _ log2 HR) as (M & Hs & _ & HM).
  rewrite (HM _ _ _ _ _ _ Hpl Hrun). by apply shows_matches.
Qed.
