(** Searches with and without a logic expression, for one indexer. *)
From Verif Require Import ModelLookup ModelPipe ModelEngine SpecIndexer SpecSearch SpecLogic SpecRank SpecRoute SpecPipe SpecEngine SpecFlight SpecEnd SpecFits
  ProofSearch ProofTable ProofIndexer ProofCache ProofHistory ProofLookup ProofSearchThms ProofLogic ProofLogicThms ProofIxMap.

Lemma with_logic_dec req : with_logic req ∨ ¬ with_logic req.
Proof. unfold with_logic. rewrite is_logic_b. destruct (_ || _); auto. Qed.
Lemma plain_not_logic kws lg : plain_logic (Some lg) → ¬ is_logic kws lg.
Proof. intros (H1 & H2 & H3 & H4 & H5) [[_ [?|[?|?]]]|[?|?]]; congruence. Qed.
Lemma fits_plain req d : ¬ with_logic req → fits req d ↔ wanted req d.
Proof. unfold fits. tauto. Qed.
Lemma plain_answerable o req : plain_logic (Some (rqLogic req)) → rqTokens req ++ rqLabels req ≠ [] →
  (IndexType o = LocsIndex → rqTokens req ≠ []) → answerable o req.
Proof. intros H1 H2 H3. left. split; [by apply plain_not_logic|done]. Qed.

Lemma reach_content_added sortDocs o ops s : reach sortDocs o ops s →
  ∃ M D, content s M D ∧ (∀ id d, D !! id = Some d → DocId d = id ∧ added d ops) ∧
    (∀ k r, table s !! k = Some r → row_good r) ∧ numDocs s = Z.of_nat (size M) ∧ (removeCache s = [] → D = M).
Proof.
  intros HR. destruct (reach_inv _ _ _ _ HR) as (live & dying & HI & _ & Ha).
  exists live, (live ∪ dying). split; [|split; [|split; [by eapply inv_good|split; [apply HI|]]]].
  - split; [by eapply inv_shows|]. split; [apply map_union_subseteq_l|]. split; [by apply inv_indexes|].
    intros id. rewrite union_is_Some, (inv_hasdoc _ _ _ _ HI).
    by rewrite (core_rc _ _ _ _ (inv_core _ _ _ HI)).
  - intros id d Hd. split; [by apply (core_ids _ _ _ _ (inv_core _ _ _ HI) id d Hd)|]. apply Ha.
    apply lookup_union_Some_raw in Hd as [Hd|[_ Hd]]; unfold allDocs; eauto.
  - intros Hrc. assert (dying = ∅) as ->; [|by rewrite (right_id_L ∅ (∪))].
    apply map_eq. intros id. rewrite lookup_empty. destruct (dying !! id) eqn:E; [|done].
    assert (id ∈ removeCache s) as Hin by (apply (core_rc _ _ _ _ (inv_core _ _ _ HI)); by eexists).
    rewrite Hrc in Hin. by apply elem_of_nil in Hin.
Qed.

Lemma matches_shows s M M' kws flt id : shows s M → shows s M' → matches M kws flt id → matches M' kws flt id.
Proof.
  intros (A1 & _ & A3 & _) (B1 & _ & B3 & _) (H1 & H2 & d & Hd & Hk). split; [done|]. split; [done|].
  assert (is_Some (M' !! id)) as [d' Hd']. { apply B1, A1. by eexists. }
  exists d'. split; [done|]. intros k Hki. apply (B3 id d' k Hd'). apply (A3 id d k Hd). auto.
Qed.

Lemma fits_same req d d' : DocId d = DocId d' → (∀ k, k ∈ Text <$> Keywords d ↔ k ∈ Text <$> Keywords d') → fits req d → fits req d'.
Proof.
  intros Ei Hk [H1 H2]. split.
  - intros Hn. destruct (H1 Hn) as [P1 P2]. split; [by rewrite <- Ei|]. intros k Hki. apply Hk. auto.
  - intros Hl. destruct (H2 Hl) as [(P1 & P2 & P3) P4]. split; [|by rewrite <- Ei]. split; [|split].
    + intros ws E k Hw. apply Hk. by eapply P1.
    + intros ws E. destruct (P2 ws E) as (k & Hw & Hd). exists k. split; [done|]. by apply Hk.
    + intros ws E k Hw Hd. apply (P3 ws E k Hw). by apply Hk.
Qed.
Lemma shows_fits s M M' req id d : shows s M → shows s M' → M !! id = Some d → fits req d → ∃ d', M' !! id = Some d' ∧ fits req d'.
Proof.
  intros (A1 & A2 & A3 & _) (B1 & B2 & B3 & _) Hd Hf.
  assert (is_Some (M' !! id)) as [d' Hd']. { apply B1, A1. by eexists. }
  exists d'. split; [done|]. eapply fits_same; [|intros k|exact Hf].
  - by rewrite (A2 _ _ Hd), (B2 _ _ Hd').
  - by rewrite <- (A3 _ _ k Hd), <- (B3 _ _ k Hd').
Qed.

Lemma desc_NoDup (l : list string) : StronglySorted (flip slt) l → NoDup l.
Proof.
  induction 1 as [|x l _ IH Hx]; constructor; [|done]. intros Hin.
  rewrite Forall_forall in Hx. by eapply slt_irrefl, Hx.
Qed.

(** What one indexer finds: [M] are its live documents, [D] those and the dying ones. *)
Lemma lookup_fits sortDocs o ops s log2 req : reach sortDocs o ops s → answerable o req →
  ∃ M D docs, content s M D ∧ (∀ id d, D !! id = Some d → DocId d = id ∧ added d ops) ∧ (removeCache s = [] → D = M) ∧
    Lookup log2 s (rqTokens req) (rqLabels req) (rqDocIds req) false (Some (rqLogic req)) = Some (docs, zlen docs) ∧
    Lookup log2 s (rqTokens req) (rqLabels req) (rqDocIds req) true (Some (rqLogic req)) = Some ([], zlen docs) ∧
    NoDup (ixDocId <$> docs) ∧
    (∀ id, id ∈ ixDocId <$> docs → ∃ d, D !! id = Some d ∧ fits req d) ∧
    (∀ id d, M !! id = Some d → fits req d → id ∈ ixDocId <$> docs) ∧
    (with_logic req → ∀ x, x ∈ docs → x = emptyIDoc (ixDocId x)).
Proof.
  intros HR Hreq. destruct (reach_content_added _ _ _ _ HR) as (M & D & HC & HA & HG & Hn & HDM).
  exists M, D. pose proof HC as (Hs & HMD & HD & Hdom).
  destruct Hreq as [(Hnl & Hne & Hloc)|(Hl & Hq)].
  - rewrite !lookup_plain by done.
    destruct (search_thm _ _ _ _ log2 HR) as (M1 & S1 & _ & HS).
    destruct (HS (rqTokens req) (rqLabels req) (rqDocIds req) None I) as (hits & Hso & Hh & [(L1 & L2 & _)|(_ & docs & L1 & L2 & Hids & _)]).
    { by destruct (Hloc L1). }
    exists docs. split; [done|]. split; [done|]. split; [done|]. split; [done|]. split; [done|]. rewrite Hids.
    split; [by apply desc_NoDup|].
    split; [|split; [|done]].
    + intros id Hm. apply Hh in Hm. eapply matches_shows in Hm; [|exact S1|exact Hs]. destruct Hm as (_ & Hp & d & Hd & Hk).
      exists d. split; [by eapply lookup_weaken|]. apply fits_plain; [done|]. split; [|done].
      by rewrite (proj1 (proj2 Hs) _ _ Hd).
    + intros id d Hd [Hw _]. destruct (Hw Hnl) as [Hp Hk]. apply Hh. eapply matches_shows; [exact Hs|exact S1|].
      split; [done|]. split; [by rewrite <- (proj1 (proj2 Hs) _ _ Hd)|]. by exists d.
  - assert (HCar : ∀ id d k, D !! id = Some d → carries D k id ↔ k ∈ Text <$> Keywords d).
    { intros id d k Hd. split; [by intros (d' & Hd' & ?); simplify_eq|by exists d]. }
    assert (HSat : ∀ id d, D !! id = Some d → satisfies D (req_query req) id ↔ words_fit (req_query req) d).
    { intros id d Hd. unfold satisfies, words_fit, has_all, has_one, has_none.
      destruct (req_query req) as [qm qs qn]; cbn. repeat f_equiv.
      - destruct qm as [ws|]; [|by split]. split; [intros H ws' [= <-] k Hk; by apply (HCar id), H|].
        intros H k Hk. apply (HCar id d); [done|]. by eapply H.
      - destruct qs as [ws|]; [|by split]. split; [intros (k & Hk & H) ws' [= <-]; exists k; split; [done|]; by apply (HCar id)|].
        intros H. destruct (H ws eq_refl) as (k & Hk & Hkd). exists k. split; [done|]. by apply (HCar id d).
      - destruct qn as [ws|]; [|by split]. split; [intros H ws' [= <-] k Hk Hkd; apply (H k Hk); by apply (HCar id d)|].
        intros H k Hk Hkd. eapply H; [done|exact Hk|]. by apply (HCar id d). }
    destruct Hq as [(w & ws & Hq)|(Hq & ws & Hsh)].
    + assert (HT : ∃ ids, answers log2 s (rqTokens req) (rqLabels req) (rqDocIds req) (rqLogic req) ids ∧ StronglySorted (flip slt) ids ∧
        ∀ id, id ∈ ids ↔ awake s ∧ passes (rqDocIds req) id ∧ satisfies D (req_query req) id).
      { unfold answers. rewrite !lookup_dispatch by done.
        destruct (size_awake _ _ Hs Hn) as [[Haw ->]|(Haw & _ & ->)].
        - pose proof (LogicLookup_spec s D HG HD (rqDocIds req) (req_words req) (rqLogic req)) as HO. unfold outcome in HO.
          fold (req_query req) in HO. rewrite Hq in HO. destruct HO as (ids & Hres & Hsort & Hin). unfold req_words in *.
          exists ids. split; [by rewrite !Hres|]. split; [done|]. intros id. rewrite Hin. tauto.
        - exists []. split; [done|]. split; [constructor|]. intros id. rewrite elem_of_nil. tauto. }
      destruct HT as (ids & [A1 A2] & Hso & Hin). exists (emptyIDoc <$> ids).
      assert (E : ixDocId <$> (emptyIDoc <$> ids) = ids) by (rewrite <- list_fmap_compose; apply list_fmap_id).
      assert (EL : zlen (emptyIDoc <$> ids) = zlen ids) by (unfold zlen; by rewrite fmap_length).
      rewrite E, EL. do 5 (split; [done|]). split; [by apply desc_NoDup|]. split; [|split].
      * intros id (_ & Hp & Hsat)%Hin. pose proof Hsat as (H1 & _). rewrite Hq in H1. destruct (H1 w (elem_of_list_here _ _)) as (d & Hd & _).
        exists d. split; [done|]. split; [done|]. intros _. split; [by apply (HSat id)|]. intros _. by rewrite (proj1 (HA _ _ Hd)).
      * intros id d Hd [_ Hf]. destruct (Hf Hl) as [Hf1 Hf2]. assert (HDd : D !! id = Some d) by by eapply lookup_weaken.
        apply Hin. split; [|split].
        -- exists id. apply Hs. by eexists.
        -- rewrite <- (proj1 (HA _ _ HDd)). apply Hf2. by rewrite Hq.
        -- by apply (HSat id d).
      * intros _ x (id & -> & _)%elem_of_list_fmap. done.
    + assert (HT : ∃ ids, answers log2 s (rqTokens req) (rqLabels req) (rqDocIds req) (rqLogic req) ids ∧ NoDup ids ∧
        ∀ id, id ∈ ids ↔ awake s ∧ satisfies D (req_query req) id).
      { unfold answers. rewrite !lookup_dispatch by done.
        destruct (size_awake _ _ Hs Hn) as [[Haw ->]|(Haw & _ & ->)].
        - pose proof (LogicLookup_spec s D HG HD None (req_words req) (rqLogic req)) as HO. unfold outcome in HO.
          fold (req_query req) in HO. rewrite Hq, Hsh in HO. destruct HO as (ids & Hres & Hsort & Hin). unfold req_words in *.
          assert (HF : ∀ flt c, LogicLookup s flt c (rqTokens req ++ rqLabels req) (rqLogic req) = LogicLookup s None c (rqTokens req ++ rqLabels req) (rqLogic req)).
          { intros flt c. unfold req_query, req_words in Hq. rewrite parts_eq in Hq. cbn [qMust] in Hq. unfold LogicLookup. cbv zeta.
            destruct (lMust (rqLogic req) || nonempty (eMust (rqLogic req))); [discriminate Hq|reflexivity]. }
          exists ids. split; [rewrite (HF (rqDocIds req) false), (HF (rqDocIds req) true); split; apply Hres|]. split; [done|]. intros id. rewrite Hin. tauto.
        - exists []. split; [done|]. split; [constructor|]. intros id. rewrite elem_of_nil. tauto. }
      destruct HT as (ids & [A1 A2] & Hso & Hin). exists (emptyIDoc <$> ids).
      assert (E : ixDocId <$> (emptyIDoc <$> ids) = ids) by (rewrite <- list_fmap_compose; apply list_fmap_id).
      assert (EL : zlen (emptyIDoc <$> ids) = zlen ids) by (unfold zlen; by rewrite fmap_length).
      rewrite E, EL. do 5 (split; [done|]). split; [done|]. split; [|split].
      * intros id (_ & Hsat)%Hin. pose proof Hsat as (_ & H1 & _). rewrite Hsh in H1. destruct H1 as (k & _ & d & Hd & _).
        exists d. split; [done|]. split; [done|]. intros _. split; [by apply (HSat id)|]. by rewrite Hq.
      * intros id d Hd [_ Hf]. destruct (Hf Hl) as [Hf1 Hf2]. assert (HDd : D !! id = Some d) by by eapply lookup_weaken.
        apply Hin. split; [|by apply (HSat id d)]. exists id. apply Hs. by eexists.
      * intros _ x (id & -> & _)%elem_of_list_fmap. done.
Qed.
