(** Searches beside writes, at the level of the indexer locks. *)
From Verif Require Import ModelEngine ModelFlight SpecFine SpecFineSearch SpecFineDuring SpecIndexer SpecSearch SpecRank SpecRoute SpecPipe SpecLive SpecEngine SpecFlight SpecEnd SpecProx SpecLogic SpecFits SpecDuring
  ProofSearch ProofTable ProofIndexer ProofCache ProofHistory ProofLookup ProofSearchThms ProofLogic ProofLogicThms ProofTopK ProofRoute ProofPipe ProofBlocks ProofFits
  ProofFlush ProofFlushThms ProofIxThms ProofLocks ProofGhost ProofSeqEq ProofLive ProofFine ProofFineSim ProofFineThms ProofFineCycle ProofRanker ProofDuring ProofEnd ProofFineSee ProofFineSearch.

(** What an indexer finds in the middle of a call *)
Lemma seen_fits log2 x live dying o req : Seen x live dying → IndexType (initOptions x) = IndexType o → answerable o req →
  ∃ docs, Lookup log2 x (rqTokens req) (rqLabels req) (rqDocIds req) false (Some (rqLogic req)) = Some (docs, zlen docs) ∧
    Lookup log2 x (rqTokens req) (rqLabels req) (rqDocIds req) true (Some (rqLogic req)) = Some ([], zlen docs) ∧
    NoDup (ixDocId <$> docs) ∧
    (∀ id, id ∈ ixDocId <$> docs → ∃ d, (live ∪ dying) !! id = Some d ∧ fits req d) ∧
    (∀ id d, live !! id = Some d → fits req d → id ∈ ixDocId <$> docs).
Proof.
  intros HSn Hty Hreq. set (D := live ∪ dying).
  assert (Hid : ∀ id d, D !! id = Some d → DocId d = id) by (intros id d Hd; by apply (seen_ids _ _ _ HSn id d Hd)).
  assert (HMD : live ⊆ D) by apply map_union_subseteq_l.
  destruct Hreq as [(Hnl & Hne & Hloc)|(Hl & Hq)].
  - rewrite !lookup_plain by done.
    destruct (seen_plain log2 x live dying (rqTokens req) (rqLabels req) (rqDocIds req) None HSn I) as (hits & Hso & Hh & [(L1 & L2 & _)|(_ & docs & L1 & L2 & Hids & _)]).
    { rewrite Hty in L1. by destruct (Hloc L1). }
    exists docs. split; [done|]. split; [done|]. rewrite Hids. split; [by apply desc_NoDup|]. split.
    + intros id (_ & Hp & d & Hd & Hk)%Hh. assert (HDd : D !! id = Some d) by by eapply lookup_weaken.
      exists d. split; [done|]. apply fits_plain; [done|]. split; [|done]. by rewrite (Hid _ _ HDd).
    + intros id d Hd [Hw _]. destruct (Hw Hnl) as [Hp Hk]. assert (HDd : D !! id = Some d) by by eapply lookup_weaken.
      apply Hh. split; [done|]. split; [by rewrite <- (Hid _ _ HDd)|]. by exists d.
  - rewrite <- !(Lookup_tidy log2 x live dying) by done. pose proof (tidy_inv _ _ _ HSn) as HI. set (s := tidy x live dying) in *.
    assert (HG : ∀ k r, table s !! k = Some r → row_good r) by by eapply inv_good.
    pose proof (inv_indexes _ _ _ HI) as HD. fold D in HD. pose proof (inv_shows _ _ _ HI) as Hs.
    assert (Hn : numDocs s = Z.of_nat (size live)) by apply HI.
    assert (HCar : ∀ id d k, D !! id = Some d → carries D k id ↔ k ∈ Text <$> Keywords d).
    { intros id d k Hd. split; [by intros (d' & Hd' & ?); simplify_eq|by exists d]. }
    assert (HSat : ∀ id d, D !! id = Some d → satisfies D (req_query req) id ↔ words_fit (req_query req) d).
    { intros id d Hd. unfold satisfies, words_fit, has_all, has_one, has_none.
      destruct (req_query req) as [qm qs qn]; cbn. repeat f_equiv.
      - destruct qm as [ws|]; [|by split]. split; [intros H ws' [= <-] k Hk; by apply (HCar id), H|].
        intros H k Hk. apply (HCar id d); [done|]. by eapply H.
      - destruct qs as [ws|]; [|by split]. split; [intros (k & Hk & H) ws' [= <-]; exists k; split; [done|]; by apply (HCar id)|].
        intros H. destruct (H ws eq_refl) as (k & Hk & Hkd). exists k. split; [done|]. by apply (HCar id d).
      - destruct qn as [ws|]; [|by split]. split; [intros H ws' [= <-] k Hk Hkd; apply (H k Hk); by apply (HCar id d)|].
        intros H k Hk Hkd. eapply H; [done|exact Hk|]. by apply (HCar id d). }
    destruct Hq as [(w & ws & Hq)|(Hq & ws & Hsh)].
    + assert (HT : ∃ ids, answers log2 s (rqTokens req) (rqLabels req) (rqDocIds req) (rqLogic req) ids ∧ StronglySorted (flip slt) ids ∧
        ∀ id, id ∈ ids ↔ awake s ∧ passes (rqDocIds req) id ∧ satisfies D (req_query req) id).
      { unfold answers. rewrite !lookup_dispatch by done.
        destruct (size_awake _ _ Hs Hn) as [[Haw ->]|(Haw & _ & ->)].
        - pose proof (LogicLookup_spec s D HG HD (rqDocIds req) (req_words req) (rqLogic req)) as HO. unfold outcome in HO.
          fold (req_query req) in HO. rewrite Hq in HO. destruct HO as (ids & Hres & Hsort & Hin). unfold req_words in *.
          exists ids. split; [by rewrite !Hres|]. split; [done|]. intros id. rewrite Hin. tauto.
        - exists []. split; [done|]. split; [constructor|]. intros id. rewrite elem_of_nil. tauto. }
      destruct HT as (ids & [A1 A2] & Hso & Hin). exists (emptyIDoc <$> ids).
      assert (E : ixDocId <$> (emptyIDoc <$> ids) = ids) by (rewrite <- list_fmap_compose; apply list_fmap_id).
      assert (EL : zlen (emptyIDoc <$> ids) = zlen ids) by (unfold zlen; by rewrite fmap_length).
      rewrite E, EL. do 2 (split; [done|]). split; [by apply desc_NoDup|]. split.
      * intros id (_ & Hp & Hsat)%Hin. pose proof Hsat as (H1 & _). rewrite Hq in H1. destruct (H1 w (elem_of_list_here _ _)) as (d & Hd & _).
        exists d. split; [done|]. split; [done|]. intros _. split; [by apply (HSat id)|]. intros _. by rewrite (Hid _ _ Hd).
      * intros id d Hd [_ Hf]. destruct (Hf Hl) as [Hf1 Hf2]. assert (HDd : D !! id = Some d) by by eapply lookup_weaken.
        apply Hin. split; [|split].
        -- exists id. apply Hs. by eexists.
        -- rewrite <- (Hid _ _ HDd). apply Hf2. by rewrite Hq.
        -- by apply (HSat id d).
    + assert (HT : ∃ ids, answers log2 s (rqTokens req) (rqLabels req) (rqDocIds req) (rqLogic req) ids ∧ NoDup ids ∧
        ∀ id, id ∈ ids ↔ awake s ∧ satisfies D (req_query req) id).
      { unfold answers. rewrite !lookup_dispatch by done.
        destruct (size_awake _ _ Hs Hn) as [[Haw ->]|(Haw & _ & ->)].
        - pose proof (LogicLookup_spec s D HG HD None (req_words req) (rqLogic req)) as HO. unfold outcome in HO.
          fold (req_query req) in HO. rewrite Hq, Hsh in HO. destruct HO as (ids & Hres & Hsort & Hin). unfold req_words in *.
          assert (HF : ∀ flt c, LogicLookup s flt c (rqTokens req ++ rqLabels req) (rqLogic req) = LogicLookup s None c (rqTokens req ++ rqLabels req) (rqLogic req)).
          { intros flt c. unfold req_query, req_words in Hq. rewrite parts_eq in Hq. cbn [qMust] in Hq. unfold LogicLookup. cbv zeta.
            destruct (lMust (rqLogic req) || nonempty (eMust (rqLogic req))); [discriminate Hq|reflexivity]. }
          exists ids. split; [rewrite (HF (rqDocIds req) false), (HF (rqDocIds req) true); split; apply Hres|]. split; [done|]. intros id. rewrite Hin. tauto.
        - exists []. split; [done|]. split; [constructor|]. intros id. rewrite elem_of_nil. tauto. }
      destruct HT as (ids & [A1 A2] & Hso & Hin). exists (emptyIDoc <$> ids).
      assert (E : ixDocId <$> (emptyIDoc <$> ids) = ids) by (rewrite <- list_fmap_compose; apply list_fmap_id).
      assert (EL : zlen (emptyIDoc <$> ids) = zlen ids) by (unfold zlen; by rewrite fmap_length).
      rewrite E, EL. do 2 (split; [done|]). split; [done|]. split.
      * intros id (_ & Hsat)%Hin. pose proof Hsat as (_ & H1 & _). rewrite Hsh in H1. destruct H1 as (k & _ & d & Hd & _).
        exists d. split; [done|]. split; [done|]. intros _. split; [by apply (HSat id)|]. by rewrite Hq.
      * intros id d Hd [_ Hf]. destruct (Hf Hl) as [Hf1 Hf2]. assert (HDd : D !! id = Some d) by by eapply lookup_weaken.
        apply Hin. split; [|by apply (HSat id d)]. exists id. apply Hs. by eexists.
Qed.

Section FineDuring.
  Context (murmur : string → Z) (n : Z) (only reqsFirst : bool) (cap : chan → nat).
  Context (log2 : F → F) (sortDocs : list DocIndex → list DocIndex).
  Hypothesis Hn : 1 <= n < 2^32.
  Context (nseg : nat) (progs : list (list ecall)) (Hap : kept_apart progs).
  Context (io : IndexerOpts) (x0 : Indexer) (stale : list string) (looks : nat → list (list ModelLocks.query)).
  Context (Hv : valid_sort sortDocs) (HI : Init io = Some x0) (HG : Forall good_call (mjoin progs)).
  Notation cs := (mjoin progs).
  Notation fineS := (fineStep murmur n only reqsFirst cap log2 sortDocs).
  Notation start := (fineInit n nseg progs x0 stale looks).
  Notation reachp := (pipe_reach murmur n only reqsFirst cap nseg progs).
  Notation reachf := (fine_reach murmur n only reqsFirst cap log2 sortDocs nseg progs x0 stale looks).

  (** Shard [i] as a search finds it in the state [s] *)
  Definition shard_at (s : fine) (i : nat) (sh : Shard) : Prop :=
    reachf s ∧ 0 <= Z.of_nat i < n ∧ (∃ fsh, fShards s !! i = Some fsh ∧ ModelEngine.shIx sh = index_of fsh) ∧
    rrun (rkCalls (Z.of_nat i) (sLog (fPipe s))) (RankerInit [only]) = Some (shRk sh).

  (** the same with the indexer at rest before the call under way *)
  Lemma rested s i sh : shard_at s i sh → ∃ x, shard_in murmur n only reqsFirst cap sortDocs x0 nseg progs (fPipe s) i (ModelEngine.mkShard x (shRk sh)).
  Proof.
    intros (H1 & H2 & (fsh & H3 & _) & H4).
    destruct (shard_view murmur n only reqsFirst cap log2 sortDocs Hn nseg progs Hap io x0 stale looks Hv HI HG s i fsh H1 H3) as (x & _ & _ & _ & _ & Hr & _).
    exists x. split; [|done]. by eapply fine_pipe.
  Qed.
  Lemma log_fine s s' : rtc fineS s s' → ∃ l, sLog (fPipe s') = sLog (fPipe s) ++ l.
  Proof.
    induction 1 as [s|s s1 s' H1 _ [l IH]]; [exists []; by rewrite app_nil_r|].
    destruct (fine_pipe_step _ _ _ _ _ _ _ _ _ H1) as [E|Hp]; [exists l; by rewrite IH, E|].
    destruct (log_step _ _ _ _ _ _ _ Hp) as [l' E]. exists (l' ++ l). by rewrite IH, E, app_assoc.
  Qed.

  Lemma docs_at s i sh : shard_at s i sh →
    ∃ live dying p, Seen (ModelEngine.shIx sh) live dying ∧ reachp p ∧ stems (ixCalls (Z.of_nat i) (sLog p)) live dying ∧
      ∀ d f ct a fo, only_call cs (DocId d) (EIndex d f ct a fo) → dying !! DocId d = None.
  Proof.
    intros (H1 & H2 & (fsh & H3 & ->) & _).
    destruct (shard_view murmur n only reqsFirst cap log2 sortDocs Hn nseg progs Hap io x0 stale looks Hv HI HG s i fsh H1 H3)
      as (x & L0 & D0 & live & dying & Hr & Hx & (HS & p & Hp & Hst & Hc) & _).
    exists live, dying, p. do 3 (split; [done|]). intros d f ct a fo Hoc.
    assert (Hno : ∀ q y L D, reachp q → run sortDocs (ixCalls (Z.of_nat i) (sLog q)) x0 = Some y → Inv y L D → D !! DocId d = None).
    { intros q y L D Hq Hy HIy. destruct (D !! DocId d) as [e|] eqn:E; [|done]. exfalso.
      destruct (single_stage sortDocs Hv (DocId d) (ixCalls (Z.of_nat i) (sLog q)) io x0 y HI) as (_ & _ & _ & _ & _ & Hrm);
        [by eapply opts_good| |done|].
      - destruct (in_ix_only murmur n only reqsFirst cap Hn nseg progs q (Z.of_nat i) d f ct a fo Hq H2 Hoc) as [?|(_ & _ & ?)]; [by left|right; eauto].
      - apply Hrm, (core_rc _ _ _ _ (inv_core _ _ _ HIy)). by exists e. }
    destruct Hc as [(k & o & Hcl & [Ht1 Ht2] & _)|[Hrun Hinv]]; [|by eapply Hno].
    destruct (dying !! DocId d) as [e|] eqn:E; [|done]. exfalso.
    assert (Hre : reachp (fPipe s)) by by eapply fine_pipe.
    destruct (Ht2 _ _ E) as [E0|E0]; [|by rewrite (Hno (fPipe s) x L0 D0) in E0].
    assert (Hnt : ¬ touch x o (DocId d)).
    { eapply only_untouched; [exact Hn|exact Hap|exact Hv|exact HI|exact HG|exact H1| |exact Hcl|exact Hoc|exact Hr|].
      - lia.
      - apply (inv_hasdoc _ _ _ _ Hx). by exists e. }
    destruct (Ht1 (DocId d)) as [El|[_ ?]]; [|done]. rewrite E0 in El.
    by eapply map_disjoint_spec; [apply HS|exact El|exact E].
  Qed.
  Lemma stems_call i p live dying id d : reachp p → 0 <= Z.of_nat i < n → stems (ixCalls (Z.of_nat i) (sLog p)) live dying →
    live !! id = Some d ∨ dying !! id = Some d → ∃ f ct a fo, EIndex d f ct a fo ∈ cs.
  Proof.
    intros Hp Hi Hst Hd. destruct (Hst id d Hd) as [fo Hop].
    destruct (log_ix murmur n only reqsFirst cap Hn nseg progs p (Z.of_nat i) Hp Hi) as [r Hr].
    assert (Hs : OpAdd (Some d) fo ∈ ixStream murmur n (Z.of_nat i) cs). { rewrite <- Hr. apply elem_of_app. by left. }
    apply ixStream_adds in Hs as (f & ct & a & Hc & _ & _). by exists f, ct, a, fo.
  Qed.
  Lemma stems_only i p live dying d d' f ct a fo : reachp p → 0 <= Z.of_nat i < n → stems (ixCalls (Z.of_nat i) (sLog p)) live dying →
    only_call cs (DocId d) (EIndex d f ct a fo) → DocId d' = DocId d → live !! DocId d = Some d' ∨ dying !! DocId d = Some d' → d' = d.
  Proof.
    intros Hp Hi Hst Hoc Ed Hd. destruct (stems_call i p live dying _ d' Hp Hi Hst Hd) as (f' & ct' & a' & fo' & Hc').
    assert (E : EIndex d' f' ct' a' fo' = EIndex d f ct a fo). { eapply only_same; [exact Hoc|done|]. cbn. by rewrite Ed. } by injection E.
  Qed.

  Lemma at_lock : moments murmur n only io cs shard_at (rtc fineS).
  Proof.
    split.
    - by intros s i sh (_ & ? & _).
    - intros s s' i sh sh' d f ct a fo (H1 & _ & (fsh & H3 & E) & _) (_ & _ & (fsh' & H3' & E') & _) Hss Hoc. rewrite E, E'.
      by apply (only_stays murmur n only reqsFirst cap log2 sortDocs Hn nseg progs Hap io x0 stale looks Hv HI HG s s' i fsh fsh' d f ct a fo).
    - intros s s' i sh sh' d f ct a fo H H' Hss Hoc Hk. destruct (rested _ _ _ H) as [x Hx]. destruct (rested _ _ _ H') as [x' Hx'].
      exact (knows_stays murmur n only reqsFirst cap Hn sortDocs x0 nseg progs _ _ _ _ _ _ _ _ _ _ Hx Hx' (log_fine _ _ Hss) Hoc Hk).
    - intros s i sh d f ct a fo H Hoc Hd. pose proof H as (_ & Hi & _). destruct (docs_at _ _ _ H) as (live & dying & p & HS & Hp & Hst & _).
      apply (seen_live _ _ _ HS) in Hd as [d' Hd].
      assert (Ed : DocId d' = DocId d). { apply (seen_ids _ _ _ HS). by apply lookup_union_Some_l. }
      assert (d' = d) as ->. { by eapply stems_only; [..|left]. }
      destruct (Hst (DocId d) d (or_introl Hd)) as [fo' Hop].
      destruct (in_ix_only murmur n only reqsFirst cap Hn nseg progs p (Z.of_nat i) d f ct a fo Hp Hi Hoc) as [E|(_ & ? & _)]; [|done].
      assert (Hin : OpAdd (Some d) fo' ∈ filter (touches (DocId d)) (ixCalls (Z.of_nat i) (sLog p))) by by apply elem_of_list_filter.
      rewrite E in Hin. by apply elem_of_nil in Hin.
    - intros s i sh opts x h H Hj. destruct (rested _ _ _ H) as [y Hy].
      exact (judged_call murmur n only reqsFirst cap Hn sortDocs x0 nseg progs _ _ _ opts x h Hy Hj).
    - intros s i sh opts x d f ct a fo H Hoc Ex Hk Ha. destruct (rested _ _ _ H) as [y Hy].
      exact (judged_only murmur n only reqsFirst cap Hn sortDocs x0 nseg progs _ _ _ opts x d f ct a fo Hy Hoc Ex Hk Ha).
    - intros s i sh lg req H Hreq. pose proof H as (H1 & Hi & (fsh & H3 & E) & _). destruct (docs_at _ _ _ H) as (live & dying & p & HS & Hp & Hst & Hdy).
      assert (Hty : IndexType (initOptions (ModelEngine.shIx sh)) = IndexType io).
      { rewrite E, (opts_reach murmur n only reqsFirst cap log2 sortDocs nseg progs x0 stale looks s i fsh H1 H3).
        clear -HI. unfold Init in HI. revert HI. cbv zeta. destruct (_ <? 0); [done|]. by intros [= <-]. }
      destruct (seen_fits lg _ live dying io req HS Hty Hreq) as (docs & L1 & L2 & HN & HF1 & HF2). exists docs. do 3 (split; [done|]).
      assert (HD : ∀ id d, (live ∪ dying) !! id = Some d → DocId d = id ∧ (live !! id = Some d ∨ dying !! id = Some d)).
      { intros id d Hd. split; [by apply (seen_ids _ _ _ HS)|]. apply lookup_union_Some_raw in Hd as [?|[_ ?]]; auto. }
      split; [|split].
      + intros id (d & Hd & Hf)%HF1. destruct (HD _ _ Hd) as [Ed Hd']. destruct (stems_call i p live dying id d Hp Hi Hst Hd') as (f & ct & a & fo & Hc).
        by exists d, f, ct, a, fo.
      + intros d f ct a fo Hoc Hd Hf. apply (seen_live _ _ _ HS) in Hd as [d' Hd].
        assert (Ed : DocId d' = DocId d). { apply (seen_ids _ _ _ HS). by apply lookup_union_Some_l. }
        assert (d' = d) as ->. { by eapply stems_only; [..|left]. } by eapply HF2.
      + intros d f ct a fo Hoc (d' & Hd & Hf)%HF1. destruct (HD _ _ Hd) as [Ed Hd'].
        assert (d' = d) as -> by by eapply stems_only. split; [done|]. apply (seen_live _ _ _ HS).
        destruct Hd' as [Hd'|Hd']; [by eexists|]. by rewrite (Hdy d f ct a fo Hoc) in Hd'.
  Qed.

  Lemma written_lock ws ss : written_fine fineS start only n ws ss → written_as n shard_at (rtc fineS) ws ss.
  Proof.
    intros (W1 & W2 & W3).
    assert (Hr : ∀ t s, ss !! t = Some s → reachf s).
    { intros t. induction t as [|t IH]; intros s Hs; [by apply W1|].
      assert (is_Some (ss !! t)) as [q Hq]. { apply lookup_lt_is_Some. apply lookup_lt_Some in Hs. lia. }
      eapply rtc_transitive; [by apply IH|]. by eapply W2. }
    split.
    - intros t t' s s' Ht Hs. revert s'. induction Ht as [|t' Ht IH]; intros s' Hs'; [rewrite Hs in Hs'; by injection Hs' as <-|].
      assert (is_Some (ss !! t')) as [q Hq]. { apply lookup_lt_is_Some. apply lookup_lt_Some in Hs'. lia. }
      eapply rtc_transitive; [by apply IH|]. by eapply W2.
    - apply Forall2_same_length_lookup_2; [apply (Forall2_length _ _ _ W3)|]. intros t s w Hs Hw.
      destruct (Forall2_lookup_lr _ _ _ _ _ _ W3 Hs Hw) as [Hl HS]. split; [done|]. intros i sh Hi. destruct (HS i sh Hi) as [A B].
      split; [by eapply Hr|]. split; [|done]. apply lookup_lt_Some in Hi. unfold zlen in Hl. lia.
  Qed.
End FineDuring.
