(** What searches make of the moments they see.  The moments are given by any states [P] that say what each shard holds;
    the states at rest (ProofDuring) and those in the middle of a call (ProofFineDuring) are two cases. *)
From Verif Require Import ModelPipe ModelEngine ModelFlight SpecIndexer SpecSearch SpecRank SpecRoute SpecPipe SpecEngine SpecFlight SpecEnd SpecLogic SpecFits SpecDuring SpecDeadline
  ProofTable ProofIndexer ProofCache ProofHistory ProofIxThms ProofIxMap ProofIxMore ProofSearchThms ProofRanker ProofRoute ProofPipe ProofFlush ProofFlushThms ProofEngine ProofFlightSafe ProofLogicThms ProofFits ProofEnd.

Lemma worlds_some log2 sortBy n ccap ls (s s' : fstate) : frun log2 sortBy n ccap ls s = Some s' → fWorlds s ≠ [] → fWorlds s' ≠ [].
Proof.
  revert s. induction ls as [|l ls IH]; intros s; cbn; [by intros [= <-]|].
  destruct (fstep _ _ _ _ l s) as [s1|] eqn:E; [|done]. cbn. intros Hr Hne. eapply IH; [exact Hr|]. clear -E Hne.
  unfold fstep in E. destruct (fCrash s); [done|]. destruct l as [k late|i sh].
  - destruct (fProcs s !! k); [|done]. cbn in E. destruct (fproc _ _ _ _ _ _ _) as [[]|]; [..|done]; by injection E as <-.
  - destruct (last (fWorlds s)); [|done]. cbn in E. injection E as <-. cbn. by destruct (fWorlds s).
Qed.
Lemma nodup_only cs c id : NoDup (omap call_id cs) → c ∈ cs → call_id c = Some id → only_call cs id c.
Proof.
  unfold only_call. induction cs as [|x cs IH]; intros HN Hc E; [by apply elem_of_nil in Hc|]. cbn in HN. rewrite filter_cons.
  apply elem_of_cons in Hc as [<-|Hc].
  - rewrite decide_True by done. f_equal. rewrite E in HN. apply NoDup_cons in HN as [Hx _].
    destruct (filter (λ c', call_id c' = Some id) cs) as [|y l] eqn:Ef; [done|]. exfalso. apply Hx.
    assert (Hy : y ∈ filter (λ c', call_id c' = Some id) cs) by (rewrite Ef; by left). apply elem_of_list_filter in Hy as [Ey Hy].
    apply elem_of_list_omap. by exists y.
  - assert (Hin : id ∈ omap call_id cs) by (apply elem_of_list_omap; by exists c).
    destruct (decide _) as [Ex|Ex].
    + rewrite Ex in HN. by apply NoDup_cons in HN as [? _].
    + apply IH; [|done..]. destruct (call_id x); [by apply NoDup_cons in HN as [_ ?]|done].
Qed.
Lemma count_NoDup (l : list ScoredDoc) : (∀ h, h ∈ l → (length (filter (λ h', sdDocId h' = sdDocId h) l) <= 1)%nat) → NoDup (sdDocId <$> l).
Proof.
  induction l as [|x l IH]; intros H; [constructor|]. rewrite fmap_cons. apply NoDup_cons. split.
  - intros (y & E & Hy)%elem_of_list_fmap. specialize (H x (elem_of_list_here _ _)). rewrite filter_cons, decide_True in H by done.
    assert (Hf : y ∈ filter (λ h', sdDocId h' = sdDocId x) l) by by apply elem_of_list_filter.
    destruct (filter (λ h', sdDocId h' = sdDocId x) l); [by apply elem_of_nil in Hf|]. cbn in H. lia.
  - apply IH. intros h Hh. specialize (H h (elem_of_list_further _ _ _ Hh)). rewrite filter_cons in H. destruct (decide _); cbn in H; lia.
Qed.

Lemma only_in cs id c : only_call cs id c → c ∈ cs.
Proof. intros H. assert (Hc : c ∈ filter (λ c', call_id c' = Some id) cs) by (rewrite H; by left). by apply elem_of_list_filter in Hc as [_ ?]. Qed.
Lemma only_same cs id c c' : only_call cs id c → c' ∈ cs → call_id c' = Some id → c' = c.
Proof.
  intros H Hc E. assert (Hm : c' ∈ filter (λ c', call_id c' = Some id) cs) by by apply elem_of_list_filter. rewrite H in Hm. by apply elem_of_list_singleton in Hm.
Qed.

Record moments (murmur : string → Z) (n : Z) (only : bool) (o : IndexerOpts) (cs : list ecall)
    {P : Type} (shard_in : P → nat → Shard → Prop) (grows : P → P → Prop) : Prop := {
  mo_range p i sh : shard_in p i sh → 0 <= Z.of_nat i < n;
  mo_has p q i sh sh' d f ct a fo : shard_in p i sh → shard_in q i sh' → grows p q →
    only_call cs (DocId d) (EIndex d f ct a fo) → HasDoc (shIx sh) (DocId d) = true → HasDoc (shIx sh') (DocId d) = true;
  mo_knows p q i sh sh' d f ct a fo : shard_in p i sh → shard_in q i sh' → grows p q →
    only_call cs (DocId d) (EIndex d f ct a fo) → is_Some (rDocs (shRk sh) !! DocId d) → is_Some (rDocs (shRk sh') !! DocId d);
  mo_shard p i sh d f ct a fo : shard_in p i sh → only_call cs (DocId d) (EIndex d f ct a fo) →
    HasDoc (shIx sh) (DocId d) = true → shardOf murmur n (DocId d) ct = Z.of_nat i;
  mo_judged p i sh opts x h : shard_in p i sh → judged opts (x, sh) = Some h →
    sdDocId h = ixDocId x ∧ is_Some (rDocs (shRk sh) !! ixDocId x) ∧
    ∃ d f ct a fo, EIndex d f ct a fo ∈ cs ∧ DocId d = ixDocId x ∧ shows_call only (ScoringCriteria opts) h d f ct a;
  mo_judged_only p i sh opts x d f ct a fo : shard_in p i sh → only_call cs (DocId d) (EIndex d f ct a fo) → ixDocId x = DocId d →
    is_Some (rDocs (shRk sh) !! DocId d) → score_accepts (ScoringCriteria opts) (DocId d) f → is_Some (judged opts (x, sh));
  mo_found p i sh log2 req : shard_in p i sh → answerable o req →
    ∃ docs, Lookup log2 (shIx sh) (rqTokens req) (rqLabels req) (rqDocIds req) false (Some (rqLogic req)) = Some (docs, zlen docs) ∧
      Lookup log2 (shIx sh) (rqTokens req) (rqLabels req) (rqDocIds req) true (Some (rqLogic req)) = Some ([], zlen docs) ∧
      NoDup (ixDocId <$> docs) ∧
      (∀ id, id ∈ ixDocId <$> docs → ∃ d f ct a fo, EIndex d f ct a fo ∈ cs ∧ DocId d = id ∧ fits req d) ∧
      (∀ d f ct a fo, only_call cs (DocId d) (EIndex d f ct a fo) → HasDoc (shIx sh) (DocId d) = true → fits req d →
         DocId d ∈ ixDocId <$> docs) ∧
      (∀ d f ct a fo, only_call cs (DocId d) (EIndex d f ct a fo) → DocId d ∈ ixDocId <$> docs →
         fits req d ∧ HasDoc (shIx sh) (DocId d) = true) }.

Section Moments.
  Context (murmur : string → Z) (n : Z) (only : bool) (o : IndexerOpts) (cs : list ecall).
  Context {P : Type} (shard_in : P → nat → Shard → Prop) (grows : P → P → Prop).
  Context (M : moments murmur n only o cs shard_in grows).
  Definition written_as (ws : list (list Shard)) (ps : list P) : Prop :=
    (∀ t t' p q, (t <= t')%nat → ps !! t = Some p → ps !! t' = Some q → grows p q) ∧
    Forall2 (λ p w, zlen w = n ∧ ∀ i sh, w !! i = Some sh → shard_in p i sh) ps ws.

  Section Reply.
    Context (ws : list (list Shard)) (ps : list P).
    Context (HW : written_as ws ps).

    Lemma at_grow t t' p q : (t <= t')%nat → ps !! t = Some p → ps !! t' = Some q → grows p q.
    Proof. apply HW. Qed.
    Lemma at_seen t i sh : seen ws i t t sh → ∃ p, ps !! t = Some p ∧ shard_in p i sh.
    Proof.
      intros (t' & w & Ht & Hw & Hi). assert (t' = t) as -> by lia.
      destruct (Forall2_lookup_r _ _ _ _ _ (proj2 HW) Hw) as (p & Hp & Hl & Hs). exists p. split; [done|]. by apply Hs.
    Qed.
    Lemma at_moment t (i : nat) : (t < length ws)%nat → Z.of_nat i < n → ∃ sh, seen ws i t t sh.
    Proof.
      intros Ht Hi. apply lookup_lt_is_Some in Ht as [w Hw].
      destruct (Forall2_lookup_r _ _ _ _ _ (proj2 HW) Hw) as (p & Hp & Hl & Hs).
      assert (is_Some (w !! i)) as [sh Hsh]. { apply lookup_lt_is_Some. unfold zlen in Hl. lia. }
      exists sh, t, w. split; [lia|done].
    Qed.

    Context (log2 : F → F) (sortBy : (ScoredDoc → ScoredDoc → bool) → list ScoredDoc → list ScoredDoc).
    Context (req : SearchReq) (t1 t2 : nat) (Hvb : valid_sortBy sortBy) (Hpr : timed_request o req).
    Context (Ht2 : (t2 < length ws)%nat) (Hnan : Forall (scores_numbers log2 req) ws).
    Notation score := (ScoringCriteria (rqOpts req)).

    (** what shard [i] may and must find *)
    Definition found_ok (i : nat) (found : list ScoredDoc) : Prop :=
      (∀ h, h ∈ found → nan_free (sdScores h)) ∧ NoDup (sdDocId <$> found) ∧
      (∀ h, h ∈ found → ∃ d f ct a fo d' f' ct' a' fo',
         EIndex d f ct a fo ∈ cs ∧ fits req d ∧ EIndex d' f' ct' a' fo' ∈ cs ∧ DocId d' = DocId d ∧
         shows_call only score h d' f' ct' a') ∧
      (∀ d f ct a fo sh, only_call cs (DocId d) (EIndex d f ct a fo) → seen ws i t1 t1 sh →
         HasDoc (shIx sh) (DocId d) = true → is_Some (rDocs (shRk sh) !! DocId d) →
         fits req d → score_accepts score (DocId d) f → DocId d ∈ sdDocId <$> found) ∧
      (∀ d f ct a fo, only_call cs (DocId d) (EIndex d f ct a fo) → DocId d ∈ sdDocId <$> found →
         fits req d ∧ shardOf murmur n (DocId d) ct = Z.of_nat i ∧ settled_in ws t2 i (DocId d)).

    Lemma omap_judged_ids judges : ∃ l, l `sublist_of` judges ∧ sdDocId <$> omap (judged (rqOpts req)) judges = (λ x, ixDocId x.1) <$> l.
    Proof.
      induction judges as [|[x sh] js (l & Hl & E)]; [by exists []|]. cbn [omap list_omap].
      destruct (judged (rqOpts req) (x, sh)) as [h|] eqn:Eh.
      - exists ((x, sh) :: l). split; [by apply sublist_skip|]. rewrite !fmap_cons, <- E. f_equal.
        unfold judged in Eh. destruct (rDocs (shRk sh) !! ixDocId x); [|done]. destruct (score x _); [done|]. injection Eh as <-. unfold mkEntry. by destruct (idOnly _).
      - exists l. split; [by apply sublist_cons|done].
    Qed.

    Lemma found_judged t sh docs num i judges :
      (t1 <= t <= t2)%nat → seen ws i t t sh →
      Lookup log2 (shIx sh) (rqTokens req) (rqLabels req) (rqDocIds req) false (Some (rqLogic req)) = Some (docs, num) →
      docs = judges.*1 → (∀ x sh', (x, sh') ∈ judges → ∃ u, (t <= u <= t2)%nat ∧ seen ws i u u sh') →
      found_ok i (omap (judged (rqOpts req)) judges).
    Proof.
      intros Ht Hs HL Hd Hj. destruct Hpr as (_ & _ & Hreq).
      destruct (at_seen _ _ _ Hs) as (p & Hp & HP).
      destruct (mo_found _ _ _ _ _ _ _ M p i sh log2 req HP Hreq) as (docs' & L1 & _ & HN & HF1 & HF2 & HF3).
      rewrite L1 in HL. injection HL as -> _. pose proof (mo_range _ _ _ _ _ _ _ M _ _ _ HP) as P2.
      assert (Hjd : ∀ h, h ∈ omap (judged (rqOpts req)) judges → ∃ x u sh', x ∈ docs ∧ (t <= u <= t2)%nat ∧ seen ws i u u sh' ∧ judged (rqOpts req) (x, sh') = Some h).
      { intros h ([x sh'] & Hx & Hh)%elem_of_list_omap. destruct (Hj x sh' Hx) as (u & Hu & Hsu). exists x, u, sh'.
        split; [|done]. rewrite Hd. change x with ((x, sh').1). by apply elem_of_list_fmap_1. }
      split; [|split; [|split; [|split]]].
      - intros h (x & u & sh' & Hx & _ & _ & Hh)%Hjd. destruct Hs as (t' & w & _ & Hw & Hi).
        pose proof (proj1 (Forall_lookup _ _) Hnan t' w Hw sh docs (zlen docs) x) as Hnum.
        unfold judged in Hh. destruct (rDocs (shRk sh') !! ixDocId x) as [rd|]; [|done].
        destruct (score x _) as [|z sc] eqn:Es; [done|]. injection Hh as <-. unfold mkEntry.
        destruct (idOnly _); cbn; rewrite <- Es; (apply Hnum; [by eapply elem_of_list_lookup_2|done|done]).
      - destruct (omap_judged_ids judges) as (l & Hl & ->). rewrite Hd in HN. rewrite <- list_fmap_compose in HN.
        eapply sublist_NoDup; [exact HN|]. by apply (fmap_sublist (λ x : IndexedDoc * Shard, ixDocId x.1)).
      - intros h (x & u & sh' & Hx & _ & Hsu & Hh)%Hjd. destruct (at_seen _ _ _ Hsu) as (q & _ & HQ).
        destruct (mo_judged _ _ _ _ _ _ _ M q i sh' _ _ _ HQ Hh) as (_ & _ & d' & f' & ct' & a' & fo' & Hc' & Ed' & Hsc).
        destruct (HF1 (ixDocId x)) as (d & f & ct & a & fo & Hc & Ed & Hfit); [by apply elem_of_list_fmap_1|].
        exists d, f, ct, a, fo, d', f', ct', a', fo'. split; [done|]. split; [done|]. split; [done|]. split; [congruence|done].
      - intros d f ct a fo sh1 Hc Hs1 Hh1 Hk1 Hw Ha. destruct (at_seen _ _ _ Hs1) as (p1 & Hp1 & HP1).
        assert (Hh : HasDoc (shIx sh) (DocId d) = true). { eapply (mo_has _ _ _ _ _ _ _ M p1 p); [done..| |done|done]. eapply at_grow; [|done..]. lia. }
        assert (Hin : DocId d ∈ ixDocId <$> docs) by by eapply HF2.
        rewrite Hd, <- list_fmap_compose in Hin. apply elem_of_list_fmap in Hin as ([x sh'] & Ex & Hx). cbn in Ex.
        destruct (Hj x sh' Hx) as (u & Hu & Hsu). destruct (at_seen _ _ _ Hsu) as (q & Hq & HQ).
        assert (Hk : is_Some (rDocs (shRk sh') !! DocId d)). { eapply (mo_knows _ _ _ _ _ _ _ M p1 q); [done..| |done|done]. eapply at_grow; [|done..]. lia. }
        destruct (mo_judged_only _ _ _ _ _ _ _ M q i sh' (rqOpts req) x d f ct a fo HQ Hc (eq_sym Ex) Hk Ha) as [h Hh'].
        destruct (mo_judged _ _ _ _ _ _ _ M q i sh' _ _ _ HQ Hh') as (Eh & _). rewrite Ex, <- Eh. apply elem_of_list_fmap_1.
        apply elem_of_list_omap. by exists (x, sh').
      - intros d f ct a fo Hc (h & Eh & (x & u & sh' & Hx & Hu & Hsu & Hh)%Hjd)%elem_of_list_fmap.
        destruct (at_seen _ _ _ Hsu) as (q & Hq & HQ). destruct (mo_judged _ _ _ _ _ _ _ M q i sh' _ _ _ HQ Hh) as (Eh' & Hk & _).
        rewrite Eh' in Eh. rewrite <- Eh in Hk.
        destruct (HF3 d f ct a fo Hc) as [Hfit Hhas]; [rewrite Eh; by apply elem_of_list_fmap_1|].
        split; [done|]. split; [eapply (mo_shard _ _ _ _ _ _ _ M p i sh); [exact HP|exact Hc|exact Hhas]|].
        destruct (at_moment t2 i Ht2 ltac:(lia)) as [sh2 Hs2]. destruct (at_seen _ _ _ Hs2) as (p2 & Hp2 & HP2).
        destruct Hs2 as (t' & w & Ht' & Hw' & Hi'). assert (t' = t2) as -> by lia. exists w, sh2. split; [done|]. split; [done|]. split.
        + eapply (mo_has _ _ _ _ _ _ _ M p p2); [done..| |done|done]. eapply at_grow; [|done..]. lia.
        + eapply (mo_knows _ _ _ _ _ _ _ M q p2); [done..| |done|done]. eapply at_grow; [|done..]. lia.
    Qed.

    Lemma found_nil i t sh num : (t1 <= t <= t2)%nat → seen ws i t t sh →
      Lookup log2 (shIx sh) (rqTokens req) (rqLabels req) (rqDocIds req) false (Some (rqLogic req)) = Some ([], num) → found_ok i [].
    Proof. intros Ht Hs HL. apply (found_judged t sh [] num i []); [done..|]. by intros x sh' ?%elem_of_nil. Qed.

    Lemma shard_page found page : zslice (sortScored sortBy (ReverseOrder (rqOpts req)) found)
        (maxOutput (shardOpts (rqOpts req)) (zlen (sortScored sortBy (ReverseOrder (rqOpts req)) found))).1
        (maxOutput (shardOpts (rqOpts req)) (zlen (sortScored sortBy (ReverseOrder (rqOpts req)) found))).2 = Some page →
      page = cut (MaxOutputs (rqOpts req)) (OutputOffset (rqOpts req)) (sortScored sortBy (ReverseOrder (rqOpts req)) found).
    Proof.
      destruct Hpr as (_ & (P1 & P2 & P3) & _). set (l := sortScored sortBy (ReverseOrder (rqOpts req)) found).
      pose proof (zlen_nonneg l). unfold maxOutput, shardOpts, cut.
      destruct (Z.eqb_spec (MaxOutputs (rqOpts req)) 0) as [E|E].
      - cbn [negb MaxOutputs OutputOffset]. rewrite E. cbn. rewrite !MinInt_min. rewrite zslice_ok by lia.
        intros [= <-]. rewrite Z.min_l by lia. rewrite drop_0. apply take_ge. unfold zlen. lia.
      - cbn [negb MaxOutputs OutputOffset]. rewrite (int64_id (MaxOutputs (rqOpts req) + OutputOffset (rqOpts req))) by lia.
        destruct (Z.eqb_spec (MaxOutputs (rqOpts req) + OutputOffset (rqOpts req)) 0); [lia|]. cbn [negb fst snd].
        rewrite !MinInt_min, Z.add_0_l, int64_id by lia. rewrite (Z.min_l 0) by lia. rewrite zslice_ok by lia. intros [= <-]. rewrite drop_0.
        destruct (Z.le_gt_cases (MaxOutputs (rqOpts req) + OutputOffset (rqOpts req)) (zlen l)).
        + f_equal. lia.
        + rewrite !take_ge; [done|unfold zlen in *; lia..].
    Qed.

    Lemma reply_found i rp : answered_between log2 sortBy ws i req t1 t2 rp →
      ∃ found, found_ok i found ∧ rpNum rp = zlen found ∧
        docsOf rp = cut (MaxOutputs (rqOpts req)) (OutputOffset (rqOpts req)) (sortScored sortBy (ReverseOrder (rqOpts req)) found).
    Proof.
      intros (t & sh & docs & num & Ht & Hs & HL & Hrp). destruct Hpr as ([Hco Hol] & _). rewrite Hco in HL, Hrp. rewrite Hol in Hrp.
      destruct docs as [|d docs].
      - exists []. split; [by eapply found_nil|]. subst rp. split; [done|]. rewrite sortScored_nil by done.
        unfold cut. destruct (_ =? 0); [done|by rewrite take_nil].
      - destruct Hrp as (judges & page & Ed & (ts & _ & HF) & Hz & ->). exists (omap (judged (rqOpts req)) judges).
        split; [|split; [done|by apply shard_page in Hz]].
        eapply found_judged; [exact Ht|exact Hs|exact HL|exact Ed|]. intros x sh' Hx.
        apply elem_of_list_lookup in Hx as [k Hk]. destruct (Forall2_lookup_l _ _ _ _ _ HF Hk) as (u & _ & Hu). eauto.
    Qed.

    (** ** The whole answer *)
    Definition part (x : nat * Reply * list ScoredDoc) : Prop :=
      found_ok x.1.1 x.2 ∧ rpNum x.1.2 = zlen x.2 ∧
      docsOf x.1.2 = cut (MaxOutputs (rqOpts req)) (OutputOffset (rqOpts req)) (sortScored sortBy (ReverseOrder (rqOpts req)) x.2).
    Lemma parts_of got : (∀ i rp, Some (i, rp) ∈ got → answered_between log2 sortBy ws i req t1 t2 rp) →
      ∃ xs, omap id got = (λ x, (x.1.1, x.1.2)) <$> xs ∧ Forall part xs.
    Proof.
      induction got as [|[[i rp]|] got IH]; intros H; [by exists []|..].
      - destruct IH as (xs & E & HF); [intros; apply H; by right|].
        destruct (reply_found i rp) as (found & Hf); [apply H; by left|]. exists ((i, rp, found) :: xs). split; [cbn; by f_equal|]. by constructor.
      - destruct IH as (xs & E & HF); [intros; apply H; by right|]. by exists xs.
    Qed.

    Lemma parts_full xs full : Forall part xs → NoDup ((λ x : nat * Reply * list ScoredDoc, x.1.1) <$> xs) →
      full ≡ₚ mjoin xs.*2 → answers_heard only cs ws t1 t2 req ((λ x, x.1.1) <$> xs) full.
    Proof.
      intros HF HN Hp. rewrite Forall_forall in HF.
      assert (Hmem : ∀ h, h ∈ full ↔ ∃ x, x ∈ xs ∧ h ∈ x.2).
      { intros h. rewrite Hp, elem_of_list_join. split.
        - intros (l & Hh & (x & -> & Hx)%elem_of_list_fmap). eauto.
        - intros (x & Hx & Hh). exists x.2. split; [done|]. by apply elem_of_list_fmap_1. }
      split.
      { intros h (x & Hx & Hh)%Hmem. destruct (HF x Hx) as [(_ & _ & HS & _) _]. by apply HS. }
      intros d f ct a fo Hc. split; [|split; [|split]].
      - intros i Hin (w & sh & Hw & Hsh & Hh & Hk) Hwt Ha.
        assert (Hs : seen ws i t1 t1 sh) by (exists t1, w; split; [lia|done]).
        apply elem_of_list_fmap in Hin as (x & -> & Hx). destruct (HF x Hx) as [(_ & _ & _ & HC & _) _].
        specialize (HC d f ct a fo sh Hc Hs Hh Hk Hwt Ha). apply elem_of_list_fmap in HC as (h & E & Hhx).
        rewrite E. apply elem_of_list_fmap_1. apply Hmem. eauto.
      - intros (h & E & (x & Hx & Hh)%Hmem)%elem_of_list_fmap. destruct (HF x Hx) as [(_ & _ & _ & _ & HC) _].
        destruct (HC d f ct a fo Hc) as (H1 & _ & H2); [rewrite E; by apply elem_of_list_fmap_1|]. split; [done|]. exists x.1.1.
        split; [|done]. by apply (elem_of_list_fmap_1 (λ x : nat * Reply * list ScoredDoc, x.1.1)).
      - intros h (x & Hx & Hh)%Hmem E. destruct (HF x Hx) as [(_ & _ & HS & _) _].
        destruct (HS h Hh) as (_ & _ & _ & _ & _ & d' & f' & ct' & a' & fo' & _ & _ & Hc' & _ & Hsc).
        assert (EE : EIndex d' f' ct' a' fo' = EIndex d f ct a fo).
        { eapply only_same; [exact Hc|done|]. cbn. f_equal. by rewrite <- E, (proj1 Hsc). }
        by injection EE as -> -> -> -> ->.
      - rewrite Hp. clear Hp Hmem. induction xs as [|x xs IH]; [cbn; lia|].
        rewrite fmap_cons in HN. apply NoDup_cons in HN as [Hx HN]. rewrite fmap_cons, mjoin_cons, filter_app, app_length.
        assert (IH' := IH (λ y Hy, HF y (elem_of_list_further _ _ _ Hy)) HN). clear IH.
        destruct (HF x (elem_of_list_here _ _)) as [(_ & Hnd & _ & _ & HC) _].
        assert (Hone : (length (filter (λ h, sdDocId h = DocId d) x.2) <= 1)%nat).
        { clear -Hnd. induction x.2 as [|h l IH]; [cbn; lia|]. rewrite fmap_cons in Hnd. apply NoDup_cons in Hnd as [Hh Hnd].
          rewrite filter_cons. destruct (decide _) as [E|]; [|by apply IH]. cbn.
          assert (filter (λ h, sdDocId h = DocId d) l = []) as ->; [|cbn; lia].
          destruct (filter (λ h, sdDocId h = DocId d) l) as [|y l'] eqn:Ef; [done|]. exfalso. apply Hh.
          assert (Hy : y ∈ filter (λ h, sdDocId h = DocId d) l) by (rewrite Ef; by left). apply elem_of_list_filter in Hy as [Ey Hy].
          rewrite E, <- Ey. by apply elem_of_list_fmap_1. }
        destruct (filter (λ h, sdDocId h = DocId d) x.2) as [|h l] eqn:E1; [cbn; lia|].
        destruct (filter (λ h, sdDocId h = DocId d) (mjoin xs.*2)) as [|h' l'] eqn:E2; [cbn in *; lia|]. exfalso.
        assert (Hh : h ∈ filter (λ h, sdDocId h = DocId d) x.2) by (rewrite E1; by left). apply elem_of_list_filter in Hh as [Eh Hh].
        assert (Hh' : h' ∈ filter (λ h, sdDocId h = DocId d) (mjoin xs.*2)) by (rewrite E2; by left). apply elem_of_list_filter in Hh' as [Eh' Hh'].
        apply elem_of_list_join in Hh' as (y2 & Hh' & (y & -> & Hy)%elem_of_list_fmap).
        destruct (HC d f ct a fo Hc) as (_ & S1 & _). { rewrite <- Eh. by apply elem_of_list_fmap_1. }
        destruct (HF y (elem_of_list_further _ _ _ Hy)) as [(_ & _ & _ & _ & HCy) _].
        destruct (HCy d f ct a fo Hc) as (_ & S2 & _). { rewrite <- Eh'. by apply elem_of_list_fmap_1. }
        apply Hx. rewrite S1 in S2. apply Nat2Z.inj in S2. rewrite S2.
        apply (elem_of_list_fmap_1 (λ x : nat * Reply * list ScoredDoc, x.1.1)). done.
    Qed.
  End Reply.

  Lemma heard_omap (got : list (option (nat * Reply))) : omap id (heard got) = snd <$> omap id got ∧ heardOf got = fst <$> omap id got ∧
    (negb (forallb (λ e : option Reply, if e then true else false) (heard got)) = false ↔ length (heardOf got) = length got).
  Proof.
    unfold heard, heardOf. induction got as [|[[i rp]|] got (E1 & E2 & E3)]; [done|..]; cbn [fmap list_fmap omap list_omap forallb length] in *.
    - split; [cbn; by rewrite E1|]. split; [cbn; by rewrite E2|]. cbn. rewrite E3. lia.
    - split; [cbn; by rewrite E1|]. split; [cbn; by rewrite E2|]. cbn. split; [done|]. intros H. exfalso.
      assert (HL : ∀ l : list (option (nat * Reply)), (length (omap (λ e, match e with Some (i, _) => Some i | None => None end) l) <= length l)%nat).
      { clear. induction l as [|[[]|] l IH]; cbn; lia. }
      specialize (HL got). cbn in *. lia.
  Qed.
  Theorem timed_mo log2 sortBy ccap clients tl tr shards ls fs ps ans req t0 :
    valid_sortBy sortBy →
    frun log2 sortBy (Z.to_nat n) ccap ls (fInit (Z.to_nat n) clients tl tr shards) = Some fs →
    written_as (fWorlds fs) ps →
    ans ∈ fAnswers fs → fReqs fs !! faSearch ans = Some (req, t0) →
    timed_request o req → Forall (scores_numbers log2 req) (fWorlds fs) →
    ∃ full out late, faResp ans = mkResp (rqTokens req) late (zlen full) (Some out) ∧ page_of req full out ∧
      (rqTimeout req <= 0 → late = false) ∧
      NoDup (heardOf (faGot ans)) ∧ (∀ i, i ∈ heardOf (faGot ans) → (i < Z.to_nat n)%nat) ∧
      (late = false ↔ length (heardOf (faGot ans)) = Z.to_nat n) ∧
      answers_heard only cs (fWorlds fs) t0 (faEnd ans) req (heardOf (faGot ans)) full.
  Proof.
    intros Hvb Hf HW Ha Hrq Hpr Hnan.
    destruct (replies_lem _ _ _ _ _ _ _ _ _ _ _ Hf Ha) as (req' & t' & R1 & R2 & R3 & R4 & R5 & R6 & R7 & R8).
    rewrite Hrq in R1. injection R1 as <- <-.
    assert (Hlt : (faEnd ans < length (fWorlds fs))%nat).
    { assert (fWorlds fs ≠ []); [by eapply worlds_some; [exact Hf|]|]. destruct (fWorlds fs); [done|unfold moment in R2; cbn in *; lia]. }
    pose proof Hpr as ([Hco Hor] & (P1 & P2 & P3) & _).
    destruct (parts_of (fWorlds fs) ps HW log2 sortBy req t0 (faEnd ans) Hvb Hpr Hlt Hnan _ R8) as (xs & Eg & HP).
    destruct (heard_omap (faGot ans)) as (Eh & Ei & El). rewrite Eg in Eh, Ei. rewrite <- list_fmap_compose in Eh, Ei. cbn in Eh, Ei.
    set (arrived := (λ x : nat * Reply * list ScoredDoc, x.1.2) <$> xs). change (_ <$> xs) with arrived in Eh.
    set (late := negb (forallb (λ e : option Reply, if e then true else false) (heard (faGot ans)))) in *.
    assert (Hd : docsOf <$> arrived = (λ l, cut (MaxOutputs (rqOpts req)) (OutputOffset (rqOpts req))
       (sortScored sortBy (ReverseOrder (rqOpts req)) l)) <$> xs.*2).
    { unfold arrived. clear -HP. induction HP as [|x xs (_ & _ & Hx) _ IH]; [done|]. cbn. cbn in IH. by rewrite IH, Hx. }
    assert (Hs : sumNum arrived = zlen (mjoin xs.*2)).
    { unfold arrived. clear -HP. induction HP as [|x xs (_ & Hx & _) _ IH]; [done|]. rewrite !fmap_cons, mjoin_cons, zlen_app, <- IH, <- Hx. done. }
    assert (Hnn : no_nan (mjoin xs.*2)).
    { apply Forall_forall. intros h (l & Hh & (x & -> & Hx)%elem_of_list_fmap)%elem_of_list_join. rewrite Forall_forall in HP.
      destruct (HP x Hx) as [(HH & _) _]. by apply HH. }
    destruct (merged_found sortBy req xs.*2 arrived Hvb Hnn P1 P2) as (full & F1 & F2 & F3 & F4); [by rewrite Hd|].
    assert (Hlate : rqTimeout req <= 0 → late = false).
    { intros Hto. apply El. destruct (R7 Hto) as [_ R72]. rewrite R72, seq_length. by rewrite R4. }
    exists full, (page (OutputOffset (rqOpts req)) (MaxOutputs (rqOpts req)) (sortScored sortBy (ReverseOrder (rqOpts req)) (mjoin (docsOf <$> arrived)))), late.
    split; [|split; [|split; [|split; [|split; [|split]]]]].
    - replace (zlen full) with (zlen (mjoin xs.*2)) by (unfold zlen; by rewrite F1). rewrite <-Hs.
      unfold Ranks in R3. destruct (Z.leb_spec (rqTimeout req) 0) as [Hto|Hto].
      + rewrite Eh, NotTimeOut_eq, Hco in R3. rewrite finish_page in R3 by done. injection R3 as <-. by rewrite Hlate.
      + rewrite TimeOut_eq, Eh, NotTimeOut_eq, Hco in R3. rewrite finish_page in R3 by done. by injection R3 as <-.
    - split; [done|]. split; [done|]. by rewrite F1.
    - done.
    - done.
    - done.
    - by rewrite El, R4.
    - rewrite Ei. rewrite Ei in R5. by eapply parts_full.
  Qed.
  Lemma all_heard hs : NoDup hs → (∀ i, i ∈ hs → (i < Z.to_nat n)%nat) → length hs = Z.to_nat n → ∀ i, (i < Z.to_nat n)%nat → i ∈ hs.
  Proof.
    intros HN Hlt Hl i Hi. assert (E : hs ≡ₚ seq 0 (Z.to_nat n)).
    { apply submseteq_Permutation_length_eq; [by rewrite seq_length|]. apply NoDup_submseteq; [done|]. intros j Hj%Hlt. apply elem_of_seq. lia. }
    rewrite E. apply elem_of_seq. lia.
  Qed.

  Theorem during_mo log2 sortBy ccap clients tl tr shards ls fs ps ans req t0 :
    valid_sortBy sortBy →
    frun log2 sortBy (Z.to_nat n) ccap ls (fInit (Z.to_nat n) clients tl tr shards) = Some fs →
    written_as (fWorlds fs) ps →
    ans ∈ fAnswers fs → fReqs fs !! faSearch ans = Some (req, t0) →
    plain_request o req → Forall (scores_numbers log2 req) (fWorlds fs) →
    ∃ full out, faResp ans = mkResp (rqTokens req) false (zlen full) (Some out) ∧ page_of req full out ∧
      answers_during only cs (fWorlds fs) t0 (faEnd ans) req full.
  Proof.
    intros Hvb Hf HW Ha Hrq Hpr Hnan. pose proof (plain_open _ _ Hpr) as (Q1 & Q2 & Q3).
    assert (Hnl : ¬ with_logic req) by by apply plain_not_logic; apply Hpr.
    destruct (timed_mo log2 sortBy ccap clients tl tr shards ls fs ps ans req t0) as (full & out & late & T1 & T2 & T3 & T4 & T5 & T6 & T7); [done..|].
    specialize (T3 Q2). subst late. pose proof (all_heard _ T4 T5 (proj1 T6 eq_refl)) as Hall.
    exists full, out. split; [done|]. split; [done|]. destruct T7 as [S1 S2]. split.
    { intros h Hh. destruct (S1 h Hh) as (d & f & ct & a & fo & d' & f' & ct' & a' & fo' & Hc & Hfit & H). apply fits_plain in Hfit; [|done].
      by exists d, f, ct, a, fo, d', f', ct', a', fo'. }
    intros d f ct a fo Hc. destruct (S2 d f ct a fo Hc) as (U1 & U2 & U3 & U4). split; [|split; [|split; [exact U3|exact U4]]].
    - intros (w & i & sh & Hw & Hi & Hh) Hwn. apply (fits_plain req) in Hwn; [|done]. apply (U1 i); [|by exists w, sh|done]. apply Hall.
      destruct (Forall2_lookup_r _ _ _ _ _ (proj2 HW) Hw) as (p & _ & Hl & _). apply lookup_lt_Some in Hi. unfold zlen in Hl. lia.
    - intros Hin. destruct (U2 Hin) as (V1 & i & _ & w & sh & Hw). split; [by apply fits_plain in V1|]. by exists w, i, sh.
  Qed.

  (** ** Searches that ask the indexers only *)
  Section Lists.
    Context (ws : list (list Shard)) (ps : list P) (HW : written_as ws ps).
    Context (log2 : F → F) (sortBy : (ScoredDoc → ScoredDoc → bool) → list ScoredDoc → list ScoredDoc).
    Context (req : SearchReq) (t1 t2 : nat) (Hir : index_request o req) (Ht2 : (t2 < length ws)%nat).

    Definition ids_ok (i : nat) (ids : list string) : Prop :=
      NoDup ids ∧
      (∀ id, id ∈ ids → ∃ d f ct a fo, EIndex d f ct a fo ∈ cs ∧ DocId d = id ∧ fits req d) ∧
      (∀ d f ct a fo sh, only_call cs (DocId d) (EIndex d f ct a fo) → seen ws i t1 t1 sh →
         HasDoc (shIx sh) (DocId d) = true → fits req d → DocId d ∈ ids) ∧
      (∀ d f ct a fo, only_call cs (DocId d) (EIndex d f ct a fo) → DocId d ∈ ids →
         fits req d ∧ shardOf murmur n (DocId d) ct = Z.of_nat i ∧ present_in ws t2 i (DocId d)).

    Lemma ids_found t sh docs num i :
      (t1 <= t <= t2)%nat → seen ws i t t sh →
      Lookup log2 (shIx sh) (rqTokens req) (rqLabels req) (rqDocIds req) false (Some (rqLogic req)) = Some (docs, num) →
      ids_ok i (ixDocId <$> docs).
    Proof.
      intros Ht Hs HL. destruct Hir as (_ & Hreq).
      destruct (at_seen _ _ HW _ _ _ Hs) as (p & Hp & HP).
      destruct (mo_found _ _ _ _ _ _ _ M p i sh log2 req HP Hreq) as (docs' & L1 & _ & HN & HF1 & HF2 & HF3).
      rewrite L1 in HL. injection HL as -> _. pose proof (mo_range _ _ _ _ _ _ _ M _ _ _ HP) as P2.
      split; [done|]. split; [done|]. split.
      - intros d f ct a fo sh1 Hc Hs1 Hh1 Hfit. destruct (at_seen _ _ HW _ _ _ Hs1) as (p1 & Hp1 & HP1).
        assert (Hh : HasDoc (shIx sh) (DocId d) = true). { eapply (mo_has _ _ _ _ _ _ _ M p1 p); [done..| |done|done]. eapply (at_grow _ _ HW); [|done..]. lia. }
        by eapply HF2.
      - intros d f ct a fo Hc Hin. destruct (HF3 d f ct a fo Hc Hin) as [Hfit Hhas].
        split; [done|]. split; [eapply (mo_shard _ _ _ _ _ _ _ M p i sh); [exact HP|exact Hc|exact Hhas]|].
        destruct (at_moment _ _ HW t2 i Ht2 ltac:(lia)) as [sh2 Hs2]. destruct (at_seen _ _ HW _ _ _ Hs2) as (p2 & Hp2 & HP2).
        destruct Hs2 as (t' & w & Ht' & Hw' & Hi'). assert (t' = t2) as -> by lia. exists w, sh2. split; [done|]. split; [done|].
        eapply (mo_has _ _ _ _ _ _ _ M p p2); [done..| |done|done]. eapply (at_grow _ _ HW); [|done..]. lia.
    Qed.

    Definition lists (x : nat * Reply * list string) : Prop :=
      ids_ok x.1.1 x.2 ∧ rpNum x.1.2 = zlen x.2 ∧
      if rqCountOnly req then rpDocs x.1.2 = None else sdDocId <$> docsOf x.1.2 = x.2 ∧ Forall bare (docsOf x.1.2).
    Lemma reply_ids i rp : answered_between log2 sortBy ws i req t1 t2 rp → ∃ ids, lists (i, rp, ids).
    Proof.
      intros (t & sh & docs & num & Ht & Hs & HL & Hrp). pose proof Hir as (Hor & Hreq).
      destruct (at_seen _ _ HW _ _ _ Hs) as (p & _ & HP).
      destruct (mo_found _ _ _ _ _ _ _ M p i sh log2 req HP Hreq) as (docs' & Hf & Ht' & _).
      unfold lists. cbn [fst snd]. destruct (rqCountOnly req) eqn:Eco.
      - rewrite Ht' in HL. injection HL as <- <-. subst rp. exists (ixDocId <$> docs').
        split; [by eapply ids_found|]. cbn. split; [unfold zlen; by rewrite fmap_length|done].
      - exists (ixDocId <$> docs). split; [by eapply ids_found|]. destruct Hor as [?|Hor]; [done|]. rewrite Hor in Hrp.
        destruct docs as [|x docs]; subst rp; [repeat split; constructor|]. cbn [rpNum rpDocs docsOf]. split; [unfold zlen; by rewrite fmap_length|].
        unfold docsOf. cbn [rpDocs default]. split.
        + change (sdDocId <$> (bareEntry <$> x :: docs) = ixDocId <$> x :: docs). rewrite <- list_fmap_compose. done.
        + change (Forall bare (bareEntry <$> x :: docs)). apply Forall_fmap, Forall_forall. by intros y _.
    Qed.
    Lemma lists_of got : (∀ i rp, Some (i, rp) ∈ got → answered_between log2 sortBy ws i req t1 t2 rp) →
      ∃ xs, omap id got = (λ x, (x.1.1, x.1.2)) <$> xs ∧ Forall lists xs.
    Proof.
      induction got as [|[[i rp]|] got IH]; intros H; [by exists []|..].
      - destruct IH as (xs & E & HF); [intros; apply H; by right|].
        destruct (reply_ids i rp) as (found & Hf); [apply H; by left|]. exists ((i, rp, found) :: xs). split; [cbn; by f_equal|]. by constructor.
      - destruct IH as (xs & E & HF); [intros; apply H; by right|]. by exists xs.
    Qed.
    Lemma lists_full (xs : list (nat * Reply * list string)) : Forall lists xs → NoDup ((λ x, x.1.1) <$> xs) →
      lists_heard cs ws t1 t2 req ((λ x, x.1.1) <$> xs) (mjoin xs.*2).
    Proof.
      intros HF HN. pose proof HF as HF'. rewrite Forall_forall in HF'. unfold lists_heard.
      assert (Hmem : ∀ id, id ∈ mjoin xs.*2 ↔ ∃ x, x ∈ xs ∧ id ∈ x.2).
      { intros id. rewrite elem_of_list_join. split.
        - intros (l & Hl & (x & -> & Hx)%elem_of_list_fmap). by exists x.
        - intros (x & Hx & Hi). exists x.2. split; [done|]. by apply elem_of_list_fmap_1. }
      split.
      { intros id (x & Hx & Hi)%Hmem. destruct (HF' x Hx) as [(_ & H1 & _) _]. by apply H1. }
      intros d f ct a fo Hc. split; [|split].
      - intros i (x & -> & Hx)%elem_of_list_fmap (w & sh & Hw & Hsh & Hh) Hwt. apply Hmem. exists x. split; [done|].
        destruct (HF' x Hx) as [(_ & _ & H1 & _) _]. eapply H1; [exact Hc| |exact Hh|done]. exists t1, w. split; [lia|done].
      - intros (x & Hx & Hi)%Hmem. destruct (HF' x Hx) as [(_ & _ & _ & H1) _]. destruct (H1 _ _ _ _ _ Hc Hi) as (Q1 & _ & Q2).
        split; [done|]. exists x.1.1. split; [|done]. by apply (elem_of_list_fmap_1 (λ x : nat * Reply * list string, x.1.1)).
      - clear Hmem HF'. induction HF as [|x xs [(Hnd & _ & _ & Hx) _] HF IH]; [cbn; lia|].
        rewrite fmap_cons, NoDup_cons in HN. destruct HN as [Hnx HN]. specialize (IH HN).
        rewrite fmap_cons, mjoin_cons, filter_app, app_length.
        destruct (decide (DocId d ∈ x.2)) as [Hin|Hin].
        + assert (filter (λ id, id = DocId d) (mjoin xs.*2) = []) as ->.
          { destruct (filter _ (mjoin xs.*2)) as [|y l] eqn:E; [done|]. exfalso. assert (Hy : y ∈ filter (λ id, id = DocId d) (mjoin xs.*2)) by (rewrite E; by left).
            apply elem_of_list_filter in Hy as [-> (l' & Hl' & (z & -> & Hz)%elem_of_list_fmap)%elem_of_list_join].
            rewrite Forall_forall in HF. destruct (HF z Hz) as [(_ & _ & _ & Hzx) _].
            destruct (Hx _ _ _ _ _ Hc Hin) as (_ & S1 & _). destruct (Hzx _ _ _ _ _ Hc Hl') as (_ & S2 & _). rewrite S1 in S2. apply Nat2Z.inj in S2.
            apply Hnx. rewrite S2. by apply (elem_of_list_fmap_1 (λ x : nat * Reply * list string, x.1.1)). }
          cbn. rewrite Nat.add_0_r. clear -Hnd. induction Hnd as [|y l Hy _ IH]; [cbn; lia|]. rewrite filter_cons. destruct (decide (y = DocId d)) as [->|]; [|done].
          assert (filter (λ id, id = DocId d) l = []) as ->; [|cbn; lia]. destruct (filter _ l) as [|z l'] eqn:E; [done|].
          assert (Hz : z ∈ filter (λ id, id = DocId d) l) by (rewrite E; by left). by apply elem_of_list_filter in Hz as [-> ?].
        + assert (filter (λ id, id = DocId d) x.2 = []) as ->; [|done]. destruct (filter _ x.2) as [|z l'] eqn:E; [done|].
          assert (Hz : z ∈ filter (λ id, id = DocId d) x.2) by (rewrite E; by left). by apply elem_of_list_filter in Hz as [-> ?].
    Qed.
  End Lists.

  Theorem index_mo log2 sortBy ccap clients tl tr shards ls fs ps ans req t0 :
    frun log2 sortBy (Z.to_nat n) ccap ls (fInit (Z.to_nat n) clients tl tr shards) = Some fs →
    written_as (fWorlds fs) ps →
    ans ∈ fAnswers fs → fReqs fs !! faSearch ans = Some (req, t0) → index_request o req →
    ∃ ids out late, faResp ans = mkResp (rqTokens req) late (zlen ids) out ∧
      (if rqCountOnly req then out = None else ∃ l, out = Some l ∧ sdDocId <$> l = ids ∧ Forall bare l) ∧
      (rqTimeout req <= 0 → late = false) ∧
      NoDup (heardOf (faGot ans)) ∧ (∀ i, i ∈ heardOf (faGot ans) → (i < Z.to_nat n)%nat) ∧
      (late = false ↔ length (heardOf (faGot ans)) = Z.to_nat n) ∧
      lists_heard cs (fWorlds fs) t0 (faEnd ans) req (heardOf (faGot ans)) ids.
  Proof.
    intros Hf HW Ha Hrq Hir.
    destruct (replies_lem _ _ _ _ _ _ _ _ _ _ _ Hf Ha) as (req' & t' & R1 & R2 & R3 & R4 & R5 & R6 & R7 & R8).
    rewrite Hrq in R1. injection R1 as <- <-.
    assert (Hlt : (faEnd ans < length (fWorlds fs))%nat).
    { assert (fWorlds fs ≠ []); [by eapply worlds_some; [exact Hf|]|]. destruct (fWorlds fs); [done|unfold moment in R2; cbn in *; lia]. }
    destruct (lists_of (fWorlds fs) ps HW log2 sortBy req t0 (faEnd ans) Hir Hlt _ R8) as (xs & Eg & HP).
    destruct (heard_omap (faGot ans)) as (Eh & Ei & El). rewrite Eg in Eh, Ei. rewrite <- list_fmap_compose in Eh, Ei. cbn in Eh, Ei.
    set (arrived := (λ x : nat * Reply * list string, x.1.2) <$> xs). change (_ <$> xs) with arrived in Eh.
    set (late := negb (forallb (λ e : option Reply, if e then true else false) (heard (faGot ans)))) in *.
    assert (Hs : sumNum arrived = zlen (mjoin xs.*2)).
    { unfold arrived. clear -HP. induction HP as [|x xs (_ & Hx & _) _ IH]; [done|]. rewrite !fmap_cons, mjoin_cons, zlen_app, <- IH, <- Hx. done. }
    assert (Hlate : rqTimeout req <= 0 → late = false).
    { intros Hto. apply El. destruct (R7 Hto) as [_ R72]. rewrite R72, seq_length. by rewrite R4. }
    assert (HR : faResp ans = mkResp (rqTokens req) late (zlen (mjoin xs.*2)) (if rqCountOnly req then None else Some (mjoin (docsOf <$> arrived)))).
    { rewrite <-Hs. unfold Ranks in R3. destruct (Z.leb_spec (rqTimeout req) 0) as [Hto|Hto].
      - rewrite Eh, NotTimeOut_eq in R3. rewrite (Hlate Hto). unfold finish in R3. destruct Hir as [Hor _].
        destruct (rqCountOnly req); [by injection R3 as <-|]. destruct Hor as [?|Hor]; [done|]. rewrite Hor in R3. by injection R3 as <-.
      - rewrite TimeOut_eq, Eh, NotTimeOut_eq in R3. fold late in R3. unfold finish in R3. destruct Hir as [Hor _].
        destruct (rqCountOnly req); [by injection R3 as <-|]. destruct Hor as [?|Hor]; [done|]. rewrite Hor in R3. by injection R3 as <-. }
    exists (mjoin xs.*2), (if rqCountOnly req then None else Some (mjoin (docsOf <$> arrived))), late.
    split; [exact HR|]. split; [|split; [exact Hlate|split; [exact R5|split; [exact R6|split; [by rewrite El, R4|]]]]].
    - clear -HP. destruct (rqCountOnly req) eqn:Eco; [done|]. eexists. split; [done|]. unfold arrived.
      induction HP as [|x xs (_ & _ & Hx) _ [IH1 IH2]]; [by split; [|constructor]|]. rewrite Eco in Hx. destruct Hx as [Hx1 Hx2].
      rewrite !fmap_cons, !mjoin_cons, fmap_app, Hx1, IH1. split; [done|]. by apply Forall_app.
    - rewrite Ei. rewrite Ei in R5. by eapply lists_full.
  Qed.

  Lemma start_lt log2 sortBy ccap clients tl tr shards ls fs ans req t0 :
    frun log2 sortBy (Z.to_nat n) ccap ls (fInit (Z.to_nat n) clients tl tr shards) = Some fs →
    ans ∈ fAnswers fs → fReqs fs !! faSearch ans = Some (req, t0) → fWorlds fs ≠ [] ∧ (t0 <= moment (fWorlds fs))%nat.
  Proof.
    intros Hf Ha Hrq. destruct (replies_lem _ _ _ _ _ _ _ _ _ _ _ Hf Ha) as (req' & t' & R1 & R2 & _).
    rewrite Hrq in R1. injection R1 as <- <-. split; [|lia]. eapply worlds_some; [exact Hf|done].
  Qed.

  (** A later search misses nothing that an earlier one found. *)
  Theorem later_mo log2 sortBy ccap clients tl tr shards ls fs ps a1 a2 req t1 t2 :
    valid_sortBy sortBy →
    frun log2 sortBy (Z.to_nat n) ccap ls (fInit (Z.to_nat n) clients tl tr shards) = Some fs →
    written_as (fWorlds fs) ps →
    a1 ∈ fAnswers fs → fReqs fs !! faSearch a1 = Some (req, t1) →
    a2 ∈ fAnswers fs → fReqs fs !! faSearch a2 = Some (req, t2) → (faEnd a1 <= t2)%nat →
    plain_request o req → Forall (scores_numbers log2 req) (fWorlds fs) →
    ∃ full1 out1 full2 out2,
      faResp a1 = mkResp (rqTokens req) false (zlen full1) (Some out1) ∧ page_of req full1 out1 ∧
      faResp a2 = mkResp (rqTokens req) false (zlen full2) (Some out2) ∧ page_of req full2 out2 ∧
      answers_during only cs (fWorlds fs) t1 (faEnd a1) req full1 ∧
      answers_during only cs (fWorlds fs) t2 (faEnd a2) req full2 ∧
      ∀ d f ct a fo, only_call cs (DocId d) (EIndex d f ct a fo) → score_accepts (ScoringCriteria (rqOpts req)) (DocId d) f →
        DocId d ∈ sdDocId <$> full1 → DocId d ∈ sdDocId <$> full2.
  Proof.
    intros Hvb Hf HW Ha1 Hq1 Ha2 Hq2 Hle Hpr Hnan.
    destruct (during_mo log2 sortBy ccap clients tl tr shards ls fs ps a1 req t1 Hvb Hf HW Ha1 Hq1 Hpr Hnan) as (full1 & out1 & R1 & P1 & A1).
    destruct (during_mo log2 sortBy ccap clients tl tr shards ls fs ps a2 req t2 Hvb Hf HW Ha2 Hq2 Hpr Hnan) as (full2 & out2 & R2 & P2 & A2).
    exists full1, out1, full2, out2. do 6 (split; [done|]). intros d f ct a fo Hc Hs H1.
    destruct (start_lt _ _ _ _ _ _ _ _ _ _ _ _ Hf Ha2 Hq2) as [Hne Hlt'].
    assert (Hlt : (t2 < length (fWorlds fs))%nat). { unfold moment in Hlt'. destruct (fWorlds fs); [done|]. cbn in *. lia. }
    destruct (proj2 A1 d f ct a fo Hc) as (_ & B1 & _).
    destruct (B1 H1) as [Hw (w & i & sh & Hw1 & Hw2 & Hh & Hk)].
    destruct (proj2 A2 d f ct a fo Hc) as (B2 & _). apply B2; [|done..].
    assert (Hsn : seen (fWorlds fs) i (faEnd a1) (faEnd a1) sh) by (exists (faEnd a1), w; split; [lia|done]).
    destruct (at_seen _ _ HW _ _ _ Hsn) as (p & Hp & HP). pose proof (mo_range _ _ _ _ _ _ _ M _ _ _ HP) as Hi.
    destruct (at_moment _ _ HW t2 i Hlt ltac:(lia)) as [sh2 Hs2]. destruct (at_seen _ _ HW _ _ _ Hs2) as (q & Hq & HQ).
    destruct Hs2 as (t' & w2 & Ht' & Hw' & Hi'). assert (t' = t2) as -> by lia. exists w2, i, sh2. split; [done|]. split; [done|]. split.
    - eapply (mo_has _ _ _ _ _ _ _ M p q); [done..| |done|done]. eapply (at_grow _ _ HW); [exact Hle|done..].
    - eapply (mo_knows _ _ _ _ _ _ _ M p q); [done..| |done|done]. eapply (at_grow _ _ HW); [exact Hle|done..].
  Qed.

  Theorem count_mo log2 sortBy ccap clients tl tr shards ls fs ps a1 a2 req t1 t2 :
    NoDup (omap call_id cs) → (∀ d f ct a fo, EIndex d f ct a fo ∈ cs → score_accepts (ScoringCriteria (rqOpts req)) (DocId d) f) →
    valid_sortBy sortBy →
    frun log2 sortBy (Z.to_nat n) ccap ls (fInit (Z.to_nat n) clients tl tr shards) = Some fs →
    written_as (fWorlds fs) ps →
    a1 ∈ fAnswers fs → fReqs fs !! faSearch a1 = Some (req, t1) →
    a2 ∈ fAnswers fs → fReqs fs !! faSearch a2 = Some (req, t2) → (faEnd a1 <= t2)%nat →
    plain_request o req → Forall (scores_numbers log2 req) (fWorlds fs) →
    rsNumDocs (faResp a1) <= rsNumDocs (faResp a2).
  Proof.
    intros Hnd Hacc Hvb Hf HW Ha1 Hq1 Ha2 Hq2 Hle Hpr Hnan.
    destruct (later_mo log2 sortBy ccap clients tl tr shards ls fs ps a1 a2 req t1 t2) as (full1 & out1 & full2 & out2 & R1 & _ & R2 & _ & A1 & _ & HL); [done..|].
    rewrite R1, R2. cbn [rsNumDocs].
    assert (Hone : ∀ h, h ∈ full1 → ∃ d f ct a fo, only_call cs (DocId d) (EIndex d f ct a fo) ∧ DocId d = sdDocId h).
    { intros h Hh. destruct (proj1 A1 h Hh) as (_ & _ & _ & _ & _ & d & f & ct & a & fo & _ & _ & Hc & _ & Hsc).
      exists d, f, ct, a, fo. split; [by apply nodup_only|]. by rewrite (proj1 Hsc). }
    assert (HN : NoDup (sdDocId <$> full1)).
    { apply count_NoDup. intros h Hh. destruct (Hone h Hh) as (d & f & ct & a & fo & Hc & E). rewrite <- E.
      by apply (proj2 A1 d f ct a fo Hc). }
    assert (HS : sdDocId <$> full1 ⊆+ sdDocId <$> full2).
    { apply NoDup_submseteq; [done|]. intros id (h & -> & Hh)%elem_of_list_fmap. destruct (Hone h Hh) as (d & f & ct & a & fo & Hc & E).
      rewrite <- E. eapply HL; [exact Hc| |rewrite E; by apply elem_of_list_fmap_1]. eapply Hacc. by eapply only_in. }
    apply submseteq_length in HS. rewrite !fmap_length in HS. unfold zlen. lia.
  Qed.

  Context (log2 : F → F) (sortBy : (ScoredDoc → ScoredDoc → bool) → list ScoredDoc → list ScoredDoc).
  Lemma timed_heard_mo ccap clients tl tr shards ls fs ps ans req t0 :
    valid_sortBy sortBy →
    frun log2 sortBy (Z.to_nat n) ccap ls (fInit (Z.to_nat n) clients tl tr shards) = Some fs →
    written_as (fWorlds fs) ps →
    ans ∈ fAnswers fs → fReqs fs !! faSearch ans = Some (req, t0) →
    timed_request o req → Forall (scores_numbers log2 req) (fWorlds fs) →
    ∃ full out late, faResp ans = mkResp (rqTokens req) late (zlen full) (Some out) ∧ page_of req full out ∧
      heard_from (Z.to_nat n) req (heardOf (faGot ans)) late ∧
      answers_heard only cs (fWorlds fs) t0 (faEnd ans) req (heardOf (faGot ans)) full.
  Proof.
    intros Hvb Hf HW Ha Hrq Hpr Hnan.
    destruct (timed_mo log2 sortBy ccap clients tl tr shards ls fs ps ans req t0
      Hvb Hf HW Ha Hrq Hpr Hnan) as (full & out & late & T1 & T2 & T3 & T4 & T5 & T6 & T7).
    exists full, out, late. done.
  Qed.
  Lemma index_heard_mo ccap clients tl tr shards ls fs ps ans req t0 :
    frun log2 sortBy (Z.to_nat n) ccap ls (fInit (Z.to_nat n) clients tl tr shards) = Some fs →
    written_as (fWorlds fs) ps →
    ans ∈ fAnswers fs → fReqs fs !! faSearch ans = Some (req, t0) → index_request o req →
    ∃ ids late, tells_ids req ids late (faResp ans) ∧ heard_from (Z.to_nat n) req (heardOf (faGot ans)) late ∧
      lists_heard cs (fWorlds fs) t0 (faEnd ans) req (heardOf (faGot ans)) ids.
  Proof.
    intros Hf HW Ha Hrq Hpr.
    destruct (index_mo log2 sortBy ccap clients tl tr shards ls fs ps ans req t0
      Hf HW Ha Hrq Hpr) as (ids & out & late & T1 & T2 & T3 & T4 & T5 & T6 & T7).
    exists ids, late. rewrite T1. done.
  Qed.

  (** Shards keep what they have *)
  Lemma present_later_mo ws ps t t' i d f ct a fo : written_as ws ps → (t <= t' < length ws)%nat →
    only_call cs (DocId d) (EIndex d f ct a fo) → present_in ws t i (DocId d) → present_in ws t' i (DocId d).
  Proof.
    intros HW Ht Hc (w & sh & Hw & Hsh & Hh).
    assert (Hsn : seen ws i t t sh) by (exists t, w; split; [lia|done]).
    destruct (at_seen _ _ HW _ _ _ Hsn) as (p & Hp & HP). pose proof (mo_range _ _ _ _ _ _ _ M _ _ _ HP) as Hi.
    destruct (at_moment _ _ HW t' i (proj2 Ht) ltac:(lia)) as [sh2 Hs2].
    destruct (at_seen _ _ HW _ _ _ Hs2) as (q & Hq & HQ).
    destruct Hs2 as (t2 & w2 & Ht2 & Hw' & Hi'). assert (t2 = t') as -> by lia. exists w2, sh2. split; [done|]. split; [done|].
    eapply (mo_has _ _ _ _ _ _ _ M p q); [done..| |done|done].
    by eapply (at_grow _ _ HW); [exact (proj1 Ht)|..].
  Qed.
  Lemma settled_later_mo ws ps t t' i d f ct a fo : written_as ws ps → (t <= t' < length ws)%nat →
    only_call cs (DocId d) (EIndex d f ct a fo) → settled_in ws t i (DocId d) → settled_in ws t' i (DocId d).
  Proof.
    intros HW Ht Hc (w & sh & Hw & Hsh & Hh & Hk).
    destruct (present_later_mo ws ps t t' i d f ct a fo HW Ht Hc) as (w2 & sh2 & Hw2 & Hsh2 & Hh2); [by exists w, sh|].
    exists w2, sh2. do 3 (split; [done|]).
    assert (Hsn : seen ws i t t sh) by (exists t, w; split; [lia|done]).
    assert (Hsn2 : seen ws i t' t' sh2) by (exists t', w2; split; [lia|done]).
    destruct (at_seen _ _ HW _ _ _ Hsn) as (p & Hp & HP). destruct (at_seen _ _ HW _ _ _ Hsn2) as (q & Hq & HQ).
    eapply (mo_knows _ _ _ _ _ _ _ M p q); [done..| |done|done].
    by eapply (at_grow _ _ HW); [exact (proj1 Ht)|..].
  Qed.

  Lemma ends_before ccap clients tl tr shards ls fs ans req t0 :
    frun log2 sortBy (Z.to_nat n) ccap ls (fInit (Z.to_nat n) clients tl tr shards) = Some fs →
    ans ∈ fAnswers fs → fReqs fs !! faSearch ans = Some (req, t0) → (t0 < length (fWorlds fs))%nat.
  Proof.
    intros Hf Ha Hq. destruct (start_lt log2 sortBy ccap clients tl tr shards ls fs ans req t0 Hf Ha Hq) as [Hne Hlt].
    unfold moment in Hlt. destruct (fWorlds fs); [done|]. cbn in *. lia.
  Qed.

  Lemma timed_later_mo ccap clients tl tr shards ls fs ps a1 a2 req t1 t2 :
    valid_sortBy sortBy →
    frun log2 sortBy (Z.to_nat n) ccap ls (fInit (Z.to_nat n) clients tl tr shards) = Some fs →
    written_as (fWorlds fs) ps →
    a1 ∈ fAnswers fs → fReqs fs !! faSearch a1 = Some (req, t1) →
    a2 ∈ fAnswers fs → fReqs fs !! faSearch a2 = Some (req, t2) → (faEnd a1 <= t2)%nat →
    timed_request o req → Forall (scores_numbers log2 req) (fWorlds fs) → rsTimeout (faResp a2) = false →
    ∃ full1 full2 out1 out2 late1,
      faResp a1 = mkResp (rqTokens req) late1 (zlen full1) (Some out1) ∧ page_of req full1 out1 ∧
      heard_from (Z.to_nat n) req (heardOf (faGot a1)) late1 ∧ answers_heard only cs (fWorlds fs) t1 (faEnd a1) req (heardOf (faGot a1)) full1 ∧
      faResp a2 = mkResp (rqTokens req) false (zlen full2) (Some out2) ∧ page_of req full2 out2 ∧
      heard_from (Z.to_nat n) req (heardOf (faGot a2)) false ∧ answers_heard only cs (fWorlds fs) t2 (faEnd a2) req (heardOf (faGot a2)) full2 ∧
      ∀ d f ct a fo, only_call cs (DocId d) (EIndex d f ct a fo) → score_accepts (ScoringCriteria (rqOpts req)) (DocId d) f →
        DocId d ∈ sdDocId <$> full1 → DocId d ∈ sdDocId <$> full2.
  Proof.
    intros Hvb Hf HW Ha1 Hq1 Ha2 Hq2 Hle Hpr Hnan Hlate.
    destruct (timed_heard_mo ccap clients tl tr shards ls fs ps a1 req t1 Hvb Hf HW Ha1 Hq1 Hpr Hnan) as (full1 & out1 & late1 & R1 & P1 & H1 & A1).
    destruct (timed_heard_mo ccap clients tl tr shards ls fs ps a2 req t2 Hvb Hf HW Ha2 Hq2 Hpr Hnan) as (full2 & out2 & late2 & R2 & P2 & H2 & A2).
    rewrite R2 in Hlate. cbn in Hlate. subst late2. exists full1, full2, out1, out2, late1. do 8 (split; [done|]).
    intros d f ct a fo Hc Hs Hin. destruct (proj2 A1 _ _ _ _ _ Hc) as (_ & B1 & _). destruct (B1 Hin) as (Hw & i & Hi & Hst).
    destruct (proj2 A2 _ _ _ _ _ Hc) as (B2 & _). apply (B2 i); [| |done..].
    - destruct H2 as (N1 & N2 & N3 & _). eapply all_heard; [exact N1|exact N2|by apply N3|]. by apply H1.
    - eapply settled_later_mo; [exact HW| |exact Hc|exact Hst]. split; [done|]. by eapply ends_before.
  Qed.
  Lemma index_later_mo ccap clients tl tr shards ls fs ps a1 a2 req t1 t2 :
    frun log2 sortBy (Z.to_nat n) ccap ls (fInit (Z.to_nat n) clients tl tr shards) = Some fs →
    written_as (fWorlds fs) ps →
    a1 ∈ fAnswers fs → fReqs fs !! faSearch a1 = Some (req, t1) →
    a2 ∈ fAnswers fs → fReqs fs !! faSearch a2 = Some (req, t2) → (faEnd a1 <= t2)%nat →
    index_request o req → rsTimeout (faResp a2) = false →
    ∃ ids1 ids2 late1,
      tells_ids req ids1 late1 (faResp a1) ∧ heard_from (Z.to_nat n) req (heardOf (faGot a1)) late1 ∧
      lists_heard cs (fWorlds fs) t1 (faEnd a1) req (heardOf (faGot a1)) ids1 ∧
      tells_ids req ids2 false (faResp a2) ∧ heard_from (Z.to_nat n) req (heardOf (faGot a2)) false ∧
      lists_heard cs (fWorlds fs) t2 (faEnd a2) req (heardOf (faGot a2)) ids2 ∧
      ∀ d f ct a fo, only_call cs (DocId d) (EIndex d f ct a fo) → DocId d ∈ ids1 → DocId d ∈ ids2.
  Proof.
    intros Hf HW Ha1 Hq1 Ha2 Hq2 Hle Hpr Hlate.
    destruct (index_heard_mo ccap clients tl tr shards ls fs ps a1 req t1 Hf HW Ha1 Hq1 Hpr) as (ids1 & late1 & R1 & H1 & A1).
    destruct (index_heard_mo ccap clients tl tr shards ls fs ps a2 req t2 Hf HW Ha2 Hq2 Hpr) as (ids2 & late2 & R2 & H2 & A2).
    assert (late2 = false) as ->. { destruct R2 as (_ & <- & _). done. }
    exists ids1, ids2, late1. do 6 (split; [done|]).
    intros d f ct a fo Hc Hin. destruct (proj2 A1 _ _ _ _ _ Hc) as (_ & B1 & _). destruct (B1 Hin) as (Hw & i & Hi & Hst).
    destruct (proj2 A2 _ _ _ _ _ Hc) as (B2 & _). apply (B2 i); [| |done..].
    - destruct H2 as (N1 & N2 & N3 & _). eapply all_heard; [exact N1|exact N2|by apply N3|]. by apply H1.
    - eapply present_later_mo; [exact HW| |exact Hc|exact Hst]. split; [done|]. by eapply ends_before.
  Qed.
  Lemma ids_NoDup (ids : list string) : (∀ id, id ∈ ids → (length (filter (λ id', id' = id) ids) <= 1)%nat) → NoDup ids.
  Proof.
    induction ids as [|x ids IH]; intros H; [constructor|]. constructor.
    - intros Hx. specialize (H x (elem_of_list_here _ _)). rewrite filter_cons, decide_True in H by done. cbn in H.
      assert (Hf : x ∈ filter (λ id', id' = x) ids) by by apply elem_of_list_filter. destruct (filter _ ids); [by apply elem_of_nil in Hf|cbn in H; lia].
    - apply IH. intros id Hid. specialize (H id (elem_of_list_further _ _ _ Hid)). rewrite filter_cons in H.
      destruct (decide (x = id)); cbn in H; lia.
  Qed.
  Lemma index_count_mo ccap clients tl tr shards ls fs ps a1 a2 req t1 t2 :
    NoDup (omap call_id cs) →
    frun log2 sortBy (Z.to_nat n) ccap ls (fInit (Z.to_nat n) clients tl tr shards) = Some fs →
    written_as (fWorlds fs) ps →
    a1 ∈ fAnswers fs → fReqs fs !! faSearch a1 = Some (req, t1) →
    a2 ∈ fAnswers fs → fReqs fs !! faSearch a2 = Some (req, t2) → (faEnd a1 <= t2)%nat →
    index_request o req → rsTimeout (faResp a2) = false →
    rsNumDocs (faResp a1) <= rsNumDocs (faResp a2).
  Proof.
    intros Hnd Hf HW Ha1 Hq1 Ha2 Hq2 Hle Hpr Hlate.
    destruct (index_later_mo ccap clients tl tr shards ls fs ps a1 a2 req t1 t2) as (ids1 & ids2 & late1 & R1 & _ & A1 & R2 & _ & _ & HL); [done..|].
    destruct R1 as (_ & _ & -> & _). destruct R2 as (_ & _ & -> & _).
    assert (HO : ∀ id, id ∈ ids1 → ∃ d f ct a fo, DocId d = id ∧ only_call cs id (EIndex d f ct a fo)).
    { intros id Hid. destruct (proj1 A1 id Hid) as (d & f & ct & a & fo & Hc & E & _). exists d, f, ct, a, fo. split; [done|].
      apply nodup_only; [done..|]. cbn. by rewrite E. }
    assert (HN : NoDup ids1).
    { apply ids_NoDup. intros id Hid. destruct (HO id Hid) as (d & f & ct & a & fo & <- & Hc). by apply (proj2 A1 _ _ _ _ _ Hc). }
    assert (HS : ids1 ⊆+ ids2).
    { apply NoDup_submseteq; [done|]. intros id Hid. destruct (HO id Hid) as (d & f & ct & a & fo & <- & Hc). by eapply HL. }
    apply submseteq_length in HS. unfold zlen. lia.
  Qed.
End Moments.