(** Searches after the pipeline has come to rest. *)
From Verif Require Import ModelPipe ModelEngine ModelFlight SpecIndexer SpecSearch SpecRank SpecRoute SpecPipe SpecEngine SpecEnd
  ProofIxThms ProofIxMap ProofSearchThms ProofRanker ProofRoute ProofPipe ProofFlushThms ProofEngine SpecFlight ProofFlightCrash SpecLogic SpecFits ProofFits.

Lemma omap_inj {A B} (f : A → option B) l x y k : NoDup (omap f l) → x ∈ l → y ∈ l → f x = Some k → f y = Some k → x = y.
Proof.
  induction l as [|z l IH]; intros HN Hx Hy Ex Ey; [by apply elem_of_nil in Hx|].
  assert (HO : ∀ w, w ∈ l → f w = Some k → k ∈ omap f l). { intros w Hw E. apply elem_of_list_omap. eauto. }
  cbn in HN. rewrite elem_of_cons in Hx. rewrite elem_of_cons in Hy.
  destruct Hx as [->|Hx], Hy as [->|Hy]; [done|..].
  - rewrite Ex in HN. apply NoDup_cons in HN as [HN _]. destruct HN. eauto.
  - rewrite Ey in HN. apply NoDup_cons in HN as [HN _]. destruct HN. eauto.
  - apply IH; try done. destruct (f z); [by apply NoDup_cons in HN as [_ ?]|done].
Qed.
Lemma NoDup_mjoin {A} (ls : list (list A)) :
  (∀ i l, ls !! i = Some l → NoDup l) →
  (∀ i j l l' x, ls !! i = Some l → ls !! j = Some l' → x ∈ l → x ∈ l' → i = j) → NoDup (mjoin ls).
Proof.
  induction ls as [|l ls IH]; intros H1 H2; [constructor|]. cbn. apply NoDup_app. split; [by apply (H1 0%nat)|]. split.
  - intros x Hx (l' & Hl & Hi)%elem_of_list_join. apply elem_of_list_lookup in Hi as [j Hj].
    by pose proof (H2 0%nat (S j) l l' x eq_refl Hj Hx Hl).
  - apply IH; [intros i; apply (H1 (S i))|]. intros i j l1 l2 x Hi Hj Hx Hy. by injection (H2 (S i) (S j) l1 l2 x Hi Hj Hx Hy).
Qed.

Lemma mjoin_fmap_ids {A B} (f : A → list ScoredDoc) (g : ScoredDoc → B) (l : list A) : g <$> mjoin (f <$> l) = mjoin ((λ x, g <$> f x) <$> l).
Proof. induction l as [|x l IH]; [done|]. rewrite !fmap_cons, !mjoin_cons, fmap_app. by rewrite IH. Qed.
Lemma sublist_NoDup {A} (l l' : list A) : NoDup l' → l `sublist_of` l' → NoDup l.
Proof. intros HN Hs. induction Hs as [|x l l' Hs IH|x l l' Hs IH]; [done|..]; apply NoDup_cons in HN as [Hx HN]; [|auto].
  constructor; [|auto]. intros Hi. apply Hx. eapply sublist_submseteq, elem_of_submseteq in Hs; done. Qed.
Lemma fmap_sublist {A B} (f : A → B) (l l' : list A) : l `sublist_of` l' → f <$> l `sublist_of` f <$> l'.
Proof. induction 1; cbn; by constructor. Qed.
Lemma choice_list {A B} (l : list A) : ∀ (R : nat → A → B → Prop), (∀ i x, l !! i = Some x → ∃ y, R i x y) →
  ∃ l', length l' = length l ∧ ∀ i x y, l !! i = Some x → l' !! i = Some y → R i x y.
Proof.
  induction l as [|a l IH]; intros R H; [by exists []|].
  destruct (H 0%nat a eq_refl) as [b Hb]. destruct (IH (λ i, R (S i))) as (l' & Hl & Hr); [intros i x; apply (H (S i))|].
  exists (b :: l'). split; [cbn; by rewrite Hl|]. intros [|i] x y; cbn; [congruence|apply Hr].
Qed.

(** * Scores that are numbers *)
Lemma nan_free_numbers log2 req shards : score_nan_free (ScoringCriteria (rqOpts req)) → scores_numbers log2 req shards.
Proof. intros H sh docs num x f _ _ _. apply H. Qed.
Lemma numbers_app log2 req sh1 sh2 : scores_numbers log2 req (sh1 ++ sh2) → scores_numbers log2 req sh1 ∧ scores_numbers log2 req sh2.
Proof. intros H. split; intros sh docs num x f Hs; apply H; apply elem_of_app; auto. Qed.
Lemma parts_numbers log2 only req shards parts : scores_numbers log2 req shards →
  Forall2 (shard_view log2 only req) shards parts → no_nan (all_hits only (ScoringCriteria (rqOpts req)) parts).
Proof.
  intros Hn HF. apply Forall_forall. intros h (l & Hh & (p & -> & Hp)%elem_of_list_fmap)%elem_of_list_join.
  apply elem_of_list_lookup in Hp as [i Hi]. destruct (Forall2_lookup_r _ _ _ _ _ HF Hi) as (sh & Hs & _ & _ & num & HL).
  apply elem_of_list_omap in Hh as (x & Hx & He). apply elem_of_list_lookup_2 in Hs.
  unfold expected in He. destruct (known only p.1 (ixDocId x)) as [[[f c] a]|]; [|done].
  destruct (ScoringCriteria (rqOpts req) x f) as [|z sc] eqn:Es; [done|]. injection He as <-. cbn. rewrite <- Es. by eapply Hn.
Qed.

(** * A forced call on empty caches changes nothing *)
Lemma idle_flush sortDocs s s' : valid_sort sortDocs → addCache s = [] → removeCache s = [] →
  AddDocToCache sortDocs None true s = Some s' → s' = s.
Proof.
  intros Hv Ha Hr. destruct s as [tb ds ac rc io nd tt dl]. cbn in Ha, Hr. subst.
  unfold AddDocToCache, pushAdd. cbn. rewrite orb_true_r. cbn.
  destruct (Hv []) as [Hp _]. apply Permutation_nil_r in Hp.
  change (0 <? zlen (A:=string) []) with false. cbn.
  change (zslice (A:=DocIndex) [] 0 (zlen (A:=DocIndex) [])) with (Some ([] : list DocIndex)). change (zslice (A:=DocIndex) [] 0 0) with (Some ([] : list DocIndex)).
  cbn. rewrite Hp. cbn. by intros [= <-].
Qed.

(** * What the indexer holds *)
Definition indexed_in (murmur : string → Z) (n i : Z) (cs : list ecall) (id : string) (d : DocIndex) : Prop :=
  ∃ f ct a fo, EIndex d f ct a fo ∈ cs ∧ DocId d = id ∧ u32 (murmur (String.append id ct)) `mod` n = i.

Lemma mapOf_distinct ops id d : NoDup (omap op_id ops) → mapOf ops !! id = Some d ↔ DocId d = id ∧ ∃ f, OpAdd (Some d) f ∈ ops.
Proof.
  induction ops as [|o ops IH] using rev_ind; intros HN.
  { split; [done|]. intros (_ & f & H). by apply elem_of_nil in H. }
  unfold mapOf. rewrite foldl_app. cbn. fold (mapOf ops). rewrite omap_app in HN. apply NoDup_app in HN as (HN & HD & _).
  specialize (IH HN).
  assert (Hin : ∀ e f, OpAdd (Some e) f ∈ ops → DocId e ∈ omap op_id ops). { intros e f He. apply elem_of_list_omap. by eexists. }
  destruct o as [[e|] f|id' f]; cbn [mapStep op_id omap list_omap] in *.
  - destruct (decide (DocId e = id)) as [<-|Hne].
    + rewrite lookup_insert. split.
      * intros [= ->]. split; [done|]. exists f. apply elem_of_app. right. by left.
      * intros (E & f' & [H|H]%elem_of_app).
        -- destruct (HD (DocId d)); [eauto|]. rewrite E. by left.
        -- apply elem_of_list_singleton in H. by injection H as <-.
    + rewrite lookup_insert_ne by done. rewrite IH. split.
      * intros (E & f' & H). split; [done|]. exists f'. apply elem_of_app. by left.
      * intros (E & f' & [H|H]%elem_of_app); [eauto|]. apply elem_of_list_singleton in H. injection H as -> _. done.
  - rewrite IH. split.
    + intros (E & f' & H). split; [done|]. exists f'. apply elem_of_app. by left.
    + intros (E & f' & [H|H]%elem_of_app); [eauto|]. by apply elem_of_list_singleton in H.
  - destruct (decide (id' = id)) as [->|Hne].
    + rewrite lookup_delete. split; [done|]. intros (E & f' & [H|H]%elem_of_app).
      * destruct (HD (DocId d)); [eauto|]. rewrite E. by left.
      * by apply elem_of_list_singleton in H.
    + rewrite lookup_delete_ne by done. rewrite IH. split.
      * intros (E & f' & H). split; [done|]. exists f'. apply elem_of_app. by left.
      * intros (E & f' & [H|H]%elem_of_app); [eauto|]. by apply elem_of_list_singleton in H.
Qed.

Section End.
  Context (murmur : string → Z) (n : Z) (only reqsFirst : bool) (cap : chan → nat).
  Context (Hn : 1 <= n < 2^32).
  Notation reachp nseg progs := (pipe_reach murmur n only reqsFirst cap nseg progs).

  Lemma ixMsgs_ids i c id : id ∈ omap op_id (ixMsgs murmur n i c) → call_id c = Some id.
  Proof.
    destruct c as [d f ct a fo|id' fo|]; cbn [ixMsgs call_id].
    - destruct (seqb _ _); [destruct fo|destruct (_ =? _); [|destruct fo]]; cbn; rewrite ?elem_of_nil; try done.
      by intros ->%elem_of_list_singleton.
    - cbn. by intros ->%elem_of_list_singleton.
    - cbn. by rewrite elem_of_nil.
  Qed.
  Lemma ixMsgs_NoDup i c : NoDup (omap op_id (ixMsgs murmur n i c)).
  Proof.
    destruct c as [d f ct a fo|id' fo|]; cbn [ixMsgs]; [|apply NoDup_singleton|apply NoDup_nil_2].
    destruct (seqb _ _); [destruct fo; apply NoDup_nil_2|destruct (_ =? _); [apply NoDup_singleton|destruct fo; apply NoDup_nil_2]].
  Qed.
  Lemma ixStream_ids i cs id : id ∈ omap op_id (ixStream murmur n i cs) → id ∈ omap call_id cs.
  Proof.
    induction cs as [|c cs IH]; [done|]. unfold ixStream. rewrite fmap_cons, mjoin_cons, omap_app, elem_of_app.
    intros [H|H].
    - apply ixMsgs_ids in H. apply elem_of_list_omap. exists c. split; [by left|done].
    - apply IH in H. apply elem_of_list_omap in H as (c' & H & E). apply elem_of_list_omap. exists c'. split; [by right|done].
  Qed.
  Lemma ixStream_NoDup i cs : NoDup (omap call_id cs) → NoDup (omap op_id (ixStream murmur n i cs)).
  Proof.
    induction cs as [|c cs IH]; intros HN; [constructor|]. unfold ixStream. rewrite fmap_cons, mjoin_cons, omap_app.
    assert (HN' : NoDup (omap call_id cs)). { cbn in HN. destruct (call_id c); [by apply NoDup_cons in HN as [_ ?]|done]. }
    apply NoDup_app. split; [apply ixMsgs_NoDup|]. split; [|by apply IH].
    intros id H1%ixMsgs_ids H2%ixStream_ids. cbn in HN. rewrite H1 in HN. by apply NoDup_cons in HN as [? _].
  Qed.
  Lemma ixStream_adds i cs d f : OpAdd (Some d) f ∈ ixStream murmur n i cs ↔
    ∃ fl ct a, EIndex d fl ct a f ∈ cs ∧ DocId d ≠ "0" ∧ shardOf murmur n (DocId d) ct = i.
  Proof.
    unfold ixStream. rewrite elem_of_list_join. split.
    - intros (l & Hl & (c & -> & Hc)%elem_of_list_fmap). destruct c as [e fl ct a fo|id' fo|]; cbn [ixMsgs] in Hl.
      + destruct (seqb (DocId e) "0") eqn:E0.
        { destruct fo; [apply elem_of_list_singleton in Hl; done|by apply elem_of_nil in Hl]. }
        destruct (Z.eqb_spec (shardOf murmur n (DocId e) ct) i) as [Es|].
        2:{ destruct fo; [apply elem_of_list_singleton in Hl; done|by apply elem_of_nil in Hl]. }
        apply elem_of_list_singleton in Hl. injection Hl as -> ->. exists fl, ct, a. split; [done|]. split; [by apply seqb_neq|done].
      + by apply elem_of_list_singleton in Hl.
      + by apply elem_of_list_singleton in Hl.
    - intros (fl & ct & a & Hc & H0 & Hs). exists (ixMsgs murmur n i (EIndex d fl ct a f)). split.
      + cbn [ixMsgs]. rewrite (proj2 (seqb_neq _ _) H0), Hs, Z.eqb_refl. by left.
      + by apply elem_of_list_fmap_1.
  Qed.

  (** The workers have made the calls that [cs] asks for, in some order. *)
  Definition handled (cs : list ecall) (s : pstate) : Prop := ∀ i, 0 <= i < n →
    ixCalls i (sLog s) ≡ₚ ixStream murmur n i cs ∧ rkCalls i (sLog s) ≡ₚ rkStream murmur n only i cs.
  Lemma quiescent_handled nseg progs s : reachp nseg progs s → quiescent s → handled (mjoin progs) s.
  Proof. intros Hr Hq i Hi. exact (quiescent_calls _ _ _ _ _ Hn nseg progs s i Hr Hq Hi). Qed.
  Lemma handled_engine cs s i : handled cs s → 0 <= i < n → Forall (engine_call only) (rkCalls i (sLog s)).
  Proof. intros H Hi. destruct (H i Hi) as [_ Hp]. rewrite Hp. apply rkStream_engine. Qed.
  Lemma handled_call cs s d f ct a fo : handled cs s → EIndex d f ct a fo ∈ cs → DocId d ≠ "0" → NoDup (omap call_id cs) →
    last_call (DocId d) (rkCalls (u32 (murmur (String.append (DocId d) ct)) `mod` n) (sLog s)) =
      Some (ROAdd (DocId d) f (if only then [] else [IStr ct; a])).
  Proof.
    intros H Hin Hd Hnd. eapply (stream_call murmur n only Hn cs); [|done..]. apply H. apply Z.mod_pos_bound. lia.
  Qed.

  Section Rest.
    Context (sortDocs : list DocIndex → list DocIndex) (o : IndexerOpts) (s0 : Indexer).
    Context (cs : list ecall) (s : pstate) (shards : list Shard).
    Context (Hv : valid_sort sortDocs) (HI : Init o = Some s0).
    Context (Hcalls : handled cs s).
    Context (Hg : Forall (λ c, good_call c ∧ call_id c ≠ Some "0") cs).
    Context (Hnd : NoDup (omap call_id cs)).
    Context (Hsh : engine_shards sortDocs s0 only n s shards) (Hw : Forall nothing_waits shards).

    Lemma shard_index (i : nat) sh : shards !! i = Some sh → 0 <= Z.of_nat i < n.
    Proof. intros H. apply lookup_lt_Some in H. destruct Hsh as [Hl _]. unfold zlen in Hl. lia. Qed.
    Lemma shard_reach (i : nat) sh : shards !! i = Some sh → reach sortDocs o (ixCalls (Z.of_nat i) (sLog s)) (shIx sh).
    Proof.
      intros H. destruct (proj2 Hsh i sh H) as [H1 _]. split; [done|]. split; [|by exists s0].
      destruct (Hcalls (Z.of_nat i) (shard_index i sh H)) as [Hp _]. rewrite Hp.
      apply ixStream_good. eapply Forall_impl; [exact Hg|]. by intros c [? _].
    Qed.
    Lemma shard_map (i : nat) sh : shards !! i = Some sh →
      ∃ M, shows (shIx sh) M ∧ ∀ id d, M !! id = Some d ↔ indexed_in murmur n (Z.of_nat i) cs id d.
    Proof.
      intros H. destruct (proj2 Hsh i sh H) as [H1 _]. pose proof (shard_index i sh H) as Hi.
      destruct (Hcalls (Z.of_nat i) Hi) as [Hp _].
      set (ops := ixCalls (Z.of_nat i) (sLog s)) in *.
      assert (HN : NoDup (omap op_id ops)). { rewrite Hp. by apply ixStream_NoDup. }
      assert (H0 : "0" ∉ omap op_id ops).
      { rewrite Hp. intros Hz%ixStream_ids. apply elem_of_list_omap in Hz as (c & Hc & E). rewrite Forall_forall in Hg.
        by destruct (Hg c Hc) as [_ ?]. }
      destruct (shard_reach i sh H) as (_ & Hgo & _).
      assert (Hnc : no_conflict sortDocs ops s0) by by eapply batching_distinct.
      destruct (batching_transparent sortDocs o s0 ops Hv HI Hgo Hnc) as (s' & Hs' & S1 & _).
      unfold run in Hs', H1. rewrite foldlM_app, H1 in Hs'.
      assert (E : AddDocToCache sortDocs None true (shIx sh) = Some s').
      { cbn [mbind option_bind foldlM step] in Hs'. by destruct (AddDocToCache sortDocs None true (shIx sh)). }
      rewrite Forall_lookup in Hw. destruct (Hw i sh H) as [W1 W2]. apply idle_flush in E; [|done..]. subst s'.
      exists (mapOf ops). split; [done|]. intros id d. rewrite mapOf_distinct by done. unfold indexed_in. split.
      - intros (<- & f & Hf). rewrite Hp in Hf. apply ixStream_adds in Hf as (fl & ct & a & Hc & _ & Hs).
        exists fl, ct, a, f. split; [done|]. split; [done|]. by rewrite <- shardOf_mod.
      - intros (fl & ct & a & fo & Hc & <- & Hs). split; [done|]. exists fo. rewrite Hp. apply ixStream_adds.
        exists fl, ct, a. split; [done|]. rewrite <- shardOf_mod in Hs by done. split; [|done].
        rewrite Forall_forall in Hg. destruct (Hg _ Hc) as [_ Hz]. cbn in Hz. congruence.
    Qed.

    Section Req.
      Context (log2 : F → F) (req : SearchReq) (Hpr : answerable o req).
      Notation score := (ScoringCriteria (rqOpts req)).
      Definition part_ok (i : nat) (sh : Shard) (p : list rop * list IndexedDoc) : Prop :=
        shard_view log2 only req sh p ∧ p.1 = rkCalls (Z.of_nat i) (sLog s) ∧ NoDup (ixDocId <$> p.2) ∧
        (with_logic req → ∀ x, x ∈ p.2 → x = emptyIDoc (ixDocId x)) ∧
        ∀ id, id ∈ ixDocId <$> p.2 ↔ ∃ d, indexed_in murmur n (Z.of_nat i) cs id d ∧ fits req d.
      Lemma part_exists (i : nat) sh : shards !! i = Some sh → ∃ p, part_ok i sh p.
      Proof.
        intros H. pose proof (shard_reach i sh H) as HR. destruct (shard_map i sh H) as (M & HM & HMi).
        destruct (lookup_fits _ _ _ _ log2 req HR Hpr) as (M' & D & docs & HC & HA & HDM & L1 & _ & HN & HS & HF & HE).
        rewrite Forall_lookup in Hw. destruct (Hw i sh H) as [_ Hrc]. rewrite (HDM Hrc) in *. clear D HDM Hrc.
        exists (rkCalls (Z.of_nat i) (sLog s), docs).
        split.
        { split; [|split; [by apply (proj2 Hsh)|by eexists]].
          eapply handled_engine; [exact Hcalls|]. by eapply shard_index. }
        split; [done|]. split; [done|]. split; [done|]. intros id. cbn [snd]. split.
        - intros (d & Hd & Hf)%HS. destruct (shows_fits _ _ M req id d (proj1 HC) HM Hd Hf) as (d' & Hd' & Hf'). exists d'. split; [by apply HMi|done].
        - intros (d & Hd & Hf). apply HMi in Hd. destruct (shows_fits _ _ M' req id d HM (proj1 HC) Hd Hf) as (d' & Hd' & Hf'). by eapply HF.
      Qed.

      Lemma hit_call i sh p h : shards !! i = Some sh → part_ok i sh p → h ∈ hits only score p →
        ∃ d f ct a fo, EIndex d f ct a fo ∈ cs ∧ u32 (murmur (String.append (DocId d) ct)) `mod` n = Z.of_nat i ∧
          fits req d ∧ shows_call only score h d f ct a ∧ (with_logic req → sdScores h = score (emptyIDoc (DocId d)) f).
      Proof.
        intros Hi (_ & Hrk & _ & HE & Hids) (x & Hx & He)%elem_of_list_omap.
        assert (Hxi : ixDocId x ∈ ixDocId <$> p.2) by by apply elem_of_list_fmap_1.
        apply Hids in Hxi as (d & (f & ct & a & fo & Hc & Ed & Ei) & Hwant). rewrite <- Ed in Ei.
        exists d, f, ct, a, fo. split; [done|]. split; [done|]. split; [done|].
        assert (H0 : DocId d ≠ "0"). { rewrite Forall_forall in Hg. destruct (Hg _ Hc) as [_ Hz]. cbn in Hz. congruence. }
        pose proof (handled_call cs s d f ct a fo Hcalls Hc H0 Hnd) as HL. rewrite Ei, Ed in HL.
        unfold expected, known in He. rewrite Hrk, HL in He.
        destruct only; cbn in He; (destruct (score x f) as [|z sc] eqn:Es; [done|]); injection He as <-; cbn.
        - split; [split; [done|]; split; [|done]; exists x; by rewrite Es|]. intros Hl. rewrite Ed, <- (HE Hl x Hx). done.
        - split; [split; [done|]; split; [|done]; exists x; by rewrite Es|]. intros Hl. rewrite Ed, <- (HE Hl x Hx). done.
      Qed.
      Lemma call_hit i sh p d f ct a fo : shards !! i = Some sh → part_ok i sh p → EIndex d f ct a fo ∈ cs →
        u32 (murmur (String.append (DocId d) ct)) `mod` n = Z.of_nat i → fits req d →
        (with_logic req → score (emptyIDoc (DocId d)) f ≠ []) → (¬ with_logic req → score_accepts score (DocId d) f) →
        ∃ h, h ∈ hits only score p ∧ shows_call only score h d f ct a.
      Proof.
        intros Hi (_ & Hrk & _ & HE & Hids) Hc Ei Hwant Hacc1 Hacc2.
        assert (Hxi : DocId d ∈ ixDocId <$> p.2). { apply Hids. exists d. split; [|done]. by exists f, ct, a, fo. }
        apply elem_of_list_fmap in Hxi as (x & Ed & Hx). 
        assert (Hacc : score x f ≠ []).
        { destruct (with_logic_dec req) as [Hl|Hl]; [|by apply Hacc2]. rewrite (HE Hl x Hx), <- Ed. auto. }
        assert (H0 : DocId d ≠ "0"). { rewrite Forall_forall in Hg. destruct (Hg _ Hc) as [_ Hz]. cbn in Hz. congruence. }
        pose proof (handled_call cs s d f ct a fo Hcalls Hc H0 Hnd) as HL. rewrite Ei, Ed in HL.
        assert (∃ h, expected only score (known only p.1 (ixDocId x)) x = Some h ∧ shows_call only score h d f ct a) as (h & H1 & H2).
        { unfold expected, known. rewrite Hrk, HL.
          destruct only; cbn; (destruct (score x f) as [|z sc] eqn:Es; [done|]); eexists; (split; [done|]); cbn.
          - split; [done|]. split; [|done]. exists x. by rewrite Es.
          - split; [done|]. split; [|done]. exists x. by rewrite Es. }
        exists h. split; [|done]. apply elem_of_list_omap. by exists x.
      Qed.

      Lemma hits_ids (p : list rop * list IndexedDoc) : ∃ l, l `sublist_of` p.2 ∧ sdDocId <$> hits only score p = ixDocId <$> l.
      Proof.
        destruct p as [ops docs]. unfold hits. cbn [fst snd]. induction docs as [|x docs (l & Hl & E)]; [by exists []|].
        cbn [omap list_omap]. destruct (expected only score (known only ops (ixDocId x)) x) as [h|] eqn:Eh.
        - exists (x :: l). split; [by apply sublist_skip|]. rewrite !fmap_cons, <- E. f_equal.
          unfold expected in Eh. destruct (known only ops (ixDocId x)) as [[[f c] a]|]; [|done].
          destruct (score x f); [done|]. by injection Eh as <-.
        - exists l. split; [by apply sublist_cons|done].
      Qed.

      Lemma end_view : scores_numbers log2 req shards →
        ∃ parts, Forall2 (shard_view log2 only req) shards parts ∧ no_nan (all_hits only score parts) ∧
          ∀ full, full ≡ₚ all_hits only score parts →
            NoDup (sdDocId <$> full) ∧
            (∀ h, h ∈ full → ∃ d f ct a fo, EIndex d f ct a fo ∈ cs ∧ fits req d ∧ shows_call only score h d f ct a ∧
              (with_logic req → sdScores h = score (emptyIDoc (DocId d)) f)) ∧
            (∀ d f ct a fo, EIndex d f ct a fo ∈ cs → fits req d →
        (with_logic req → score (emptyIDoc (DocId d)) f ≠ []) → (¬ with_logic req → score_accepts score (DocId d) f) →
               ∃ h, h ∈ full ∧ shows_call only score h d f ct a).
      Proof.
        intros Hnan. destruct (choice_list shards part_ok part_exists) as (parts & Hlen & HP).
        assert (HP' : ∀ i p, parts !! i = Some p → ∃ sh, shards !! i = Some sh ∧ part_ok i sh p).
        { intros i p Hp. pose proof (lookup_lt_Some _ _ _ Hp) as Hlt. rewrite Hlen in Hlt.
          apply lookup_lt_is_Some in Hlt as [sh Hs]. eauto. }
        assert (Hmem : ∀ h, h ∈ all_hits only score parts ↔ ∃ i p, parts !! i = Some p ∧ h ∈ hits only score p).
        { intros h. unfold all_hits. rewrite elem_of_list_join. split.
          - intros (l & Hh & (p & -> & Hp)%elem_of_list_fmap). apply elem_of_list_lookup in Hp as [i Hi]. eauto.
          - intros (i & p & Hp & Hh). exists (hits only score p). split; [done|]. apply elem_of_list_fmap_1. by eapply elem_of_list_lookup_2. }
        assert (HV : Forall2 (shard_view log2 only req) shards parts).
        { apply Forall2_same_length_lookup_2; [done|]. intros i sh p Hs Hp. by destruct (HP i sh p Hs Hp). }
        exists parts. split; [done|]. split; [by eapply parts_numbers|].
        { intros full HF. split; [|split].
          + rewrite HF. unfold all_hits. rewrite mjoin_fmap_ids.
            apply NoDup_mjoin.
            * intros i l (p & -> & Hp)%list_lookup_fmap_inv. destruct (HP' i p Hp) as (sh & Hs & _ & _ & HN & _).
              destruct (hits_ids p) as (l & Hl & ->). eapply sublist_NoDup; [exact HN|]. by apply fmap_sublist.
            * intros i j l l' id (p & -> & Hp)%list_lookup_fmap_inv (p' & -> & Hp')%list_lookup_fmap_inv
                (h & -> & Hh)%elem_of_list_fmap (h' & Eh & Hh')%elem_of_list_fmap.
              destruct (HP' i p Hp) as (sh & Hs & Hok). destruct (HP' j p' Hp') as (sh' & Hs' & Hok').
              destruct (hit_call i sh p h Hs Hok Hh) as (d & f & ct & a & fo & Hc & Ei & _ & (Ed & _) & _).
              destruct (hit_call j sh' p' h' Hs' Hok' Hh') as (d' & f' & ct' & a' & fo' & Hc' & Ei' & _ & (Ed' & _) & _).
              assert (EE : EIndex d f ct a fo = EIndex d' f' ct' a' fo').
              { eapply (omap_inj call_id); [exact Hnd|done|done|cbn; reflexivity|]. cbn. congruence. }
              injection EE as -> -> -> -> ->. rewrite Ei in Ei'. lia.
          + intros h Hh. rewrite HF in Hh. apply Hmem in Hh as (i & p & Hp & Hh). destruct (HP' i p Hp) as (sh & Hs & Hok).
            destruct (hit_call i sh p h Hs Hok Hh) as (d & f & ct & a & fo & Hc & _ & Hwn & Hsc). by exists d, f, ct, a, fo.
          + intros d f ct a fo Hc Hwn Hacc1 Hacc2.
            set (i := u32 (murmur (String.append (DocId d) ct)) `mod` n).
            assert (Hi : 0 <= i < n) by (apply Z.mod_pos_bound; lia).
            assert (Hlt : (Z.to_nat i < length shards)%nat). { destruct Hsh as [Hl _]. unfold zlen in Hl. lia. }
            apply lookup_lt_is_Some in Hlt as [sh Hs].
            assert (Hlt : (Z.to_nat i < length parts)%nat). { rewrite Hlen. by apply lookup_lt_Some in Hs. }
            apply lookup_lt_is_Some in Hlt as [p Hp].
            destruct (call_hit (Z.to_nat i) sh p d f ct a fo Hs (HP _ _ _ Hs Hp) Hc) as (h & Hh & Hsc); [|done..|].
            { fold i. lia. }
            exists h. split; [|done]. rewrite HF. apply Hmem. eauto. }
      Qed.
    End Req.
  End Rest.

  (** The answer in terms of [wanted], for a plain request *)
  Lemma plain_answers cs req full out : plain_logic (Some (rqLogic req)) → answers_fitting only cs req full out → answers_calls only cs req full out.
  Proof.
    intros Hpl (A1 & A2 & A3 & A4 & A5 & A6). assert (Hnl : ¬ with_logic req) by by apply plain_not_logic.
    do 4 (split; [done|]). split.
    - intros h Hh. destruct (A5 h Hh) as (d & f & ct & a & fo & Hc & Hf & Hs & _). exists d, f, ct, a, fo. apply fits_plain in Hf; done.
    - intros d f ct a fo Hc Hwn Hacc. eapply A6; [exact Hc|by apply fits_plain|done|done].
  Qed.
  Lemma plain_open o req : plain_request o req → open_request o req.
  Proof. intros (H1 & H2 & H3 & H4 & H5 & H6). do 3 (split; [done|]). left. split; [by apply plain_not_logic|done]. Qed.

  Theorem calls_search sortDocs sortBy o s0 cs s shards log2 req order :
    valid_sort sortDocs → valid_sortBy sortBy → Init o = Some s0 → handled cs s → once_each cs →
    engine_shards sortDocs s0 only n s shards → Forall nothing_waits shards →
    open_request o req → scores_numbers log2 req shards → all_arrive (length shards) order →
    ∃ full out, Search log2 sortBy req shards order = Some (mkResp (rqTokens req) false (zlen full) (Some out)) ∧
      answers_fitting only cs req full out.
  Proof.
    intros Hv Hvb HI Hh [Hg Hnd] Hsh Hw (Hrk & Ht & (P1 & P2 & P3) & Hpr) Hnan Ha.
    destruct (end_view sortDocs o s0 cs s shards Hv HI Hh Hg Hnd Hsh Hw log2 req Hpr Hnan) as (parts & H1 & H2 & H3).
    destruct (C32_lem log2 sortBy only req shards parts order Hvb H2 H1 Hrk Ht P1 P2 P3 Ha) as (full & out & F1 & F2 & F3 & F4 & F5).
    exists full, out. split; [done|]. split; [done|]. split; [done|]. split; [done|]. by apply H3.
  Qed.
  Theorem calls_flight sortDocs sortBy o s0 cs s shards log2 nn ccap clients tl tr ls fs a req t0 :
    valid_sort sortDocs → valid_sortBy sortBy → Init o = Some s0 → handled cs s → once_each cs →
    engine_shards sortDocs s0 only n s shards → Forall nothing_waits shards →
    frun log2 sortBy nn ccap ls (fInit nn clients tl tr shards) = Some fs → Forall read_only ls → length shards = nn →
    a ∈ fAnswers fs → fReqs fs !! faSearch a = Some (req, t0) →
    open_request o req → scores_numbers log2 req shards →
    ∃ full out, faResp a = mkResp (rqTokens req) false (zlen full) (Some out) ∧
      answers_fitting only cs req full out.
  Proof.
    intros Hv Hvb HI Hh [Hg Hnd] Hsh Hw Hf Hro Hl Ha Hrq (Hrk & Ht & Hpg & Hpr) Hnan.
    destruct (end_view sortDocs o s0 cs s shards Hv HI Hh Hg Hnd Hsh Hw log2 req Hpr Hnan) as (parts & H1 & H2 & H3).
    destruct (global_lem _ _ _ _ _ _ _ _ _ _ _ only parts _ _ Hvb Hf Hro Hl Ha Hrq H1 H2 Hrk Ht Hpg) as (full & out & F1 & F2 & F3 & F4 & F5).
    exists full, out. split; [done|]. split; [done|]. split; [done|]. split; [done|]. by apply H3.
  Qed.
  Theorem rest_search sortDocs sortBy o s0 nseg progs s shards log2 req order :
    valid_sort sortDocs → valid_sortBy sortBy → Init o = Some s0 →
    reachp nseg progs s → quiescent s → once_each (mjoin progs) →
    engine_shards sortDocs s0 only n s shards → Forall nothing_waits shards →
    open_request o req → scores_numbers log2 req shards → all_arrive (length shards) order →
    ∃ full out, Search log2 sortBy req shards order = Some (mkResp (rqTokens req) false (zlen full) (Some out)) ∧
      answers_fitting only (mjoin progs) req full out.
  Proof. intros Hv Hvb HI Hr Hq. apply calls_search; [done..|]. by eapply quiescent_handled. Qed.
  Theorem rest_flight sortDocs sortBy o s0 nseg progs s shards log2 nn ccap clients tl tr ls fs a req t0 :
    valid_sort sortDocs → valid_sortBy sortBy → Init o = Some s0 →
    reachp nseg progs s → quiescent s → once_each (mjoin progs) →
    engine_shards sortDocs s0 only n s shards → Forall nothing_waits shards →
    frun log2 sortBy nn ccap ls (fInit nn clients tl tr shards) = Some fs → Forall read_only ls → length shards = nn →
    a ∈ fAnswers fs → fReqs fs !! faSearch a = Some (req, t0) →
    open_request o req → scores_numbers log2 req shards →
    ∃ full out, faResp a = mkResp (rqTokens req) false (zlen full) (Some out) ∧
      answers_fitting only (mjoin progs) req full out.
  Proof. intros Hv Hvb HI Hr Hq. eapply calls_flight; [done..|]. by eapply quiescent_handled. Qed.

  Theorem end_search sortDocs sortBy o s0 nseg progs s shards log2 req order :
    valid_sort sortDocs → valid_sortBy sortBy → Init o = Some s0 →
    reachp nseg progs s → quiescent s → once_each (mjoin progs) →
    engine_shards sortDocs s0 only n s shards → Forall nothing_waits shards →
    plain_request o req → scores_numbers log2 req shards → all_arrive (length shards) order →
    ∃ full out, Search log2 sortBy req shards order = Some (mkResp (rqTokens req) false (zlen full) (Some out)) ∧
      answers_calls only (mjoin progs) req full out.
  Proof.
    intros Hv Hvb HI Hr Hq Ho Hsh Hw Hpr Hnan Ha.
    destruct (rest_search sortDocs sortBy o s0 nseg progs s shards log2 req order) as (full & out & E & H); [done..|by apply plain_open|done|done|].
    exists full, out. split; [done|]. apply plain_answers; [apply Hpr|done].
  Qed.

  Theorem end_flight sortDocs sortBy o s0 nseg progs s shards log2 nn ccap clients tl tr ls fs a req t0 :
    valid_sort sortDocs → valid_sortBy sortBy → Init o = Some s0 →
    reachp nseg progs s → quiescent s → once_each (mjoin progs) →
    engine_shards sortDocs s0 only n s shards → Forall nothing_waits shards →
    frun log2 sortBy nn ccap ls (fInit nn clients tl tr shards) = Some fs → Forall read_only ls → length shards = nn →
    a ∈ fAnswers fs → fReqs fs !! faSearch a = Some (req, t0) →
    plain_request o req → scores_numbers log2 req shards →
    ∃ full out, faResp a = mkResp (rqTokens req) false (zlen full) (Some out) ∧
      answers_calls only (mjoin progs) req full out.
  Proof.
    intros Hv Hvb HI Hr Hq Ho Hsh Hw Hf Hro Hl Ha Hrq Hpr Hnan.
    destruct (rest_flight sortDocs sortBy o s0 nseg progs s shards log2 nn ccap clients tl tr ls fs a req t0) as (full & out & E & H); [done..|by apply plain_open|done|].
    exists full, out. split; [done|]. apply plain_answers; [apply Hpr|done].
  Qed.

  (** * Two ways to leave nothing waiting *)
  Lemma shards_exist sortDocs s0 s :
    (∀ i, 0 <= i < n → ∃ ix rk, run sortDocs (ixCalls i (sLog s)) s0 = Some ix ∧
       rrun (rkCalls i (sLog s)) (RankerInit [only]) = Some rk ∧ addCache ix = [] ∧ removeCache ix = []) →
    ∃ shards, engine_shards sortDocs s0 only n s shards ∧ Forall nothing_waits shards.
  Proof.
    intros H. destruct (choice_list (seq 0 (Z.to_nat n)) (λ i _ sh,
      run sortDocs (ixCalls (Z.of_nat i) (sLog s)) s0 = Some (shIx sh) ∧
      rrun (rkCalls (Z.of_nat i) (sLog s)) (RankerInit [only]) = Some (shRk sh) ∧ nothing_waits sh)) as (shards & Hl & HS).
    { intros i x [-> Hx]%lookup_seq. destruct (H (Z.of_nat (0 + i)) ltac:(lia)) as (ix & rk & H1 & H2 & H3). by exists (mkShard ix rk). }
    rewrite seq_length in Hl.
    assert (HS' : ∀ i sh, shards !! i = Some sh →
      run sortDocs (ixCalls (Z.of_nat i) (sLog s)) s0 = Some (shIx sh) ∧
      rrun (rkCalls (Z.of_nat i) (sLog s)) (RankerInit [only]) = Some (shRk sh) ∧ nothing_waits sh).
    { intros i sh Hi. apply (HS i (0 + i)%nat); [|done]. apply lookup_seq. apply lookup_lt_Some in Hi. lia. }
    exists shards. split.
    - split; [unfold zlen; lia|]. intros i sh Hi. by destruct (HS' i sh Hi) as (? & ? & _).
    - apply Forall_lookup. intros i sh Hi. by destruct (HS' i sh Hi) as (_ & _ & ?).
  Qed.

  Lemma end_forced sortDocs o s0 nseg progs s : valid_sort sortDocs → Init o = Some s0 →
    reachp nseg progs s → quiescent s → once_each (mjoin progs) → Forall forced_call (mjoin progs) →
    ∃ shards, engine_shards sortDocs s0 only n s shards ∧ Forall nothing_waits shards.
  Proof.
    intros Hv HI Hr Hq [Hg _] Hf. apply shards_exist. intros i Hi.
    destruct (quiescent_calls _ _ _ _ _ Hn nseg progs s i Hr Hq Hi) as [Hp _].
    destruct (C27_lem only (rkCalls i (sLog s))) as (rk & Hk & _); [by eapply drained_engine|].
    destruct (forced_is_map sortDocs o s0 (ixCalls i (sLog s)) Hv HI) as (ix & Hx & _ & _ & H1 & H2).
    - rewrite Hp. apply ixStream_good. eapply Forall_impl; [exact Hg|]. by intros c [? _].
    - rewrite Hp. by apply ixStream_forced.
    - by exists ix, rk.
  Qed.

  Lemma quiescent_returned nseg phases s : reachp nseg [program phases] s → Forall good_phase phases → quiescent s → returned 0 s.
  Proof.
    intros Hr HG Hq. destruct (reach_stage _ _ _ _ _ Hn _ _ _ (ProofBlocks.goods_loose _ HG) Hr) as (c & ws & (Hps & _) & _).
    destruct Hq as [_ Hq]. rewrite Hps in Hq. apply Forall_cons in Hq as [[H1 H2] _]. exists c. by rewrite Hps.
  Qed.

  Lemma end_flushed sortDocs o s0 nseg phases s : valid_sort sortDocs → Init o = Some s0 →
    reachp nseg [program phases] s → quiescent s → Forall good_phase phases →
    ∃ shards, engine_shards sortDocs s0 only n s shards ∧ Forall nothing_waits shards.
  Proof.
    intros Hv HI Hr Hq Hg. apply shards_exist. intros i Hi.
    destruct (C27_lem only (rkCalls i (sLog s))) as (rk & Hk & _); [by eapply drained_engine|].
    destruct (C39_lem _ _ _ _ _ Hn sortDocs o s0 nseg phases s i Hv HI Hg Hr (quiescent_returned _ _ _ Hr Hg Hq) Hi) as (ix & M & Hx & _ & _ & H1 & H2 & _).
    by exists ix, rk.
  Qed.

  Lemma end_last_flush sortDocs o s0 nseg progs s : valid_sort sortDocs → Init o = Some s0 →
    reachp nseg progs s → quiescent s → once_each (mjoin progs) → flushed_last n s →
    ∃ shards, engine_shards sortDocs s0 only n s shards ∧ Forall nothing_waits shards.
  Proof.
    intros Hv HI Hr Hq [Hg Hnd] Hfl. apply shards_exist. intros i Hi.
    destruct (quiescent_calls _ _ _ _ _ Hn nseg progs s i Hr Hq Hi) as [Hp _].
    destruct (C27_lem only (rkCalls i (sLog s))) as (rk & Hk & _); [by eapply drained_engine|].
    destruct (Hfl i Hi) as [ops Hops].
    assert (HG : Forall good_op (ixCalls i (sLog s))).
    { rewrite Hp. apply ixStream_good. eapply Forall_impl; [exact Hg|]. by intros c [? _]. }
    assert (HN : NoDup (omap op_id (ixCalls i (sLog s)))). { rewrite Hp. by apply ixStream_NoDup. }
    assert (H0 : "0" ∉ omap op_id (ixCalls i (sLog s))).
    { rewrite Hp. intros Hz%ixStream_ids. apply elem_of_list_omap in Hz as (c & Hc & E). rewrite Forall_forall in Hg.
      by destruct (Hg c Hc) as [_ ?]. }
    rewrite Hops in HG, HN, H0. apply Forall_app in HG as [HG _]. rewrite omap_app, app_nil_r in HN, H0.
    destruct (batching_transparent sortDocs o s0 ops Hv HI HG) as (ix & Hx & _ & _ & H1 & H2); [by eapply batching_distinct|].
    exists ix, rk. by rewrite Hops.
  Qed.
End End.
