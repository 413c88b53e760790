(** Proofs about the scores of searches after updates and removals. *)
From Verif Require Import ModelSession ModelPipe ModelEngine ModelFlight ModelScoring SpecIndexer SpecSearch SpecLogic SpecTotal SpecRank SpecRoute SpecPipe SpecEngine SpecFlight SpecEnd SpecFits SpecProx SpecBM25 SpecUpdate SpecSegment SpecStore SpecLife SpecClose SpecWhole SpecSession SpecScored SpecRevise SpecRescored
  ProofIndexer ProofCache ProofHistory ProofIxThms ProofIxMap ProofSearchThms ProofTotal ProofTopK ProofRanker ProofRoute ProofPipe ProofBlocks ProofFlush ProofFlushThms ProofEngine ProofFlightCrash ProofFits ProofEnd ProofOrder ProofUpdate ProofDuring ProofReserved ProofFloat ProofMag ProofBM25 ProofScored ProofRecover ProofWhole ProofWholeThms ProofSession ProofSessionThms ProofRevise.

(** * One indexer, with the documents it shows given *)
Lemma search_inv o s live dying log2 : Inv s live dying → initOptions s = optsInit o →
  ∀ tokens labels flt logic, plain_logic logic →
  ∃ hits, StronglySorted (flip slt) hits ∧
    (∀ id, id ∈ hits ↔ matches live (tokens ++ labels) flt id) ∧
    ((IndexType o = LocsIndex ∧ tokens = [] ∧ hits ≠ []) ∨ ∃ docs,
      Lookup log2 s tokens labels flt false logic = Some (docs, zlen docs) ∧
      ixDocId <$> docs = hits ∧
      ∀ r, r ∈ docs → ∃ d kws, live !! ixDocId r = Some d ∧ hit_kws d tokens kws ∧
             fields_of log2 s tokens d kws r).
Proof.
  intros HI Ho tokens labels flt logic Hpl.
  destruct (lookup_spec log2 s live dying HI tokens labels flt false logic Hpl) as (hits & Hs & Hh & Hc).
  assert (IndexType (initOptions s) = IndexType o) as Hity by by rewrite Ho.
  exists hits. split; [done|]. split; [done|]. rewrite Hity in *.
  destruct Hc as [(E1 & E2 & E3 & HL)|(Hn & docs & HL & HF)]; [by left|].
  right. exists docs.
  assert (zlen docs = zlen hits) as -> by (unfold zlen; by rewrite (Forall2_length _ _ _ HF)).
  split; [done|]. split; [by eapply forall2_ids|].
  intros r [i Hi]%elem_of_list_lookup. destruct (Forall2_lookup_r _ _ _ _ _ HF Hi) as (id & _ & d & kws & Hd & Hk & Hf).
  exists d, kws. split; [|done]. rewrite (fields_id _ _ _ _ _ _ Hf).
  pose proof (union_live live dying _ _ Hd) as Hu. by apply (core_ids _ _ _ _ (inv_core _ _ _ HI)) in Hu as [-> _].
Qed.

(** [D] lists the documents of the map *)
Definition lists (M : docmap) (D : list DocIndex) : Prop :=
  NoDup (DocId <$> D) ∧ ∀ id d, M !! id = Some d ↔ d ∈ D ∧ DocId d = id.
Lemma lists_map M D : lists M D → M = list_to_map ((λ d, (DocId d, d)) <$> D).
Proof.
  intros [HN H]. apply map_eq. intros id. apply option_eq. intros d. rewrite H.
  assert (HN' : NoDup (fst <$> ((λ d, (DocId d, d)) <$> D))) by by rewrite <- list_fmap_compose.
  rewrite <- (elem_of_list_to_map _ id d HN'), elem_of_list_fmap. split.
  - intros [Hd <-]. by exists d.
  - intros (e & [= -> ->] & He). done.
Qed.
Lemma lists_exists (M : docmap) : (∀ id d, M !! id = Some d → DocId d = id) → ∃ D, lists M D.
Proof.
  intros Hid. exists ((map_to_list M).*2). split.
  - assert (E : DocId <$> (map_to_list M).*2 = (map_to_list M).*1).
    { rewrite <- list_fmap_compose. apply list_fmap_ext. intros k [id d] Hk. cbn. apply Hid. apply elem_of_map_to_list. by eapply elem_of_list_lookup_2. }
    rewrite E. apply NoDup_fst_map_to_list.
  - intros id d. rewrite elem_of_list_fmap. split.
    + intros Hd. split; [|by apply Hid]. exists (id, d). split; [done|]. by apply elem_of_map_to_list.
    + intros [((id' & d') & -> & Hin) <-]. cbn in *. apply elem_of_map_to_list in Hin. by rewrite (Hid _ _ Hin).
Qed.

Lemma fields_told_ix log2 o s M D tokens d kws x : initOptions s = optsInit o → indexes s M → numDocs s = Z.of_nat (size M) →
  lists M D → hit_kws d tokens kws → fields_of log2 s tokens d kws x → describes log2 o (totalTokenLen s) D tokens d x.
Proof.
  intros Ho HC Hnum HD Hk (F1 & F2 & F3 & F4 & F5 & F6). rewrite Ho in *.
  change (IndexType (optsInit o)) with (IndexType o) in *. change (BM25Parameters (optsInit o)) with (BM25Parameters o) in *.
  destruct HD as [HND HD].
  assert (HN : numDocs s = zlen D).
  { rewrite Hnum, (lists_map M D (conj HND HD)). unfold size, map_size, zlen. rewrite map_to_list_to_map; [by rewrite fmap_length|].
    by rewrite <- list_fmap_compose. }
  assert (HR' : ∀ k c, row_count s k c → c = carriers D k).
  { intros k c (L & L1 & L2 & ->). unfold carriers.
    rewrite (NoDup_same_length L (DocId <$> filter (λ d, k ∈ Text <$> Keywords d) D)).
    - unfold zlen. by rewrite fmap_length.
    - done.
    - eapply sublist_NoDup; [exact HND|]. apply fmap_sublist. apply filter_sublist.
    - intros id. rewrite L2, (HC k id). unfold carries. rewrite elem_of_list_fmap. split.
      + intros (e & He & Hke). apply HD in He as [He <-]. exists e. split; [done|]. by apply elem_of_list_filter.
      + intros (e & -> & [Hke He]%elem_of_list_filter). exists e. split; [|done]. by apply HD. }
  assert (HB : ∀ dfs, Forall2 (row_count s) tokens dfs → dfs = carriers D <$> tokens).
  { intros dfs. clear -HR'. induction 1 as [|k c ts dfs Hc _ IH]; [done|]. rewrite fmap_cons, <- IH. f_equal. by apply HR'. }
  rewrite HN in *. exists kws. split; [done|]. split; [done|]. cbn zeta. split; [done|]. split; [done|]. split; [|split; [done|]].
  - intros E. destruct (F4 E) as (dfs & Hd & ->). by rewrite <- (HB dfs Hd).
  - intros E Hs. destruct (F6 E Hs) as ((dfs & Hd & Eb) & Hx). split; [|done]. rewrite Eb. by rewrite <- (HB dfs Hd).
Qed.

Lemma fields_told log2 o s M D tokens d kws x : initOptions s = optsInit o → content s M M → numDocs s = Z.of_nat (size M) →
  lists M D → hit_kws d tokens kws → fields_of log2 s tokens d kws x → describes log2 o (totalTokenLen s) D tokens d x.
Proof. intros Ho (_ & _ & HC & _). by eapply fields_told_ix. Qed.

Lemma total_inv sortDocs o zl ops s live dying : reach sortDocs o ops s → Inv s live dying →
  (∀ d, allDocs s live dying d → added d ops) →
  (∀ d, added d ops → TokenLen d = f32_of_Z (zl d) ∧ 0 <= zl d < 2 ^ 24) → added_len zl ops < 2 ^ 24 →
  totalTokenLen s = f32_of_Z (sum_len zl (live ∪ dying)).
Proof.
  intros HR HI Ha Hz Hb. destruct (total_lem sortDocs o zl ops s HR Hz) as (M & D & _ & _ & Hm & Hs & HW & Hlt).
  - intros ops1 s1 M D [ops2 ->] _ _ Hd _.
    assert (Hz1 : ∀ d, added d (ops1 ++ ops2) → 0 <= zl d) by (intros d Hd1; by apply Hz).
    pose proof (drawn_sum zl ops1 D) as H1. pose proof (added_len_prefix zl ops1 ops2 Hz1).
    assert (sum_len zl D <= added_len zl ops1); [|lia]. apply H1; [|done].
    intros d [f Hf]. apply Hz1. exists f. apply elem_of_app. by left.
  - destruct (inv_measures zl s live dying ops HI Hz Ha) as (Hm' & _ & Hs').
    rewrite <- (measures_sum zl s D (live ∪ dying)) by done. rewrite <- sumZ_lensOf. apply (wtl_total _ _ HW). by rewrite sumZ_lensOf.
Qed.

Lemma batching_inv sortDocs o s0 ops :
  valid_sort sortDocs → Init o = Some s0 → Forall good_op ops → no_conflict sortDocs ops s0 →
  ∃ s, run sortDocs (ops ++ [OpAdd None true]) s0 = Some s ∧ Inv s (mapOf ops) ∅ ∧ addCache s = [].
Proof.
  intros Hsort Hi Hg Hnc. destruct (Init_inv o s0 Hi) as [HI Hc].
  destruct (batch_run sortDocs Hsort ops s0 ∅ ∅ ∅) as (s1 & live & dying & Hrun & HI1 & Hr1 & HM);
    [done| |by rewrite Hc|done|done|].
  { split; rewrite Hc; [constructor|]. rewrite zlen_nil. pose proof (inv_cap _ _ _ HI). lia. }
  destruct (forced_add sortDocs Hsort None s1 live dying HI1) as (s & l & Hrun2 & Hl & HI2 & Hc2); [done|].
  unfold waiting in *. rewrite app_nil_r in *.
  rewrite (insertAll_live1 _ (addCache s1)) in HI2 by (done || apply Hr1).
  rewrite <- HM in HI2. exists s. split; [|done].
  rewrite run_app, Hrun. simpl. unfold run. simpl. by rewrite Hrun2.
Qed.
Lemma mapOf_added ops id d : mapOf ops !! id = Some d → added d ops.
Proof.
  unfold mapOf. revert id. induction ops as [|op ops IH] using rev_ind; intros id Hd; [done|].
  rewrite foldl_app in Hd. simpl in Hd.
  assert (HIH : ∀ i, foldl mapStep ∅ ops !! i = Some d → added d (ops ++ [op])).
  { intros j Hj. destruct (IH j Hj) as [f Hf]. exists f. apply elem_of_app. by left. }
  destruct op as [[d'|] f|id' f]; simpl in Hd.
  - apply lookup_insert_Some in Hd as [[_ <-]|[_ Hd]]; [|by eapply HIH]. exists f. apply elem_of_app. right. left.
  - by eapply HIH.
  - apply lookup_delete_Some in Hd as [_ Hd]. by eapply HIH.
Qed.

Section Blocks.
  Context (murmur : string → Z) (n : Z) (Hn : 1 <= n < 2 ^ 32) (sortDocs : list DocIndex → list DocIndex) (Hsort : valid_sort sortDocs).
  Lemma blocks_inv o s0 i phs ops : Init o = Some s0 → blocks murmur n i phs ops → Forall loose_phase phs →
    ∃ s, run sortDocs ops s0 = Some s ∧ Inv s (mapOf ops) ∅ ∧ addCache s = [].
  Proof.
    intros Hi HB HF. pose proof (blocks_run murmur n sortDocs Hn Hsort o s0 i phs ops Hi HB HF) as (HG & HN & _).
    destruct HB as [|phs ops ph l HB Hl].
    - exists s0. destruct (Init_inv o s0 Hi) as [HI Hc]. done.
    - rewrite app_assoc in HG, HN. apply Forall_app in HG as [HG _].
      assert (HN' : no_conflict sortDocs (ops ++ l) s0).
      { clear -HN. revert HN. generalize (ops ++ l). intros k. revert s0. induction k as [|x k IH]; intros s0 HN; [done|]. cbn in *.
        destruct HN as [H1 H2]. split; [done|]. intros s' Hs'. by apply IH, H2. }
      destruct (batching_inv sortDocs o s0 (ops ++ l) Hsort Hi HG HN') as (s & Hrun & HI & Hc).
      exists s. rewrite <- app_assoc in Hrun. split; [done|]. split; [|done].
      by rewrite app_assoc, (mapOf_app (ops ++ l)).
  Qed.
  Lemma blocks_perm i phs ops : blocks murmur n i phs ops → ops ≡ₚ ixStream murmur n i (program phs).
  Proof.
    induction 1 as [|phs ops ph l HB IH Hl]; [done|]. rewrite program_snoc, ixStream_app. by apply Permutation_app.
  Qed.
End Blocks.

Section Rescored.
  Context (murmur : string → Z) (n : Z) (only reqsFirst : bool) (cap : chan → nat) (Hn : 1 <= n < 2 ^ 32).
  Notation reachp := (pipe_reach murmur n only reqsFirst cap).

  Section Staged.
    Context (sortDocs : list DocIndex → list DocIndex) (o : IndexerOpts) (s0 : Indexer) (nseg : nat) (progs phases : list (list ecall))
      (s : pstate) (shards : list Shard) (settled : Prop).
    Context (Hv : valid_sort sortDocs) (HI : Init o = Some s0) (Hr : reachp nseg progs s) (Hset : settled → quiescent s)
      (HP : mjoin progs ≡ₚ program phases) (HG : Forall good_phase phases).
    Context (HB : ∀ i, 0 <= i < n → blocks murmur n i phases (ixCalls i (sLog s))).
    Context (Hsh : engine_shards sortDocs s0 only n s shards).
    Notation R := (called murmur n (program phases)).
    Notation held i := (mapOf (ixCalls (Z.of_nat i) (sLog s))).

    Lemma rs_idx (i : nat) sh : shards !! i = Some sh → 0 <= Z.of_nat i < n.
    Proof. intros H. apply lookup_lt_Some in H. destruct Hsh as [Hl _]. unfold zlen in Hl. lia. Qed.
    Lemma rs_reach (i : nat) sh : shards !! i = Some sh → reach sortDocs o (ixCalls (Z.of_nat i) (sLog s)) (shIx sh).
    Proof.
      intros H. split; [done|]. split; [|exists s0; split; [done|by apply (proj2 Hsh)]].
      destruct (blocks_run murmur n sortDocs Hn Hv o s0 _ phases _ HI (HB _ (rs_idx i sh H)) (goods_loose _ HG)) as [Hg _]. done.
    Qed.
    Lemma rs_eng (i : nat) sh : shards !! i = Some sh →
      Forall (engine_call only) (rkCalls (Z.of_nat i) (sLog s)) ∧ rrun (rkCalls (Z.of_nat i) (sLog s)) (RankerInit [only]) = Some (shRk sh).
    Proof.
      intros H. split; [|by apply (proj2 Hsh)].
      destruct (log_rk _ _ _ _ _ Hn _ _ _ _ Hr (rs_idx i sh H)) as [r Hp]. assert (HF : Forall (engine_call only) (rkCalls (Z.of_nat i) (sLog s) ++ r)).
      { rewrite Hp. apply rkStream_engine. } by apply Forall_app in HF as [? _].
    Qed.
    Lemma rs_inv (i : nat) sh : shards !! i = Some sh → Inv (shIx sh) (held i) ∅ ∧ addCache (shIx sh) = [].
    Proof.
      intros H. destruct (blocks_inv murmur n Hn sortDocs Hv o s0 _ phases _ HI (HB _ (rs_idx i sh H)) (goods_loose _ HG)) as (ix & Hx & Hy).
      destruct (proj2 Hsh i sh H) as [Hx' _]. rewrite Hx in Hx'. by injection Hx' as ->.
    Qed.
    Lemma rs_held (i : nat) sh : shards !! i = Some sh → ∀ id, held i !! id = version murmur n (Z.of_nat i) (program phases) id.
    Proof.
      intros H id. destruct (blocks_run murmur n sortDocs Hn Hv o s0 _ phases _ HI (HB _ (rs_idx i sh H)) (goods_loose _ HG)) as (_ & _ & -> & _).
      apply mapOf_version'; [done|]. by apply program_ord.
    Qed.
    Lemma rs_lists (i : nat) sh D : shards !! i = Some sh → lists (held i) D ↔ current_docs R (Z.of_nat i) D.
    Proof.
      intros H. pose proof (rs_held i sh H) as HH. unfold lists, current_docs. split; intros [H1 H2]; (split; [done|]).
      - intros d. cbn. split.
        + intros Hd. assert (Hx : held i !! DocId d = Some d) by by apply H2. rewrite HH in Hx. by apply version_current in Hx as [_ ?].
        + intros Hc. assert (Hx : held i !! DocId d = Some d) by (rewrite HH; by apply version_current). by apply H2 in Hx as [? _].
      - intros id d. rewrite HH, version_current. rewrite H2. cbn. tauto.
    Qed.

    (** The sum of the lengths *)
    Lemma rs_total (i : nat) sh D : shards !! i = Some sh → current_docs R (Z.of_nat i) D →
      total_now (totalTokenLen (shIx sh)) (shard_docs murmur n (Z.of_nat i) (program phases)) D.
    Proof.
      intros H HD zl Hz Hs. apply (rs_lists i sh D H) in HD. pose proof (rs_reach i sh H) as HR. destruct (rs_inv i sh H) as [HI' Hac].
      assert (Hbound : ∀ l, (∀ d, d ∈ l → 0 <= zl d) → ∀ d, d ∈ l → zl d <= foldr Z.add 0 (zl <$> l)).
      { clear. intros l Hl. assert (HH : 0 <= foldr Z.add 0 (zl <$> l) ∧ ∀ d, d ∈ l → zl d <= foldr Z.add 0 (zl <$> l)); [|by destruct HH].
        induction l as [|e l IH]; [split; [done|]; by intros d ?%elem_of_nil|].
        destruct IH as [I1 I2]; [intros d Hd; apply Hl; by right|]. rewrite fmap_cons. cbn [foldr].
        assert (0 <= zl e) by (apply Hl; by left). split; [lia|]. intros d [->|Hd]%elem_of_cons; [lia|]. specialize (I2 d Hd). lia. }
      pose proof (blocks_perm murmur n _ _ _ (HB _ (rs_idx i sh H))) as Hp.
      rewrite (total_inv sortDocs o zl _ _ (held i) ∅ HR HI').
      - rewrite (right_id_L ∅ (∪)). f_equal. rewrite (lists_map _ D HD) at 1. apply sum_len_list, HD.
      - intros d [Hd|[[id Hd]|[id Hd]]]; [|by eapply mapOf_added|done]. rewrite Hac in Hd. by apply elem_of_nil in Hd.
      - intros d [f Hf]. rewrite Hp in Hf. apply ixStream_adds in Hf as (fl & ct & a & Hc & _ & Hi).
        assert (Hd : d ∈ shard_docs murmur n (Z.of_nat i) (program phases)).
        { apply shard_docs_elem. exists fl, ct, a, f. split; [done|]. split; [done|]. by rewrite <- shardOf_mod. }
        destruct (Hz d Hd) as [E1 E2]. split; [done|]. split; [done|]. eapply Z.le_lt_trans; [|exact Hs]. apply Hbound; [|done]. intros d' Hd'. by apply Hz.
      - rewrite (added_len_perm zl _ _ Hp), added_len_stream; [done|done|].
        intros (c & Hc & E)%elem_of_list_omap. unfold program in Hc. apply elem_of_list_join in Hc as (ph & Hc & (ph' & -> & Hph)%elem_of_list_fmap).
        rewrite Forall_forall in HG. destruct (HG ph' Hph) as [Hw _]. cbn in Hc. apply elem_of_app in Hc as [Hc|Hc].
        + rewrite Forall_forall in Hw. specialize (Hw c Hc). destruct c as [d f ct a fo|id fo|]; cbn in *; [destruct Hw; congruence|congruence|done].
        + by apply elem_of_list_singleton in Hc as ->.
    Qed.

    Section Req.
      Context (log2 : F → F) (req : SearchReq).
      Context (Hpl : plain_logic (Some (rqLogic req))) (Hne : rqTokens req ++ rqLabels req ≠ []).
      Context (Hloc : IndexType o = LocsIndex → rqTokens req ≠ []).
      Notation score := (ScoringCriteria (rqOpts req)).
      Notation told sh D d x := (describes log2 o (totalTokenLen (shIx sh)) D (rqTokens req) d x).

      Definition rs_part (i : nat) (sh : Shard) (p : list rop * list IndexedDoc) : Prop :=
        shard_view log2 only req sh p ∧ p.1 = rkCalls (Z.of_nat i) (sLog s) ∧ NoDup (ixDocId <$> p.2) ∧
        (∀ x, x ∈ p.2 → ∃ d, rvCurrent R (Z.of_nat i) d ∧ DocId d = ixDocId x ∧ wanted req d ∧
           ∀ D, current_docs R (Z.of_nat i) D → told sh D d x) ∧
        ∀ d, rvCurrent R (Z.of_nat i) d → wanted req d → DocId d ∈ ixDocId <$> p.2.
      Lemma rs_part_exists (i : nat) sh : shards !! i = Some sh → ∃ p, rs_part i sh p.
      Proof.
        intros H. destruct (rs_inv i sh H) as [HI' _]. pose proof (rs_reach i sh H) as HR.
        assert (Ho : initOptions (shIx sh) = optsInit o) by by destruct (reach_inv _ _ _ _ HR) as (? & ? & _ & ? & _).
        pose proof (inv_content _ _ _ HI') as HC. rewrite (right_id_L ∅ (∪)) in HC.
        pose proof (inv_shows _ _ _ HI') as HS.
        destruct (search_inv o _ _ _ log2 HI' Ho (rqTokens req) (rqLabels req) (rqDocIds req) (Some (rqLogic req)) Hpl)
          as (hits & Hso & Hh & [(L1 & L2 & _)|(docs & L1 & Hids & Hf)]).
        { by destruct (Hloc L1). }
        exists (rkCalls (Z.of_nat i) (sLog s), docs). split.
        { destruct (rs_eng i sh H) as [H1 H2]. split; [done|]. split; [done|]. by eexists. }
        split; [done|]. cbn [snd]. rewrite Hids. split; [by apply desc_NoDup|]. split.
        - intros x Hx. destruct (Hf x Hx) as (d & kws & Hd & Hk & Hfo). exists d.
          assert (Hid : ixDocId x ∈ hits). { rewrite <- Hids. by apply elem_of_list_fmap_1. }
          apply Hh in Hid as (_ & P2 & d' & Hd' & P3). rewrite Hd in Hd'. injection Hd' as <-.
          pose proof (proj1 (proj2 HS) _ _ Hd) as Ed. split; [|split; [done|split]].
          + pose proof Hd as Hd2. rewrite (rs_held i sh H) in Hd2. by apply version_current in Hd2 as [_ ?].
          + split; [by rewrite Ed|done].
          + intros D HD. apply (rs_lists i sh D H) in HD. eapply fields_told; [done|exact HC|apply HI'|done|done|done].
        - intros d Hc [P1 P2]. apply Hh. split; [done|]. split; [done|]. exists d. split; [|done].
          rewrite (rs_held i sh H). by apply version_current.
      Qed.

      Lemma rs_version (i : nat) sh id f c a : shards !! i = Some sh → known only (rkCalls (Z.of_nat i) (sLog s)) id = Some (f, c, a) →
        ∃ ct' a', rvVersion R (Z.of_nat i) id f ct' a' ∧ (only = false → c = ct' ∧ a = a').
      Proof.
        intros Hi. unfold known. destruct (last_call id (rkCalls (Z.of_nat i) (sLog s))) as [[id' f' c'|id']|] eqn:E; [|done..].
        apply last_call_elem in E as [Hx Ho]. cbn in Ho. apply seqb_eq in Ho as ->.
        assert (Hx' : ROAdd id f' c' ∈ rkStream murmur n only (Z.of_nat i) (program phases)).
        { rewrite <- (rk_perm murmur n only _ _ _ HP). destruct (log_rk _ _ _ _ _ Hn _ _ _ _ Hr (rs_idx i sh Hi)) as [r <-].
          apply elem_of_app. by left. }
        apply rkStream_add in Hx' as (d & ct & a0 & fo & Hc & Ed & Es & ->). intros [= E].
        exists ct, a0. rewrite shardOf_mod in Es by done. destruct only; injection E as <- <- <-; (split; [exists d, fo; done|done]).
      Qed.
      Lemma rs_hit (i : nat) sh p h : shards !! i = Some sh → rs_part i sh p → h ∈ hits only score p →
        ∃ d f ct a x, rvCurrent R (Z.of_nat i) d ∧ wanted req d ∧ rvVersion R (Z.of_nat i) (DocId d) f ct a ∧
          (∀ D, current_docs R (Z.of_nat i) D → told sh D d x) ∧ score x f ≠ [] ∧ h = entry_for only score x f ct a.
      Proof.
        intros Hi (_ & Hrk & _ & Hids & _) (x & Hx & He)%elem_of_list_omap.
        destruct (Hids x Hx) as (d & Hc & Ed & Hwant & Htold). unfold expected in He. rewrite Hrk in He.
        destruct (known only (rkCalls (Z.of_nat i) (sLog s)) (ixDocId x)) as [[[f c] a]|] eqn:EK; [|done].
        destruct (rs_version i sh _ _ _ _ Hi EK) as (ct1 & a1 & Hve & Ho). rewrite <- Ed in Hve.
        exists d, f, ct1, a1, x. split; [done|]. split; [done|]. split; [done|]. split; [done|].
        destruct (score x f) as [|z sc] eqn:Es; [done|]. split; [done|]. injection He as <-. unfold entry_for. rewrite Es.
        destruct only; [done|]. by destruct (Ho eq_refl) as [-> ->].
      Qed.
      Lemma rs_kept (i : nat) sh p d D : settled → shards !! i = Some sh → rs_part i sh p → current_docs R (Z.of_nat i) D →
        rvCurrent R (Z.of_nat i) d → wanted req d → ¬ rvRemoved R (DocId d) →
        (∀ f ct a x, rvVersion R (Z.of_nat i) (DocId d) f ct a → told sh D d x → score x f ≠ []) →
        ∃ h, h ∈ hits only score p ∧ sdDocId h = DocId d.
      Proof.
        intros Hs Hi (_ & Hrk & _ & Hids & Hall) HD Hc Hwn Hnr Hacc.
        pose proof (Hall d Hc Hwn) as (x & Ed & Hx)%elem_of_list_fmap.
        destruct (Hids x Hx) as (d' & Hc' & Ed' & _ & Ht).
        assert (d' = d) as ->.
        { destruct (version_current murmur n (Z.of_nat i) (program phases) (DocId d) d) as [_ V1].
          destruct (version_current murmur n (Z.of_nat i) (program phases) (DocId d) d') as [_ V2].
          rewrite V1 in V2 by done. assert (E : Some d = Some d') by (apply V2; split; [congruence|done]). congruence. }
        assert (HK : ∃ f' c' a', known only (rkCalls (Z.of_nat i) (sLog s)) (ixDocId x) = Some (f', c', a')).
        { rewrite <- Ed. destruct Hc as (f & ct & a & fo & b & af & E & Hsd & HF).
          assert (Hin : EIndex d f ct a fo ∈ program phases) by (rewrite E; apply elem_of_app; right; by left).
          assert (H0 : DocId d ≠ "0"). { pose proof (program_ord phases HG) as Ho. rewrite Forall_forall in Ho. by apply Ho in Hin. }
          assert (HA : ∀ y, y ∈ rkCalls (Z.of_nat i) (sLog s) ↔ y ∈ rkStream murmur n only (Z.of_nat i) (program phases)).
          { intros y. destruct (quiescent_calls _ _ _ _ _ Hn _ _ s (Z.of_nat i) Hr (Hset Hs) (rs_idx i sh Hi)) as [_ ->].
            by rewrite (rk_perm murmur n only _ _ _ HP). }
          destruct (last_call_some (DocId d) (rkCalls (Z.of_nat i) (sLog s)) (ROAdd (DocId d) f (if only then [] else [IStr ct; a]))) as [r Hlr].
          - apply HA. unfold rkStream. apply elem_of_list_join. exists (rkMsgs murmur n only (Z.of_nat i) (EIndex d f ct a fo)).
            split; [|by apply elem_of_list_fmap_1]. cbn [rkMsgs]. rewrite (proj2 (seqb_neq _ _) H0).
            rewrite (shardOf_mod _ _ _ _ Hn), Hsd, Z.eqb_refl. by left.
          - cbn. apply seqb_refl.
          - unfold known. rewrite Hlr. apply last_call_elem in Hlr as [Hlr Ho]. apply HA in Hlr. destruct r as [id' f' c'|id'].
            + destruct only; [by eauto|]. destruct c' as [|[] [|]]; eauto.
            + cbn in Ho. apply seqb_eq in Ho as ->. apply rkStream_rem in Hlr as [fo' Hlr]. destruct Hnr. by exists fo'. }
        destruct HK as (f' & c' & a' & EK). destruct (rs_version i sh _ _ _ _ Hi EK) as (ct1 & a1 & Hve & _). rewrite <- Ed in Hve.
        specialize (Hacc _ _ _ x Hve (Ht D HD)).
        destruct (score x f') as [|z sc] eqn:Es; [done|].
        eexists. split; [apply elem_of_list_omap; exists x; split; [done|]; unfold expected; rewrite Hrk, EK, Es; reflexivity|]. by cbn.
      Qed.

      Lemma rs_view : rescores_proper log2 o R (shard_total shards) req →
        ∃ parts, Forall2 (shard_view log2 only req) shards parts ∧ no_nan (all_hits only score parts) ∧
          ∀ (i : nat) part, (hits only score <$> parts) !! i = Some part →
            part_rescored log2 o only R (shard_total shards (Z.of_nat i)) req settled (Z.of_nat i) part.
      Proof.
        intros Hnan. destruct (choice_list shards rs_part rs_part_exists) as (parts & Hl & HPt).
        assert (HP' : ∀ i p, parts !! i = Some p → ∃ sh, shards !! i = Some sh ∧ rs_part i sh p).
        { intros i p Hp. pose proof (lookup_lt_Some _ _ _ Hp) as Hlt. rewrite Hl in Hlt.
          apply lookup_lt_is_Some in Hlt as [sh Hs]. eauto. }
        assert (Htot : ∀ (i : nat) sh, shards !! i = Some sh → shard_total shards (Z.of_nat i) = totalTokenLen (shIx sh)).
        { intros i sh Hi. unfold shard_total. by rewrite Nat2Z.id, Hi. }
        assert (HDx : ∀ (i : nat) sh, shards !! i = Some sh → ∃ D, current_docs R (Z.of_nat i) D).
        { intros i sh Hi. destruct (lists_exists (held i)) as [D HD]; [|exists D; by eapply rs_lists].
          intros id d Hd. rewrite (rs_held i sh Hi) in Hd. by apply version_current in Hd as [? _]. }
        exists parts. split; [|split].
        - apply Forall2_same_length_lookup_2; [done|]. intros i sh p Hs Hp. by destruct (HPt i sh p Hs Hp).
        - apply Forall_forall. intros h (l & Hh & (p & -> & Hp)%elem_of_list_fmap)%elem_of_list_join.
          apply elem_of_list_lookup in Hp as [i Hp]. destruct (HP' i p Hp) as (sh & Hs & Hok). destruct (HDx i sh Hs) as [D HD].
          destruct (rs_hit i sh p h Hs Hok Hh) as (d & f & ct & a & x & Hc & Hwn & Hve & Ht & Hsc & ->).
          apply (Hnan (Z.of_nat i) D d f ct a x HD); [by apply HD|done|done|]. rewrite (Htot i sh Hs). by apply Ht.
        - intros i part (p & -> & Hp)%list_lookup_fmap_inv. destruct (HP' i p Hp) as (sh & Hs & Hok). destruct (HDx i sh Hs) as [D HD].
          exists D. split; [done|]. rewrite (Htot i sh Hs). split; [|split].
          + destruct (hits_ids only req p) as (l & Hl' & ->). eapply sublist_NoDup; [apply Hok|]. by apply fmap_sublist.
          + intros h Hh. destruct (rs_hit i sh p h Hs Hok Hh) as (d & f & ct & a & x & Hc & Hwn & Hve & Ht & Hsc & ->).
            exists d, f, ct, a, x. split; [by apply HD|]. split; [done|]. split; [done|]. split; [by apply Ht|done].
          + intros Hse d Hd Hwn Hnr Hacc. apply (rs_kept i sh p d D); try done. by apply HD.
      Qed.
    End Req.

    Theorem rs_search sortBy log2 req order : valid_sortBy sortBy → plain_request o req →
      rescores_proper log2 o R (shard_total shards) req → all_arrive (length shards) order →
      ∃ full out, Search log2 sortBy req shards order = Some (mkResp (rqTokens req) false (zlen full) (Some out)) ∧
        answers_rescored log2 o n only R (shard_total shards) req settled full out.
    Proof.
      intros Hvb (Hrk & Ht & (P1 & P2 & P3) & Hpl & Hne & Hloc) Hnan Ha.
      destruct (rs_view log2 req Hpl Hne Hloc Hnan) as (parts & H1 & H2 & H3).
      destruct (C32_lem log2 sortBy only req shards parts order Hvb H2 H1 Hrk Ht P1 P2 P3 Ha) as (full & out & F1 & F2 & F3 & F4 & F5).
      exists full, out. split; [done|]. split; [done|]. split; [done|]. split; [done|].
      exists (hits only (ScoringCriteria (rqOpts req)) <$> parts). split; [|split; [done|exact H3]].
      destruct Hsh as [Hl _]. unfold zlen in *. rewrite fmap_length. apply Forall2_length in H1. lia.
    Qed.
    Theorem rs_flight sortBy log2 nn ccap clients tl tr ls fs a req t0 : valid_sortBy sortBy →
      frun log2 sortBy nn ccap ls (fInit nn clients tl tr shards) = Some fs → Forall read_only ls → length shards = nn →
      a ∈ fAnswers fs → fReqs fs !! faSearch a = Some (req, t0) →
      plain_request o req → rescores_proper log2 o R (shard_total shards) req →
      ∃ full out, faResp a = mkResp (rqTokens req) false (zlen full) (Some out) ∧
        answers_rescored log2 o n only R (shard_total shards) req settled full out.
    Proof.
      intros Hvb Hf Hro Hl Ha Hrq (Hrk & Ht & Hpg & Hpl & Hne & Hloc) Hnan.
      destruct (rs_view log2 req Hpl Hne Hloc Hnan) as (parts & H1 & H2 & H3).
      destruct (global_lem _ _ _ _ _ _ _ _ _ _ _ only parts _ _ Hvb Hf Hro Hl Ha Hrq H1 H2 Hrk Ht Hpg) as (full & out & F1 & F2 & F3 & F4 & F5).
      exists full, out. split; [done|]. split; [done|]. split; [done|]. split; [done|].
      exists (hits only (ScoringCriteria (rqOpts req)) <$> parts). split; [|split; [done|exact H3]].
      destruct Hsh as [Hl' _]. unfold zlen in *. rewrite fmap_length. apply Forall2_length in H1. lia.
    Qed.
  End Staged.

  (** * One client that calls Flush between updates *)
  Lemma flush_blocks nseg phases s : Forall good_phase phases → reachp nseg [program phases] s → returned 0 s →
    ∀ i, 0 <= i < n → blocks murmur n i phases (ixCalls i (sLog s)).
  Proof.
    intros HG Hr Hret i Hi. eapply staged_end; [|done|done]. eapply reach_stage; [done|by apply goods_loose|done].
  Qed.
  Theorem rescored_search sortDocs sortBy o s0 nseg phases s shards log2 req order :
    valid_sort sortDocs → valid_sortBy sortBy → Init o = Some s0 →
    reachp nseg [program phases] s → returned 0 s → Forall good_phase phases →
    engine_shards sortDocs s0 only n s shards → plain_request o req →
    rescores_proper log2 o (called murmur n (program phases)) (shard_total shards) req → all_arrive (length shards) order →
    ∃ full out, Search log2 sortBy req shards order = Some (mkResp (rqTokens req) false (zlen full) (Some out)) ∧
      answers_rescored log2 o n only (called murmur n (program phases)) (shard_total shards) req (quiescent s) full out.
  Proof.
    intros Hv Hvb HI Hr Hret HG Hsh. eapply (rs_search sortDocs o s0 nseg [program phases] phases s shards (quiescent s)); try done.
    - apply one_prog.
    - by eapply flush_blocks.
  Qed.
  Theorem rescored_flight sortDocs sortBy o s0 nseg phases s shards log2 nn ccap clients tl tr ls fs a req t0 :
    valid_sort sortDocs → valid_sortBy sortBy → Init o = Some s0 →
    reachp nseg [program phases] s → returned 0 s → Forall good_phase phases →
    engine_shards sortDocs s0 only n s shards →
    frun log2 sortBy nn ccap ls (fInit nn clients tl tr shards) = Some fs → Forall read_only ls → length shards = nn →
    a ∈ fAnswers fs → fReqs fs !! faSearch a = Some (req, t0) → plain_request o req →
    rescores_proper log2 o (called murmur n (program phases)) (shard_total shards) req →
    ∃ full out, faResp a = mkResp (rqTokens req) false (zlen full) (Some out) ∧
      answers_rescored log2 o n only (called murmur n (program phases)) (shard_total shards) req (quiescent s) full out.
  Proof.
    intros Hv Hvb HI Hr Hret HG Hsh. eapply (rs_flight sortDocs o s0 nseg [program phases] phases s shards (quiescent s)); try done.
    - apply one_prog.
    - by eapply flush_blocks.
  Qed.
  Theorem rescored_total sortDocs o s0 nseg phases s shards (i : nat) sh D :
    valid_sort sortDocs → Init o = Some s0 →
    reachp nseg [program phases] s → returned 0 s → Forall good_phase phases →
    engine_shards sortDocs s0 only n s shards → shards !! i = Some sh →
    current_docs (called murmur n (program phases)) (Z.of_nat i) D →
    total_now (totalTokenLen (shIx sh)) (shard_docs murmur n (Z.of_nat i) (program phases)) D.
  Proof.
    intros Hv HI Hr Hret HG Hsh Hi HD. eapply (rs_total sortDocs o s0 phases s shards); try done. by eapply flush_blocks.
  Qed.
End Rescored.

(** * Criteria that give numbers to usual documents *)
Section SaneRescored.
  Context (murmur : string → Z) (n : Z) (Hn : 1 <= n < 2 ^ 32).
  Lemma sum_submseteq (zl : DocIndex → Z) (D E : list DocIndex) : D ⊆+ E → (∀ d, d ∈ E → 0 <= zl d) →
    0 <= foldr Z.add 0 (zl <$> D) <= foldr Z.add 0 (zl <$> E).
  Proof.
    intros (k & HE)%submseteq_Permutation Hz.
    assert (HS : ∀ l1 l2, l1 ≡ₚ l2 → foldr Z.add 0 (zl <$> l1) = foldr Z.add 0 (zl <$> l2)).
    { induction 1 as [|x l1 l2 _ IH|x y l|l1 l2 l3 _ IH1 _ IH2]; [done| | |congruence]; rewrite !fmap_cons; cbn [foldr]; [by rewrite IH|lia]. }
    rewrite (HS _ _ HE), fmap_app, foldr_app.
    assert (HN : ∀ l, (∀ d, d ∈ l → 0 <= zl d) → 0 <= foldr Z.add 0 (zl <$> l)).
    { clear. induction l as [|e l IH]; intros Hl; [done|]. rewrite fmap_cons. cbn [foldr].
      assert (0 <= zl e) by (apply Hl; by left). assert (0 <= foldr Z.add 0 (zl <$> l)); [|lia]. apply IH. intros d Hd. apply Hl. by right. }
    assert (HA : ∀ l c, foldr Z.add c (zl <$> l) = foldr Z.add 0 (zl <$> l) + c).
    { clear. induction l as [|e l IH]; intros c; [done|]. rewrite fmap_cons. cbn [foldr]. rewrite IH. lia. }
    rewrite (HA D (foldr Z.add 0 (zl <$> k))). assert (0 <= foldr Z.add 0 (zl <$> D)) by (apply HN; intros d Hd; apply Hz; rewrite HE; apply elem_of_app; by left).
    assert (0 <= foldr Z.add 0 (zl <$> k)) by (apply HN; intros d Hd; apply Hz; rewrite HE; apply elem_of_app; by right). lia.
  Qed.
  Lemma current_given i cs D : current_docs (called murmur n cs) i D → D ⊆+ shard_docs murmur n i cs.
  Proof.
    intros [HN HD]. apply NoDup_submseteq; [by eapply NoDup_fmap_1|]. intros d Hd. apply HD in Hd as (f & ct & a & fo & b & af & E & Hs & _).
    apply shard_docs_elem. exists f, ct, a, fo. split; [rewrite E; apply elem_of_app; right; by left|done].
  Qed.
  Lemma sane_reproper log2 o cs totals req :
    usual_log2 log2 → usual_calls o murmur n cs → sane_scoring (ScoringCriteria (rqOpts req)) →
    (∀ i D, 0 <= i < n → current_docs (called murmur n cs) i D → total_now (totals i) (shard_docs murmur n i cs) D) →
    rescores_proper log2 o (called murmur n cs) totals req.
  Proof.
    intros Hlog (Hp & Hlen & Hd & zl & Hz & Hs) Hsc Htot i D d f ct a x HD Hin _ (d' & fo & _ & _ & Ei) Hx. apply Hsc.
    assert (Hi : 0 <= i < n) by (rewrite <- Ei; apply Z.mod_pos_bound; lia).
    pose proof (current_given i cs D HD) as Hsub.
    assert (Hzl : ∀ e, e ∈ shard_docs murmur n i cs → TokenLen e = f32_of_Z (zl e) ∧ 0 <= zl e).
    { intros e (f' & ct' & a' & fo' & He & _)%shard_docs_elem. by eapply Hz. }
    pose proof (Htot i D Hi HD zl Hzl (Hs i Hi)) as Et.
    destruct (sum_submseteq zl D _ Hsub) as [S1 S2]; [intros e He; by apply Hzl|].
    destruct (of_Z_nn (foldr Z.add 0 (zl <$> D))) as [N1 N2]; [specialize (Hs i Hi); lia|]. rewrite <- Et in N1, N2.
    pose proof (shard_docs_length murmur n i cs). pose proof (submseteq_length _ _ Hsub).
    assert (Hin' : d ∈ shard_docs murmur n i cs) by by eapply elem_of_submseteq.
    apply (described_score log2 o (totals i) D (rqTokens req) d x Hp Hlog Hin); [|unfold zlen in *; lia|done..].
    apply shard_docs_elem in Hin' as (f' & ct' & a' & fo' & He & _). by eapply Hd.
  Qed.
End SaneRescored.

Section SaneThms.
  Context (murmur : string → Z) (n : Z) (only reqsFirst : bool) (cap : chan → nat) (Hn : 1 <= n < 2 ^ 32).
  Notation reachp := (pipe_reach murmur n only reqsFirst cap).
  Lemma rescored_totals sortDocs o s0 nseg phases s shards :
    valid_sort sortDocs → Init o = Some s0 →
    reachp nseg [program phases] s → returned 0 s → Forall good_phase phases →
    engine_shards sortDocs s0 only n s shards →
    ∀ i D, 0 <= i < n → current_docs (called murmur n (program phases)) i D →
      total_now (shard_total shards i) (shard_docs murmur n i (program phases)) D.
  Proof.
    intros Hv HI Hr Hret HG Hsh i D Hi HD.
    assert (Hlt : (Z.to_nat i < length shards)%nat). { destruct Hsh as [Hl _]. unfold zlen in Hl. lia. }
    apply lookup_lt_is_Some in Hlt as [sh Hs]. unfold shard_total. rewrite Hs.
    replace i with (Z.of_nat (Z.to_nat i)) in HD |- * by lia.
    by eapply (rescored_total murmur n only reqsFirst cap Hn sortDocs o s0 nseg phases s shards).
  Qed.
  Theorem sane_rescored_search sortDocs sortBy o s0 nseg phases s shards log2 req order :
    valid_sort sortDocs → valid_sortBy sortBy → Init o = Some s0 →
    reachp nseg [program phases] s → returned 0 s → Forall good_phase phases →
    engine_shards sortDocs s0 only n s shards → plain_request o req →
    sane_scoring (ScoringCriteria (rqOpts req)) → usual_log2 log2 → usual_calls o murmur n (program phases) → all_arrive (length shards) order →
    ∃ full out, Search log2 sortBy req shards order = Some (mkResp (rqTokens req) false (zlen full) (Some out)) ∧
      answers_rescored log2 o n only (called murmur n (program phases)) (shard_total shards) req (quiescent s) full out.
  Proof.
    intros Hv Hvb HI Hr Hret HG Hsh Hpr Hsc Hlog Hu Ha.
    eapply (rescored_search murmur n only reqsFirst cap Hn sortDocs sortBy o s0 nseg phases s shards log2 req order); try done.
    apply sane_reproper; [done..|]. by eapply rescored_totals.
  Qed.
  Theorem sane_rescored_flight sortDocs sortBy o s0 nseg phases s shards log2 nn ccap clients tl tr ls fs a req t0 :
    valid_sort sortDocs → valid_sortBy sortBy → Init o = Some s0 →
    reachp nseg [program phases] s → returned 0 s → Forall good_phase phases →
    engine_shards sortDocs s0 only n s shards →
    frun log2 sortBy nn ccap ls (fInit nn clients tl tr shards) = Some fs → Forall read_only ls → length shards = nn →
    a ∈ fAnswers fs → fReqs fs !! faSearch a = Some (req, t0) → plain_request o req →
    sane_scoring (ScoringCriteria (rqOpts req)) → usual_log2 log2 → usual_calls o murmur n (program phases) →
    ∃ full out, faResp a = mkResp (rqTokens req) false (zlen full) (Some out) ∧
      answers_rescored log2 o n only (called murmur n (program phases)) (shard_total shards) req (quiescent s) full out.
  Proof.
    intros Hv Hvb HI Hr Hret HG Hsh Hf Hro Hl Ha Hrq Hpr Hsc Hlog Hu.
    eapply (rescored_flight murmur n only reqsFirst cap Hn sortDocs sortBy o s0 nseg phases s shards log2 nn ccap clients tl tr ls fs a req t0); try done.
    apply sane_reproper; [done..|]. by eapply rescored_totals.
  Qed.
End SaneThms.

(** * Sessions on existing files *)
Lemma current_docs_iff R R' i D : (∀ i d, rvCurrent R i d ↔ rvCurrent R' i d) → current_docs R i D → current_docs R' i D.
Proof. intros H [H1 H2]. split; [done|]. intros d. by rewrite <- H. Qed.
Lemma answers_rescored_iff log2 o n only R R' totals req settled full out : (∀ i d, rvCurrent R i d ↔ rvCurrent R' i d) →
  (∀ i id f ct a, rvVersion R i id f ct a ↔ rvVersion R' i id f ct a) → (∀ id, rvRemoved R id ↔ rvRemoved R' id) →
  answers_rescored log2 o n only R totals req settled full out → answers_rescored log2 o n only R' totals req settled full out.
Proof.
  intros H1 H2 H3 (F1 & F2 & F3 & parts & F4 & F5 & F6). split; [done|]. split; [done|]. split; [done|].
  exists parts. split; [done|]. split; [done|]. intros i part Hp. destruct (F6 i part Hp) as (D & G1 & G2 & G3 & G4).
  exists D. split; [by eapply current_docs_iff|]. split; [done|]. split.
  - intros h Hh. destruct (G3 h Hh) as (d & f & ct & a & x & A1 & A2 & A3 & A4). exists d, f, ct, a, x. split; [done|]. split; [done|]. split; [by apply H2|done].
  - intros Hs d Hd Hw Hr Hk. apply (G4 Hs d Hd Hw); [by rewrite H3|]. intros f ct a x Hv. apply (Hk f ct a x). by apply H2.
Qed.
Lemma rescores_proper_iff log2 o R R' totals req : (∀ i d, rvCurrent R i d ↔ rvCurrent R' i d) →
  (∀ i id f ct a, rvVersion R i id f ct a ↔ rvVersion R' i id f ct a) → rescores_proper log2 o R totals req → rescores_proper log2 o R' totals req.
Proof.
  intros H1 H2 H i D d f ct a x HD Hd Hw Hv Hx. apply (H i D d f ct a x); [|done|done|by apply H2|done].
  eapply current_docs_iff; [|exact HD]. intros; by rewrite H1.
Qed.

Section RescoredSession.
  Context (murmur : string → Z) (n : Z) (only reqsFirst : bool) (cap : chan → nat) (Hn : 1 <= n < 2^32).
  Context (accepts : string → string → bool) (encode : DocData → option string) (nS : Z) (HnS : 1 <= nS < 2^32) (reqsFirst2 : bool).
  Context (iter : kv → list (string * string)) (Hiter : valid_iter iter) (decode : string → DocData * bool)
    (X : Ext) (stop : gset string) (o : SegOpts) (HX : valid_range X).
  Notation sreachp := (session_reach murmur n only reqsFirst cap accepts encode nS reqsFirst2).
  Context (sortDocs : list DocIndex → list DocIndex) (io : IndexerOpts) (s0 : Indexer) (nseg : nat) (recs : list (list ecall)) (dbs : Z → kv)
    (ph1 : list wcall) (rest : list (list wcall)) (s : wstate) (shards : list Shard).
  Context (Hv : valid_sort sortDocs) (HI : Init io = Some s0) (Hpl : placed murmur nS dbs) (Hz : SpecLife.no_zero nS dbs)
    (Hp : recoverProgs iter decode X stop o nS dbs = Some recs)
    (Hg : Forall (λ ph, good_phase (pipeProg ph)) (ph1 :: rest)) (Hf : fresh_ids murmur nS dbs ph1)
    (Hr : sreachp nseg recs [wprogram (ph1 :: rest)] s) (Hret : wreturned 0 s)
    (Hsh : engine_shards sortDocs s0 only n (pipePart s) shards).
  Notation cs := (mjoin recs ++ pipeProg (wprogram (ph1 :: rest))).
  Notation RS := (in_session murmur n nS decode X stop o dbs (wprogram (ph1 :: rest))).

  Lemma rses_staged : ∃ q, pipe_reach murmur n only reqsFirst cap nseg ([pipeProg (wprogram (ph1 :: rest))] ++ recs) q ∧ (pipe_rest s → quiescent q) ∧
    mjoin ([pipeProg (wprogram (ph1 :: rest))] ++ recs) ≡ₚ program (phases_after recs ph1 rest) ∧
    Forall good_phase (phases_after recs ph1 rest) ∧
    (∀ i, 0 <= i < n → blocks murmur n i (phases_after recs ph1 rest) (ixCalls i (sLog q))) ∧
    engine_shards sortDocs s0 only n q shards.
  Proof.
    destruct (recs_write murmur nS HnS iter Hiter decode X stop o HX dbs recs Hpl Hz Hp) as (Hw & _).
    destruct (session_staged murmur n only reqsFirst cap Hn accepts encode nS reqsFirst2 nseg recs ph1 rest s)
      as (p & q & l & _ & _ & Hq & _ & El & _ & Hst & Hk & Hqq); [done| |done|].
    { apply Forall_fmap. eapply Forall_impl; [exact Hg|]. by intros ? [? _]. }
    exists q. split; [done|]. split; [apply Hqq; by eapply session_all|]. split.
    { rewrite program_after, mjoin_app, one_prog. apply Permutation_app_comm. }
    split.
    { apply Forall_cons in Hg as [Hg1 Hgr]. constructor; [by eapply fresh_phase|by apply Forall_fmap]. }
    split.
    - intros i Hi. eapply staged_end; [exact Hst|by apply Hk|done].
    - by apply (shards_pipe _ _ _ _ q) in Hsh.
  Qed.
  Theorem rses_search sortBy log2 req order : valid_sortBy sortBy → plain_request io req →
    rescores_proper log2 io RS (shard_total shards) req → all_arrive (length shards) order →
    ∃ full out, Search log2 sortBy req shards order = Some (mkResp (rqTokens req) false (zlen full) (Some out)) ∧
      answers_rescored log2 io n only RS (shard_total shards) req (pipe_rest s) full out.
  Proof.
    intros Hvb Hreq Hnan Ha. destruct rses_staged as (q & Hq & Hqq & HP & HG & HB & Hs).
    destruct (session_called murmur n nS HnS iter Hiter decode X stop o HX dbs recs (wprogram (ph1 :: rest)) Hpl Hz Hp) as (E1 & E2 & E3).
    destruct (rs_search murmur n only reqsFirst cap Hn sortDocs io s0 nseg _ _ q shards (pipe_rest s) Hv HI Hq Hqq HP HG HB Hs sortBy log2 req order Hvb Hreq) as (full & out & H1 & H2); [|done|].
    { rewrite program_after. eapply rescores_proper_iff; [..|exact Hnan]; intros; [by rewrite E1|by rewrite E2]. }
    exists full, out. split; [done|]. rewrite program_after in H2. eapply answers_rescored_iff; [..|exact H2]; done.
  Qed.
  Theorem rses_flight sortBy log2 nn ccap clients tl tr ls fs a req t0 : valid_sortBy sortBy →
    frun log2 sortBy nn ccap ls (fInit nn clients tl tr shards) = Some fs → Forall read_only ls → length shards = nn →
    a ∈ fAnswers fs → fReqs fs !! faSearch a = Some (req, t0) → plain_request io req →
    rescores_proper log2 io RS (shard_total shards) req →
    ∃ full out, faResp a = mkResp (rqTokens req) false (zlen full) (Some out) ∧
      answers_rescored log2 io n only RS (shard_total shards) req (pipe_rest s) full out.
  Proof.
    intros Hvb Hfr Hro Hl Ha Hrq Hreq Hnan. destruct rses_staged as (q & Hq & Hqq & HP & HG & HB & Hs).
    destruct (session_called murmur n nS HnS iter Hiter decode X stop o HX dbs recs (wprogram (ph1 :: rest)) Hpl Hz Hp) as (E1 & E2 & E3).
    destruct (rs_flight murmur n only reqsFirst cap Hn sortDocs io s0 nseg _ _ q shards (pipe_rest s) Hv HI Hq Hqq HP HG HB Hs
      sortBy log2 nn ccap clients tl tr ls fs a req t0 Hvb Hfr Hro Hl Ha Hrq Hreq) as (full & out & H1 & H2).
    { rewrite program_after. eapply rescores_proper_iff; [..|exact Hnan]; intros; [by rewrite E1|by rewrite E2]. }
    exists full, out. split; [done|]. rewrite program_after in H2. eapply answers_rescored_iff; [..|exact H2]; done.
  Qed.
  Theorem rses_total i D : 0 <= i < n → current_docs RS i D → total_now (shard_total shards i) (shard_docs murmur n i cs) D.
  Proof.
    intros Hi HD. destruct rses_staged as (q & Hq & Hqq & HP & HG & HB & Hs).
    destruct (session_called murmur n nS HnS iter Hiter decode X stop o HX dbs recs (wprogram (ph1 :: rest)) Hpl Hz Hp) as (E1 & E2 & E3).
    assert (Hlt : (Z.to_nat i < length shards)%nat). { destruct Hsh as [Hl _]. unfold zlen in Hl. lia. }
    apply lookup_lt_is_Some in Hlt as [sh Hls]. unfold shard_total. rewrite Hls.
    replace i with (Z.of_nat (Z.to_nat i)) in HD |- * by lia. rewrite <- (program_after recs ph1 rest).
    eapply (rs_total murmur n only Hn sortDocs io s0 _ q shards); try done.
    rewrite program_after. eapply current_docs_iff; [|exact HD]. intros; by rewrite E1.
  Qed.
  (** With a criterion that gives numbers to usual documents *)
  Theorem rses_sane_search sortBy log2 req order : valid_sortBy sortBy → plain_request io req →
    sane_scoring (ScoringCriteria (rqOpts req)) → usual_log2 log2 → usual_calls io murmur n cs → all_arrive (length shards) order →
    ∃ full out, Search log2 sortBy req shards order = Some (mkResp (rqTokens req) false (zlen full) (Some out)) ∧
      answers_rescored log2 io n only RS (shard_total shards) req (pipe_rest s) full out.
  Proof.
    intros Hvb Hreq Hsc Hlog Hu. apply rses_search; [done..|].
    destruct (session_called murmur n nS HnS iter Hiter decode X stop o HX dbs recs (wprogram (ph1 :: rest)) Hpl Hz Hp) as (E1 & E2 & E3).
    eapply rescores_proper_iff; [exact E1|exact E2|]. apply sane_reproper; [done..|].
    intros i D Hi HD. apply rses_total; [done|]. by eapply current_docs_iff.
  Qed.
End RescoredSession.
