(** Proofs about the scores of a search over the whole engine. *)
From Verif Require Import ModelPipe ModelEngine ModelFlight ModelScoring SpecIndexer SpecSearch SpecLogic SpecTotal SpecRank SpecRoute SpecPipe SpecEngine SpecFlight SpecEnd SpecFits SpecProx SpecBM25 SpecScored
  ProofHistory ProofIxThms ProofIxMap ProofSearchThms ProofTotal ProofRanker ProofRoute ProofPipe ProofBlocks ProofFlushThms ProofEngine ProofFlightCrash ProofFits ProofEnd ProofReserved ProofFloat ProofMag ProofBM25.

Lemma NoDup_same_length {A} (l k : list A) : NoDup l → NoDup k → (∀ x, x ∈ l ↔ x ∈ k) → zlen l = zlen k.
Proof. intros H1 H2 H. unfold zlen. f_equal. apply Permutation_length. by apply NoDup_Permutation. Qed.

Lemma filter_sublist {A} (P : A → Prop) `{∀ x, Decision (P x)} (l : list A) : filter P l `sublist_of` l.
Proof. induction l as [|x l IH]; [constructor|]. rewrite filter_cons. case_decide; by constructor. Qed.
Lemma shard_docs_elem murmur n i cs d : d ∈ shard_docs murmur n i cs ↔ indexed_in murmur n i cs (DocId d) d.
Proof.
  unfold shard_docs, indexed_in. rewrite elem_of_list_omap. split.
  - intros (c & Hc & E). destruct c as [e f ct a fo|id' fo|]; [|done..]. unfold shard_for in E.
    destruct (Z.eqb_spec (u32 (murmur (String.append (DocId e) ct)) `mod` n) i) as [Ei|]; [|done]. injection E as ->. by exists f, ct, a, fo.
  - intros (f & ct & a & fo & Hc & _ & Ei). exists (EIndex d f ct a fo). split; [done|]. unfold shard_for. by rewrite Ei, Z.eqb_refl.
Qed.
Lemma shard_docs_ids murmur n i cs id : id ∈ DocId <$> shard_docs murmur n i cs → id ∈ omap call_id cs.
Proof.
  intros (d & -> & (f & ct & a & fo & Hc & _)%shard_docs_elem)%elem_of_list_fmap. apply elem_of_list_omap. by exists (EIndex d f ct a fo).
Qed.
Lemma shard_docs_cons murmur n i c cs : shard_docs murmur n i (c :: cs) = shard_docs murmur n i [c] ++ shard_docs murmur n i cs.
Proof. unfold shard_docs. by rewrite <- omap_app. Qed.
Lemma shard_docs_NoDup murmur n i cs : NoDup (omap call_id cs) → NoDup (DocId <$> shard_docs murmur n i cs).
Proof.
  induction cs as [|c cs IH]; intros HN; [constructor|].
  rewrite shard_docs_cons, fmap_app.
  assert (HN' : NoDup (omap call_id cs)). { cbn in HN. destruct (call_id c); [by apply NoDup_cons in HN as [_ ?]|done]. }
  apply NoDup_app. split; [|split; [|by apply IH]].
  - unfold shard_docs. cbn. destruct c as [e f ct a fo|id' fo|]; [|constructor..]. destruct (_ =? _); cbn; [apply NoDup_singleton|constructor].
  - intros id H1%shard_docs_ids H2%shard_docs_ids. cbn in HN. cbn in H1. destruct (call_id c); [|by apply elem_of_nil in H1].
    apply elem_of_list_singleton in H1 as ->. by apply NoDup_cons in HN as [? _].
Qed.
Lemma shard_docs_tidied murmur n i cs : shard_docs murmur n i (tidied cs) = shard_docs murmur n i (ordinary cs).
Proof.
  induction cs as [|c cs IH]; [done|]. rewrite tidied_cons, ordinary_cons.
  assert (HA : ∀ l k, shard_docs murmur n i (l ++ k) = shard_docs murmur n i l ++ shard_docs murmur n i k) by (intros; unfold shard_docs; by rewrite omap_app).
  rewrite HA, IH. destruct (tidy_cases c) as [[-> ->]|(d' & f' & ct' & a' & fo' & -> & Hd & -> & ->)]; [by rewrite (shard_docs_cons _ _ _ c (ordinary cs))|].
  by destruct fo'.
Qed.

Lemma sum_len_list zl l : NoDup (DocId <$> l) → sum_len zl (list_to_map ((λ d, (DocId d, d)) <$> l)) = foldr Z.add 0 (zl <$> l).
Proof.
  induction l as [|d l IH]; intros HN; [done|]. apply NoDup_cons in HN as [Hd HN]. rewrite fmap_cons, list_to_map_cons. cbn [fst snd].
  rewrite sum_len_insert; [|].
  - rewrite fmap_cons. cbn [foldr]. by rewrite IH.
  - apply not_elem_of_list_to_map_1. rewrite <- list_fmap_compose. exact Hd.
Qed.

Section Scored.
  Context (murmur : string → Z) (n : Z) (only reqsFirst : bool) (cap : chan → nat) (Hn : 1 <= n < 2 ^ 32).

  Lemma added_len_stream zl i cs : "0" ∉ omap call_id cs →
    added_len zl (ixStream murmur n i cs) = foldr Z.add 0 (zl <$> shard_docs murmur n i cs).
  Proof.
    induction cs as [|c cs IH]; intros H0; [done|].
    assert (H0' : "0" ∉ omap call_id cs). { intros H. apply H0. cbn. destruct (call_id c); [by right|done]. }
    change (ixStream murmur n i (c :: cs)) with (ixMsgs murmur n i c ++ ixStream murmur n i cs).
    rewrite shard_docs_cons, fmap_app, foldr_app, <- IH by done. unfold added_len at 1. rewrite foldr_app. fold (added_len zl (ixStream murmur n i cs)).
    destruct c as [d f ct a fo|id' fo|]; [|done..]. cbn [ixMsgs].
    assert (Hd : seqb (DocId d) "0" = false). { apply seqb_neq. intros E. apply H0. cbn. rewrite E. by left. }
    rewrite Hd, (shardOf_mod murmur n _ _ Hn). unfold shard_docs, shard_for. cbn [omap list_omap].
    destruct (_ =? i); [done|]. by destruct fo.
  Qed.
  Lemma added_len_perm zl (l k : list op) : l ≡ₚ k → added_len zl l = added_len zl k.
  Proof. unfold added_len. induction 1 as [|x l k _ IH|x y l|l k m _ IH1 _ IH2]; cbn; [done| | |congruence].
    - by rewrite IH.
    - destruct x as [[?|] ?|], y as [[?|] ?|]; lia. Qed.

  Section Rest.
    Context (sortDocs : list DocIndex → list DocIndex) (o : IndexerOpts) (s0 : Indexer).
    Context (cs : list ecall) (s : pstate) (shards : list Shard).
    Context (Hv : valid_sort sortDocs) (HI : Init o = Some s0).
    Context (Hcalls : handled murmur n only cs s).
    Context (Hg : Forall (λ c, good_call c ∧ call_id c ≠ Some "0") cs).
    Context (Hnd : NoDup (omap call_id cs)).
    Context (Hsh : engine_shards sortDocs s0 only n s shards) (Hw : Forall nothing_waits shards).

    Lemma indexed_same i j id d d' : indexed_in murmur n i cs id d → indexed_in murmur n j cs id d' → d = d'.
    Proof.
      intros (f & ct & a & fo & Hc & E & _) (f' & ct' & a' & fo' & Hc' & E' & _).
      assert (EE : EIndex d f ct a fo = EIndex d' f' ct' a' fo'); [|by injection EE].
      eapply (omap_inj call_id); [exact Hnd|done|done|reflexivity|]. cbn. congruence.
    Qed.
    Lemma no_zero : "0" ∉ omap call_id cs.
    Proof. intros (c & Hc & E)%elem_of_list_omap. rewrite Forall_forall in Hg. by destruct (Hg c Hc) as [_ ?]. Qed.
    Lemma added_indexed (i : nat) d : 0 <= Z.of_nat i < n → added d (ixCalls (Z.of_nat i) (sLog s)) → indexed_in murmur n (Z.of_nat i) cs (DocId d) d.
    Proof.
      intros Hi [f Hf]. destruct (Hcalls (Z.of_nat i) Hi) as [Hp _]. rewrite Hp in Hf.
      apply ixStream_adds in Hf as (fl & ct & a & Hc & _ & Hs). exists fl, ct, a, f. split; [done|]. split; [done|]. by rewrite <- shardOf_mod.
    Qed.
    (** What an indexer holds, is told by the calls. *)
    Lemma map_calls (i : nat) sh M : shards !! i = Some sh → shows (shIx sh) M →
      (∀ id d, M !! id = Some d → added d (ixCalls (Z.of_nat i) (sLog s))) →
      ∀ id d, M !! id = Some d ↔ indexed_in murmur n (Z.of_nat i) cs id d.
    Proof.
      intros H HM HA. pose proof (shard_index n only sortDocs s0 s shards Hsh i sh H) as Hi.
      assert (HF : ∀ id d, M !! id = Some d → indexed_in murmur n (Z.of_nat i) cs id d).
      { intros id d Hd. rewrite <- (proj1 (proj2 HM) _ _ Hd). apply added_indexed; [done|]. by eapply HA. }
      intros id d. split; [apply HF|]. intros Hx.
      destruct (shard_map murmur n only Hn sortDocs o s0 cs s shards Hv HI Hcalls Hg Hnd Hsh Hw i sh H) as (M0 & HM0 & H0).
      assert (is_Some (M !! id)) as [d' Hd']. { apply HM, HM0. exists d. by apply H0. }
      rewrite Hd'. f_equal. eapply indexed_same; [by apply HF|done].
    Qed.
    Lemma map_list (i : Z) (M : docmap) : (∀ id d, M !! id = Some d ↔ indexed_in murmur n i cs id d) →
      M = list_to_map ((λ d, (DocId d, d)) <$> shard_docs murmur n i cs).
    Proof.
      intros H. apply map_eq. intros id. apply option_eq. intros d. rewrite H.
      assert (HN : NoDup (fst <$> ((λ d, (DocId d, d)) <$> shard_docs murmur n i cs))).
      { rewrite <- list_fmap_compose. by apply shard_docs_NoDup. }
      rewrite <- (elem_of_list_to_map _ id d HN), elem_of_list_fmap. split.
      - intros Hx. exists d. assert (DocId d = id) as <- by by destruct Hx as (? & ? & ? & ? & _ & ? & _). split; [done|]. by apply shard_docs_elem.
      - intros (e & [= -> ->] & He). by apply shard_docs_elem.
    Qed.

    (** The sum of the lengths *)
    Lemma shard_sum (i : nat) sh : shards !! i = Some sh → total_length (totalTokenLen (shIx sh)) (shard_docs murmur n (Z.of_nat i) cs).
    Proof.
      intros H zl Hz Hs. pose proof (shard_index n only sortDocs s0 s shards Hsh i sh H) as Hi.
      pose proof (shard_reach murmur n only sortDocs o s0 cs s shards Hv HI Hcalls Hg Hsh i sh H) as HR.
      destruct (Hcalls (Z.of_nat i) Hi) as [Hp _].
      assert (Hbound : ∀ l, (∀ d, d ∈ l → 0 <= zl d) → ∀ d, d ∈ l → zl d <= foldr Z.add 0 (zl <$> l)).
      { clear. intros l Hl. assert (HH : 0 <= foldr Z.add 0 (zl <$> l) ∧ ∀ d, d ∈ l → zl d <= foldr Z.add 0 (zl <$> l)); [|by destruct HH].
        induction l as [|e l IH]; [split; [done|]; by intros d ?%elem_of_nil|].
        destruct IH as [I1 I2]; [intros d Hd; apply Hl; by right|]. rewrite fmap_cons. cbn [foldr].
        assert (0 <= zl e) by (apply Hl; by left). split; [lia|]. intros d [->|Hd]%elem_of_cons; [lia|]. specialize (I2 d Hd). lia. }
      destruct (C20_additions_lem sortDocs o zl _ (shIx sh) HR) as (M & D & HC & HD & ->).
      - intros d Hd. apply added_indexed in Hd; [|done]. apply shard_docs_elem in Hd. destruct (Hz d Hd) as [E1 E2]. split; [done|].
        split; [done|]. eapply Z.le_lt_trans; [|exact Hs]. apply Hbound; [|done]. intros d' Hd'. by apply Hz.
      - by rewrite (added_len_perm zl _ _ Hp), added_len_stream by apply no_zero.
      - assert (D = M) as ->.
        { pose proof (proj1 (Forall_lookup _ _) Hw i sh H) as [_ Hrc]. destruct HC as (S1 & S2 & _ & S4).
          apply map_eq. intros id. destruct (M !! id) as [d|] eqn:Ed; [by eapply lookup_weaken|].
          destruct (D !! id) as [d|] eqn:E; [|done]. destruct (proj1 (S4 id)) as [Hh|Hh]; [by eexists|..].
          - apply (proj1 S1) in Hh as [? ?]. congruence.
          - rewrite Hrc in Hh. by apply elem_of_nil in Hh. }
        f_equal. rewrite (map_list (Z.of_nat i) M); [by apply sum_len_list, shard_docs_NoDup|].
        eapply map_calls; [done|apply HC|]. intros id d Hd. by destruct (HD id d Hd).
    Qed.

    Section Req.
      Context (log2 : F → F) (req : SearchReq).
      Context (Hpl : plain_logic (Some (rqLogic req))) (Hne : rqTokens req ++ rqLabels req ≠ []).
      Context (Hloc : IndexType o = LocsIndex → rqTokens req ≠ []).
      Notation score := (ScoringCriteria (rqOpts req)).
      Notation told i sh d x := (describes log2 o (totalTokenLen (shIx sh)) (shard_docs murmur n i cs) (rqTokens req) d x).

      Lemma fields_describe (i : nat) sh M d kws x : shards !! i = Some sh → content (shIx sh) M M →
        (∀ id d, M !! id = Some d → added d (ixCalls (Z.of_nat i) (sLog s))) → hit_kws d (rqTokens req) kws →
        fields_of log2 (shIx sh) (rqTokens req) d kws x → told (Z.of_nat i) sh d x.
      Proof.
        intros H HC HA Hk (F1 & F2 & F3 & F4 & F5 & F6).
        pose proof (shard_reach murmur n only sortDocs o s0 cs s shards Hv HI Hcalls Hg Hsh i sh H) as HR.
        assert (Ho : initOptions (shIx sh) = optsInit o) by by destruct (reach_inv _ _ _ _ HR) as (? & ? & _ & ? & _).
        rewrite Ho in *. change (IndexType (optsInit o)) with (IndexType o) in *. change (BM25Parameters (optsInit o)) with (BM25Parameters o) in *.
        pose proof (map_calls i sh M H (proj1 HC) HA) as HM.
        assert (HMs : ∀ id, is_Some (M !! id) ↔ id ∈ DocId <$> shard_docs murmur n (Z.of_nat i) cs).
        { intros id. rewrite elem_of_list_fmap. split.
          - intros [e He]. exists e. pose proof (proj1 (proj2 (proj1 HC)) _ _ He) as <-. split; [done|]. by apply shard_docs_elem, HM.
          - intros (e & -> & He). exists e. by apply HM, shard_docs_elem. }
        assert (HN : numDocs (shIx sh) = zlen (shard_docs murmur n (Z.of_nat i) cs)).
        { destruct (numDocs_count _ _ _ _ HR) as (L & L1 & L2 & ->).
          rewrite (NoDup_same_length L (DocId <$> shard_docs murmur n (Z.of_nat i) cs)); [|done|by apply shard_docs_NoDup|].
          - unfold zlen. by rewrite fmap_length.
          - intros id. rewrite L2, (proj1 (proj1 HC)). apply HMs. }
        assert (HR' : ∀ k c, row_count (shIx sh) k c → c = carriers (shard_docs murmur n (Z.of_nat i) cs) k).
        { intros k c (L & L1 & L2 & ->). unfold carriers.
          rewrite (NoDup_same_length L (DocId <$> filter (λ d, k ∈ Text <$> Keywords d) (shard_docs murmur n (Z.of_nat i) cs))).
          - unfold zlen. by rewrite fmap_length.
          - done.
          - eapply sublist_NoDup; [by apply (shard_docs_NoDup murmur n (Z.of_nat i))|]. apply fmap_sublist. apply filter_sublist.
          - intros id. rewrite L2. destruct HC as (_ & _ & Hix & _). rewrite (Hix k id). unfold carries. rewrite elem_of_list_fmap. split.
            + intros (e & He & Hke). exists e. apply HM in He. assert (DocId e = id) as <- by by destruct He as (? & ? & ? & ? & _ & ? & _).
              split; [done|]. apply elem_of_list_filter. split; [done|]. by apply shard_docs_elem.
            + intros (e & -> & [Hke He]%elem_of_list_filter). exists e. split; [|done]. by apply HM, shard_docs_elem. }
        assert (HB : ∀ dfs, Forall2 (row_count (shIx sh)) (rqTokens req) dfs → dfs = carriers (shard_docs murmur n (Z.of_nat i) cs) <$> rqTokens req).
        { intros dfs. generalize (rqTokens req). clear -HR'. intros l. induction 1 as [|k c ts dfs Hc _ IH]; [done|]. rewrite fmap_cons, <- IH. f_equal. by apply HR'. }
        rewrite HN in *. exists kws. split; [done|]. split; [done|]. cbn zeta. split; [done|]. split; [done|]. split; [|split; [done|]].
        - intros E. destruct (F4 E) as (dfs & Hd & ->). by rewrite <- (HB dfs Hd).
        - intros E Hs. destruct (F6 E Hs) as ((dfs & Hd & Eb) & Hx). split; [|done]. rewrite Eb. by rewrite <- (HB dfs Hd).
      Qed.

      Definition part_told (i : nat) (sh : Shard) (p : list rop * list IndexedDoc) : Prop :=
        shard_view log2 only req sh p ∧ p.1 = rkCalls (Z.of_nat i) (sLog s) ∧ NoDup (ixDocId <$> p.2) ∧
        (∀ x, x ∈ p.2 → ∃ d, indexed_in murmur n (Z.of_nat i) cs (ixDocId x) d ∧ wanted req d ∧ told (Z.of_nat i) sh d x) ∧
        ∀ id d, indexed_in murmur n (Z.of_nat i) cs id d → wanted req d → id ∈ ixDocId <$> p.2.
      Lemma part_exists (i : nat) sh : shards !! i = Some sh → ∃ p, part_told i sh p.
      Proof.
        intros H.
        pose proof (shard_reach murmur n only sortDocs o s0 cs s shards Hv HI Hcalls Hg Hsh i sh H) as HR.
        destruct (reach_content_added _ _ _ _ HR) as (M & D & HC & HA & _ & _ & HDM).
        pose proof (proj1 (Forall_lookup _ _) Hw i sh H) as [_ Hrc]. rewrite (HDM Hrc) in *. clear D HDM Hrc.
        assert (HM : ∀ id d, M !! id = Some d ↔ indexed_in murmur n (Z.of_nat i) cs id d).
        { apply (map_calls i sh M H (proj1 HC)). intros id d Hd. by destruct (HA id d Hd). }
        destruct (search_thm _ _ _ _ log2 HR) as (M1 & S1 & A1 & HS).
        pose proof (map_calls i sh M1 H S1 A1) as HM1.
        destruct (HS (rqTokens req) (rqLabels req) (rqDocIds req) (Some (rqLogic req)) Hpl)
          as (hits & Hso & Hh & [(L1 & L2 & _)|(_ & docs & L1 & _ & Hids & Hf)]).
        { by destruct (Hloc L1). }
        exists (rkCalls (Z.of_nat i) (sLog s), docs). split.
        { split; [|split; [by apply (proj2 Hsh)|by eexists]].
          eapply handled_engine; [exact Hcalls|]. by eapply shard_index. }
        split; [done|]. cbn [snd]. rewrite Hids. split; [by apply desc_NoDup|]. split.
        - intros x Hx. destruct (Hf x Hx) as (d & kws & Hd & Hk & Hfo). exists d.
          assert (Hid : ixDocId x ∈ hits). { rewrite <- Hids. by apply elem_of_list_fmap_1. }
          apply Hh in Hid as (_ & P2 & d' & Hd' & P3). rewrite Hd in Hd'. injection Hd' as <-.
          split; [by apply HM1|]. split.
          + split; [|done]. by rewrite (proj1 (proj2 S1) _ _ Hd).
          + eapply fields_describe; [done|exact HC| |done|done]. intros id e He. by destruct (HA id e He).
        - intros id d Hd [P1 P2]. apply Hh. split; [done|].
          assert (DocId d = id) as <- by by destruct Hd as (? & ? & ? & ? & _ & ? & _). split; [done|]. exists d. split; [by apply HM1|done].
      Qed.

      Lemma hit_told i sh p h : shards !! i = Some sh → part_told i sh p → h ∈ hits only score p →
        ∃ d f ct a fo x, EIndex d f ct a fo ∈ cs ∧ u32 (murmur (String.append (DocId d) ct)) `mod` n = Z.of_nat i ∧ wanted req d ∧
          told (Z.of_nat i) sh d x ∧ score x f ≠ [] ∧ h = entry_for only score x f ct a ∧ ixDocId x = DocId d.
      Proof.
        intros Hi (_ & Hrk & _ & Hids & _) (x & Hx & He)%elem_of_list_omap.
        destruct (Hids x Hx) as (d & (f & ct & a & fo & Hc & Ed & Ei) & Hwant & Htold). rewrite <- Ed in Ei.
        exists d, f, ct, a, fo, x. split; [done|]. split; [done|]. split; [done|]. split; [done|].
        assert (H0 : DocId d ≠ "0"). { rewrite Forall_forall in Hg. destruct (Hg _ Hc) as [_ Hz]. cbn in Hz. congruence. }
        pose proof (handled_call murmur n only Hn cs s d f ct a fo Hcalls Hc H0 Hnd) as HL. rewrite Ei, Ed in HL.
        unfold expected, known in He. rewrite Hrk, HL in He. unfold entry_for.
        destruct only; cbn in He; (destruct (score x f) as [|z sc] eqn:Es; [done|]); by injection He as <-.
      Qed.
      Lemma told_hit i sh p d f ct a fo : shards !! i = Some sh → part_told i sh p → EIndex d f ct a fo ∈ cs →
        u32 (murmur (String.append (DocId d) ct)) `mod` n = Z.of_nat i → wanted req d → (∀ x, told (Z.of_nat i) sh d x → score x f ≠ []) →
        ∃ x, told (Z.of_nat i) sh d x ∧ entry_for only score x f ct a ∈ hits only score p.
      Proof.
        intros Hi (_ & Hrk & _ & Hids & Hall) Hc Ei Hwant Hacc.
        assert (Hd : indexed_in murmur n (Z.of_nat i) cs (DocId d) d) by by exists f, ct, a, fo.
        pose proof (Hall _ _ Hd Hwant) as Hxi. apply elem_of_list_fmap in Hxi as (x & Ed & Hx).
        destruct (Hids x Hx) as (d' & Hd' & _ & Ht). rewrite <- Ed in Hd'. rewrite <- (indexed_same _ _ _ _ _ Hd Hd') in Ht.
        exists x. split; [done|]. specialize (Hacc x Ht).
        assert (H0 : DocId d ≠ "0"). { rewrite Forall_forall in Hg. destruct (Hg _ Hc) as [_ Hz]. cbn in Hz. congruence. }
        pose proof (handled_call murmur n only Hn cs s d f ct a fo Hcalls Hc H0 Hnd) as HL. rewrite Ei, Ed in HL.
        apply elem_of_list_omap. exists x. split; [done|]. unfold expected, known, entry_for. rewrite Hrk, HL.
        destruct only; cbn; by destruct (score x f).
      Qed.

      Lemma scored_view : scores_proper log2 o murmur n cs (shard_total shards) req →
        ∃ parts, Forall2 (shard_view log2 only req) shards parts ∧ no_nan (all_hits only score parts) ∧
          ∀ full out, full ≡ₚ all_hits only score parts → in_order (ReverseOrder (rqOpts req)) full →
            Forall2 same_scores out (page (OutputOffset (rqOpts req)) (MaxOutputs (rqOpts req)) full) → out ⊆+ full →
            answers_scored log2 o murmur n only cs (shard_total shards) req full out.
      Proof.
        intros Hnan. destruct (choice_list shards part_told part_exists) as (parts & Hlen & HP).
        assert (HP' : ∀ i p, parts !! i = Some p → ∃ sh, shards !! i = Some sh ∧ part_told i sh p).
        { intros i p Hp. pose proof (lookup_lt_Some _ _ _ Hp) as Hlt. rewrite Hlen in Hlt.
          apply lookup_lt_is_Some in Hlt as [sh Hs]. eauto. }
        assert (Hmem : ∀ h, h ∈ all_hits only score parts ↔ ∃ i p, parts !! i = Some p ∧ h ∈ hits only score p).
        { intros h. unfold all_hits. rewrite elem_of_list_join. split.
          - intros (l & Hh & (p & -> & Hp)%elem_of_list_fmap). apply elem_of_list_lookup in Hp as [i Hi]. eauto.
          - intros (i & p & Hp & Hh). exists (hits only score p). split; [done|]. apply elem_of_list_fmap_1. by eapply elem_of_list_lookup_2. }
        assert (Htot : ∀ (i : nat) sh, shards !! i = Some sh → shard_total shards (Z.of_nat i) = totalTokenLen (shIx sh)).
        { intros i sh Hi. unfold shard_total. by rewrite Nat2Z.id, Hi. }
        exists parts. split; [|split].
        - apply Forall2_same_length_lookup_2; [done|]. intros i sh p Hs Hp. by destruct (HP i sh p Hs Hp).
        - apply Forall_forall. intros h (i & p & Hp & Hh)%Hmem. destruct (HP' i p Hp) as (sh & Hs & Hok).
          destruct (hit_told i sh p h Hs Hok Hh) as (d & f & ct & a & fo & x & Hc & Ei & Hwn & Ht & _ & -> & _).
          apply (Hnan d f ct a fo x Hc Hwn). cbn zeta. unfold shard_for. by rewrite Ei, (Htot i sh Hs).
        - intros full out HF O1 O2 O3. do 3 (split; [done|]). split; [|split].
          + rewrite HF. unfold all_hits. rewrite mjoin_fmap_ids.
            apply NoDup_mjoin.
            * intros i l (p & -> & Hp)%list_lookup_fmap_inv. destruct (HP' i p Hp) as (sh & Hs & _ & _ & HN & _).
              destruct (hits_ids only req p) as (l & Hl & ->). eapply sublist_NoDup; [exact HN|]. by apply fmap_sublist.
            * intros i j l l' id (p & -> & Hp)%list_lookup_fmap_inv (p' & -> & Hp')%list_lookup_fmap_inv
                (h & -> & Hh)%elem_of_list_fmap (h' & Eh & Hh')%elem_of_list_fmap.
              destruct (HP' i p Hp) as (sh & Hs & Hok). destruct (HP' j p' Hp') as (sh' & Hs' & Hok').
              destruct (hit_told i sh p h Hs Hok Hh) as (d & f & ct & a & fo & x & Hc & Ei & _ & _ & _ & -> & Ed).
              destruct (hit_told j sh' p' h' Hs' Hok' Hh') as (d' & f' & ct' & a' & fo' & x' & Hc' & Ei' & _ & _ & _ & -> & Ed').
              cbn in Eh. assert (EE : EIndex d f ct a fo = EIndex d' f' ct' a' fo').
              { eapply (omap_inj call_id); [exact Hnd|done|done|cbn; reflexivity|]. cbn. congruence. }
              injection EE as -> -> -> -> ->. rewrite Ei in Ei'. lia.
          + intros h Hh. rewrite HF in Hh. apply Hmem in Hh as (i & p & Hp & Hh). destruct (HP' i p Hp) as (sh & Hs & Hok).
            destruct (hit_told i sh p h Hs Hok Hh) as (d & f & ct & a & fo & x & Hc & Ei & Hwn & Ht & Hsc & -> & _).
            exists d, f, ct, a, fo, x. split; [done|]. split; [done|]. split; [|done]. unfold shard_for. by rewrite Ei, (Htot i sh Hs).
          + intros d f ct a fo Hc Hwn Hacc.
            set (i := u32 (murmur (String.append (DocId d) ct)) `mod` n).
            assert (Hi : 0 <= i < n) by (apply Z.mod_pos_bound; lia).
            assert (Hlt : (Z.to_nat i < length shards)%nat). { destruct Hsh as [Hl _]. unfold zlen in Hl. lia. }
            apply lookup_lt_is_Some in Hlt as [sh Hs].
            assert (Hlt : (Z.to_nat i < length parts)%nat). { rewrite Hlen. by apply lookup_lt_Some in Hs. }
            apply lookup_lt_is_Some in Hlt as [p Hp].
            assert (Ei : i = Z.of_nat (Z.to_nat i)) by lia.
            destruct (told_hit (Z.to_nat i) sh p d f ct a fo Hs (HP _ _ _ Hs Hp) Hc) as (x & Hx & Hsc); [|done| |].
            { fold i. lia. }
            { intros x Hx. apply Hacc. unfold shard_for. fold i. rewrite Ei, (Htot _ _ Hs). done. }
            exists x. split; [|rewrite HF; apply Hmem; eauto]. unfold shard_for. fold i. rewrite Ei, (Htot _ _ Hs). done.
      Qed.
    End Req.
  End Rest.

  Lemma answers_scored_tidied log2 o cs totals req full out :
    answers_scored log2 o murmur n only (tidied cs) totals req full out → answers_scored log2 o murmur n only (ordinary cs) totals req full out.
  Proof.
    intros (A1 & A2 & A3 & A4 & A5 & A6). do 4 (split; [done|]). cbn beta zeta in *. split.
    - intros h Hh. destruct (A5 h Hh) as (d & f & ct & a & fo & x & Hc & Hx). rewrite shard_docs_tidied in Hx.
      exists d, f, ct, a, fo, x. split; [by apply tidied_index|done].
    - intros d f ct a fo Hc. pose proof (A6 d f ct a fo) as H. rewrite shard_docs_tidied in H. apply H. by apply tidied_index.
  Qed.

  Lemma scores_proper_tidied log2 o cs totals req :
    scores_proper log2 o murmur n (ordinary cs) totals req → scores_proper log2 o murmur n (tidied cs) totals req.
  Proof.
    intros H d f ct a fo x Hc Hwn Ht. apply tidied_index in Hc. apply (H d f ct a fo x Hc Hwn). cbn zeta in *. by rewrite <- shard_docs_tidied.
  Qed.

  Theorem scored_search sortDocs sortBy o s0 nseg progs s shards log2 req order :
    valid_sort sortDocs → valid_sortBy sortBy → Init o = Some s0 →
    pipe_reach murmur n only reqsFirst cap nseg progs s → quiescent s → once_each (ordinary (mjoin progs)) →
    engine_shards sortDocs s0 only n s shards → Forall nothing_waits shards →
    plain_request o req → scores_proper log2 o murmur n (ordinary (mjoin progs)) (shard_total shards) req → all_arrive (length shards) order →
    ∃ full out, Search log2 sortBy req shards order = Some (mkResp (rqTokens req) false (zlen full) (Some out)) ∧
      answers_scored log2 o murmur n only (ordinary (mjoin progs)) (shard_total shards) req full out.
  Proof.
    intros Hv Hvb HI Hr Hq Ho Hsh Hw (Hrk & Ht & (P1 & P2 & P3) & Hpl & Hne & Hloc) Hnan Ha.
    destruct (tidied_once _ Ho) as [Hg Hnd].
    assert (Hh : handled murmur n only (tidied (mjoin progs)) s). { apply tidied_handled. by eapply quiescent_handled. }
    destruct (scored_view sortDocs o s0 _ s shards Hv HI Hh Hg Hnd Hsh Hw log2 req Hpl Hne Hloc (scores_proper_tidied _ _ _ _ _ Hnan)) as (parts & H1 & H2 & H3).
    destruct (C32_lem log2 sortBy only req shards parts order Hvb H2 H1 Hrk Ht P1 P2 P3 Ha) as (full & out & F1 & F2 & F3 & F4 & F5).
    exists full, out. split; [done|]. apply answers_scored_tidied. by apply H3.
  Qed.
  Theorem scored_flight sortDocs sortBy o s0 nseg progs s shards log2 nn ccap clients tl tr ls fs a req t0 :
    valid_sort sortDocs → valid_sortBy sortBy → Init o = Some s0 →
    pipe_reach murmur n only reqsFirst cap nseg progs s → quiescent s → once_each (ordinary (mjoin progs)) →
    engine_shards sortDocs s0 only n s shards → Forall nothing_waits shards →
    frun log2 sortBy nn ccap ls (fInit nn clients tl tr shards) = Some fs → Forall read_only ls → length shards = nn →
    a ∈ fAnswers fs → fReqs fs !! faSearch a = Some (req, t0) →
    plain_request o req → scores_proper log2 o murmur n (ordinary (mjoin progs)) (shard_total shards) req →
    ∃ full out, faResp a = mkResp (rqTokens req) false (zlen full) (Some out) ∧
      answers_scored log2 o murmur n only (ordinary (mjoin progs)) (shard_total shards) req full out.
  Proof.
    intros Hv Hvb HI Hr Hq Ho Hsh Hw Hf Hro Hl Ha Hrq (Hrk & Ht & Hpg & Hpl & Hne & Hloc) Hnan.
    destruct (tidied_once _ Ho) as [Hg Hnd].
    assert (Hh : handled murmur n only (tidied (mjoin progs)) s). { apply tidied_handled. by eapply quiescent_handled. }
    destruct (scored_view sortDocs o s0 _ s shards Hv HI Hh Hg Hnd Hsh Hw log2 req Hpl Hne Hloc (scores_proper_tidied _ _ _ _ _ Hnan)) as (parts & H1 & H2 & H3).
    destruct (global_lem _ _ _ _ _ _ _ _ _ _ _ only parts _ _ Hvb Hf Hro Hl Ha Hrq H1 H2 Hrk Ht Hpg) as (full & out & F1 & F2 & F3 & F4 & F5).
    exists full, out. split; [done|]. apply answers_scored_tidied. by apply H3.
  Qed.
  Theorem scored_totals sortDocs o s0 nseg progs s shards i :
    valid_sort sortDocs → Init o = Some s0 →
    pipe_reach murmur n only reqsFirst cap nseg progs s → quiescent s → once_each (ordinary (mjoin progs)) →
    engine_shards sortDocs s0 only n s shards → Forall nothing_waits shards → 0 <= i < n →
    total_length (shard_total shards i) (shard_docs murmur n i (ordinary (mjoin progs))).
  Proof.
    intros Hv HI Hr Hq Ho Hsh Hw Hi. destruct (tidied_once _ Ho) as [Hg Hnd].
    assert (Hh : handled murmur n only (tidied (mjoin progs)) s). { apply tidied_handled. by eapply quiescent_handled. }
    assert (Hlt : (Z.to_nat i < length shards)%nat). { destruct Hsh as [Hl _]. unfold zlen in Hl. lia. }
    apply lookup_lt_is_Some in Hlt as [sh Hs]. unfold shard_total. rewrite Hs, <- shard_docs_tidied.
    replace i with (Z.of_nat (Z.to_nat i)) by lia. by eapply (shard_sum sortDocs o s0 _ s shards).
  Qed.

  (** * The default criterion *)
  Lemma described_score log2 o total D tokens d x : (∀ p, BM25Parameters o = Some p → usual p) → usual_log2 log2 →
    d ∈ D → usual_doc d → zlen D < 2 ^ 63 → nn total → fin total → describes log2 o total D tokens d x → a_score (BM25 x).
  Proof.
    intros Hp Hlog Hd [Hul Huk] HN Ht Htf (kws & Hk & _ & F1 & F2 & F3 & F4 & F5). apply score_nn.
    assert (HNp : 0 < zlen D). { destruct D; [by apply elem_of_nil in Hd|]. rewrite zlen_cons. pose proof (zlen_nonneg D). lia. }
    assert (Hbm : nn (bm25_value log2 (BM25Parameters o) (zlen D) (f32_div total (f32_of_Z (zlen D))) (doc_len d)
                        (zip (carriers D <$> tokens) (tf (IndexType o) <$> kws)))).
    { apply value_nn; [done|done|lia|done|done|by apply doc_len_below|]. clear -Hk Huk HN Hd.
      induction Hk as [|t kw ts kws [Hkd Hkt] _ IH]; [constructor|]. cbn [fmap list_fmap zip zip_with]. constructor; [|exact IH].
      cbn [fst snd]. rewrite Forall_forall in Huk. destruct (Huk kw Hkd) as [Hf1 Hf2]. split; [|by apply tf_below].
      assert (Hin : d ∈ filter (λ e, t ∈ Text <$> Keywords e) D).
      { apply elem_of_list_filter. split; [|done]. apply elem_of_list_fmap. by exists kw. }
      unfold carriers. pose proof (sublist_length _ _ (filter_sublist (λ e, t ∈ Text <$> Keywords e) D)) as Hl.
      destruct (filter (λ e, t ∈ Text <$> Keywords e) D) as [|e l]; [by apply elem_of_nil in Hin|].
      unfold zlen in *. cbn [length] in *. lia. }
    destruct (Z.eq_dec (IndexType o) LocsIndex) as [E|E].
    - destruct (decide (Exists (λ kw, Starts kw = []) kws)) as [Hx|Hx].
      + by rewrite (F4 E Hx).
      + apply not_Exists_Forall in Hx; [|intros kw; apply _]. destruct (F5 E Hx) as [-> _]. done.
    - destruct (Z.eq_dec (IndexType o) FrequenciesIndex) as [E2|E2]; [by rewrite (F3 E2)|by rewrite (F2 E E2)].
  Qed.
  Lemma shard_docs_length i cs : zlen (shard_docs murmur n i cs) <= zlen cs.
  Proof.
    unfold zlen, shard_docs. apply inj_le. induction cs as [|c cs IH]; [done|]. cbn [omap list_omap].
    destruct c as [d f ct a fo|id' fo|]; [destruct (_ =? _)|..]; cbn [length]; lia.
  Qed.
  Lemma sane_proper log2 o cs totals req :
    usual_log2 log2 → usual_calls o murmur n cs → sane_scoring (ScoringCriteria (rqOpts req)) →
    (∀ i, 0 <= i < n → total_length (totals i) (shard_docs murmur n i cs)) →
    scores_proper log2 o murmur n cs totals req.
  Proof.
    intros Hlog (Hp & Hlen & Hd & zl & Hz & Hs) Hsc Htot d f ct a fo x Hc _ Hx. apply Hsc. cbn zeta in Hx. set (i := shard_for murmur n (DocId d) ct) in *.
    assert (Hi : 0 <= i < n) by (apply Z.mod_pos_bound; lia).
    assert (Hin : d ∈ shard_docs murmur n i cs). { apply shard_docs_elem. by exists f, ct, a, fo. }
    assert (Hzl : ∀ e, e ∈ shard_docs murmur n i cs → TokenLen e = f32_of_Z (zl e) ∧ 0 <= zl e).
    { intros e (f' & ct' & a' & fo' & He & _)%shard_docs_elem. by eapply Hz. }
    pose proof (Htot i Hi zl Hzl (Hs i Hi)) as Et.
    assert (H0 : 0 <= foldr Z.add 0 (zl <$> shard_docs murmur n i cs)).
    { clear -Hzl. induction (shard_docs murmur n i cs) as [|e l IH]; [done|]. rewrite fmap_cons. cbn [foldr].
      assert (0 <= zl e) by (apply Hzl; by left). assert (0 <= foldr Z.add 0 (zl <$> l)); [|lia]. apply IH. intros e' He'. apply Hzl. by right. }
    destruct (of_Z_nn (foldr Z.add 0 (zl <$> shard_docs murmur n i cs))) as [N1 N2]; [specialize (Hs i Hi); lia|]. rewrite <- Et in N1, N2.
    pose proof (shard_docs_length i cs).
    apply (described_score log2 o (totals i) (shard_docs murmur n i cs) (rqTokens req) d x Hp Hlog Hin); [by eapply Hd|lia|done..].
  Qed.
  Lemma default_proper log2 o cs totals req :
    usual_log2 log2 → usual_calls o murmur n cs → ScoringCriteria (rqOpts req) = RankByBM25 →
    (∀ i, 0 <= i < n → total_length (totals i) (shard_docs murmur n i cs)) →
    scores_proper log2 o murmur n cs totals req.
  Proof. intros Hlog Hu Hsc. apply sane_proper; [done|done|]. rewrite Hsc. intros x f [H _]. by constructor; [|constructor]. Qed.
  Theorem sane_search sortDocs sortBy o s0 nseg progs s shards log2 req order :
    valid_sort sortDocs → valid_sortBy sortBy → Init o = Some s0 →
    pipe_reach murmur n only reqsFirst cap nseg progs s → quiescent s → once_each (ordinary (mjoin progs)) →
    engine_shards sortDocs s0 only n s shards → Forall nothing_waits shards →
    plain_request o req → sane_scoring (ScoringCriteria (rqOpts req)) → usual_log2 log2 → usual_calls o murmur n (ordinary (mjoin progs)) →
    all_arrive (length shards) order →
    ∃ full out, Search log2 sortBy req shards order = Some (mkResp (rqTokens req) false (zlen full) (Some out)) ∧
      answers_scored log2 o murmur n only (ordinary (mjoin progs)) (shard_total shards) req full out.
  Proof.
    intros Hv Hvb HI Hr Hq Ho Hsh Hw Hrq Hsc Hlog Hu Ha. eapply scored_search; [done..| |done].
    apply sane_proper; [done..|]. intros i Hi. by eapply scored_totals.
  Qed.
  Theorem default_search sortDocs sortBy o s0 nseg progs s shards log2 req order :
    valid_sort sortDocs → valid_sortBy sortBy → Init o = Some s0 →
    pipe_reach murmur n only reqsFirst cap nseg progs s → quiescent s → once_each (ordinary (mjoin progs)) →
    engine_shards sortDocs s0 only n s shards → Forall nothing_waits shards →
    plain_request o req → ScoringCriteria (rqOpts req) = RankByBM25 → usual_log2 log2 → usual_calls o murmur n (ordinary (mjoin progs)) →
    all_arrive (length shards) order →
    ∃ full out, Search log2 sortBy req shards order = Some (mkResp (rqTokens req) false (zlen full) (Some out)) ∧
      answers_scored log2 o murmur n only (ordinary (mjoin progs)) (shard_total shards) req full out.
  Proof.
    intros Hv Hvb HI Hr Hq Ho Hsh Hw Hrq Hsc Hlog Hu Ha. eapply scored_search; [done..| |done].
    apply default_proper; [done..|]. intros i Hi. by eapply scored_totals.
  Qed.
  Theorem default_flight sortDocs sortBy o s0 nseg progs s shards log2 nn ccap clients tl tr ls fs a req t0 :
    valid_sort sortDocs → valid_sortBy sortBy → Init o = Some s0 →
    pipe_reach murmur n only reqsFirst cap nseg progs s → quiescent s → once_each (ordinary (mjoin progs)) →
    engine_shards sortDocs s0 only n s shards → Forall nothing_waits shards →
    frun log2 sortBy nn ccap ls (fInit nn clients tl tr shards) = Some fs → Forall read_only ls → length shards = nn →
    a ∈ fAnswers fs → fReqs fs !! faSearch a = Some (req, t0) →
    plain_request o req → ScoringCriteria (rqOpts req) = RankByBM25 → usual_log2 log2 → usual_calls o murmur n (ordinary (mjoin progs)) →
    ∃ full out, faResp a = mkResp (rqTokens req) false (zlen full) (Some out) ∧
      answers_scored log2 o murmur n only (ordinary (mjoin progs)) (shard_total shards) req full out.
  Proof.
    intros Hv Hvb HI Hr Hq Ho Hsh Hw Hf Hro Hl Ha Hrq Hpr Hsc Hlog Hu. eapply scored_flight; [done..|].
    apply default_proper; [done..|]. intros i Hi. by eapply scored_totals.
  Qed.
End Scored.
