(** Searches after updates and removals, with any number of segmenters. *)
From Verif Require Import ModelSession ModelEngine ModelFlight SpecIndexer SpecSearch SpecLogic SpecRank SpecRoute SpecPipe SpecSegment SpecEngine SpecFlight SpecEnd SpecFits SpecUpdate SpecStore SpecLife SpecClose SpecWhole SpecSession SpecRevise
  ProofIxThms ProofIxMap ProofSearchThms ProofRanker ProofTopK ProofRoute ProofPipe ProofBlocks ProofFlush ProofFlushThms ProofEngine ProofFlightCrash ProofFits ProofEnd ProofOrder ProofUpdate ProofDuring ProofRecover ProofWhole ProofWholeThms ProofSession ProofSessionThms.

Lemma rkStream_add murmur n only i cs id f c : ROAdd id f c ∈ rkStream murmur n only i cs →
  ∃ d ct a fo, EIndex d f ct a fo ∈ cs ∧ DocId d = id ∧ shardOf murmur n id ct = i ∧ c = (if only then [] else [IStr ct; a]).
Proof.
  unfold rkStream. intros (l & Hl & (x & -> & Hx)%elem_of_list_fmap)%elem_of_list_join.
  destruct x as [d f' ct a fo|id' fo|]; cbn [rkMsgs] in Hl.
  - destruct (seqb (DocId d) "0"); [by apply elem_of_nil in Hl|].
    destruct (Z.eqb_spec (shardOf murmur n (DocId d) ct) i) as [Es|]; [|by apply elem_of_nil in Hl].
    apply elem_of_list_singleton in Hl. injection Hl as -> -> ->. by exists d, ct, a, fo.
  - destruct (seqb id' "0"); [by apply elem_of_nil in Hl|by apply elem_of_list_singleton in Hl].
  - by apply elem_of_nil in Hl.
Qed.
Lemma rkStream_rem murmur n only i cs id : RORemove id ∈ rkStream murmur n only i cs → ∃ fo, ERemove id fo ∈ cs.
Proof.
  unfold rkStream. intros (l & Hl & (x & -> & Hx)%elem_of_list_fmap)%elem_of_list_join.
  destruct x as [d f' ct a fo|id' fo|]; cbn [rkMsgs] in Hl.
  - destruct (seqb (DocId d) "0"); [by apply elem_of_nil in Hl|].
    destruct (_ =? _); [by apply elem_of_list_singleton in Hl|by apply elem_of_nil in Hl].
  - destruct (seqb id' "0"); [by apply elem_of_nil in Hl|]. apply elem_of_list_singleton in Hl. injection Hl as ->. by exists fo.
  - by apply elem_of_nil in Hl.
Qed.
Lemma last_call_elem id ops o : last_call id ops = Some o → o ∈ ops ∧ on_id id o = true.
Proof.
  rewrite last_call_on. intros H.
  assert (Ho : o ∈ filter (λ o, on_id id o = true) (reverse ops)).
  { destruct (filter _ _); [done|]. injection H as ->. by left. }
  apply elem_of_list_filter in Ho as [H1 H2]. by rewrite elem_of_reverse in H2.
Qed.
Lemma last_call_some id ops o : o ∈ ops → on_id id o = true → is_Some (last_call id ops).
Proof.
  intros Ho H. rewrite last_call_on. assert (Hf : o ∈ filter (λ o, on_id id o = true) (reverse ops)).
  { apply elem_of_list_filter. by rewrite elem_of_reverse. }
  destruct (filter _ _); [by apply elem_of_nil in Hf|by eexists].
Qed.

Section Revise.
  Context (murmur : string → Z) (n : Z) (only : bool) (Hn : 1 <= n < 2^32).

  Section Rev.
    Context (sortDocs : list DocIndex → list DocIndex) (o : IndexerOpts) (shards : list Shard) (cs : list ecall) (settled : Prop).
    Context (ixops : Z → list op) (rkops : Z → list rop).
    Context (Hlen : zlen shards = n).
    Context (Hreach : ∀ (i : nat) sh, shards !! i = Some sh → reach sortDocs o (ixops (Z.of_nat i)) (shIx sh)).
    Context (Heng : ∀ (i : nat) sh, shards !! i = Some sh →
      Forall (engine_call only) (rkops (Z.of_nat i)) ∧ rrun (rkops (Z.of_nat i)) (RankerInit [only]) = Some (shRk sh)).
    Context (Hmap : ∀ (i : nat) sh, shards !! i = Some sh → removeCache (shIx sh) = [] ∧
      ∃ M, shows (shIx sh) M ∧ ∀ id, M !! id = version murmur n (Z.of_nat i) cs id).
    Context (Hid0 : ∀ d f ct a fo, EIndex d f ct a fo ∈ cs → DocId d ≠ "0").
    Context (Hsub : ∀ (i : nat) sh x, shards !! i = Some sh → x ∈ rkops (Z.of_nat i) → x ∈ rkStream murmur n only (Z.of_nat i) cs).
    Context (Hall : settled → ∀ (i : nat) sh x, shards !! i = Some sh → x ∈ rkStream murmur n only (Z.of_nat i) cs → x ∈ rkops (Z.of_nat i)).
    Context (log2 : F → F) (req : SearchReq) (Hpr : answerable o req).
    Notation score := (ScoringCriteria (rqOpts req)).

    Definition rpart (i : nat) (sh : Shard) (p : list rop * list IndexedDoc) : Prop :=
      shard_view log2 only req sh p ∧ p.1 = rkops (Z.of_nat i) ∧ NoDup (ixDocId <$> p.2) ∧
      (with_logic req → ∀ x, x ∈ p.2 → x = emptyIDoc (ixDocId x)) ∧
      ∀ id, id ∈ ixDocId <$> p.2 ↔ ∃ d, DocId d = id ∧ rvCurrent (called murmur n cs) (Z.of_nat i) d ∧ fits req d.
    Lemma rpart_exists (i : nat) sh : shards !! i = Some sh → ∃ p, rpart i sh p.
    Proof.
      intros H. pose proof (Hreach i sh H) as HR. destruct (Hmap i sh H) as (Hrc & M & HM & HMi).
      destruct (lookup_fits _ _ _ _ log2 req HR Hpr) as (M' & D & docs & HC & HA & HDM & L1 & _ & HN & HS & HF & HE).
      rewrite (HDM Hrc) in *. clear D HDM Hrc.
      exists (rkops (Z.of_nat i), docs). split. { destruct (Heng i sh H) as [H1 H2]. split; [done|]. split; [done|]. by eexists. }
      split; [done|]. split; [done|]. split; [done|]. intros id. cbn [snd]. split.
      - intros (d & Hd & Hf)%HS. destruct (shows_fits _ _ M req id d (proj1 HC) HM Hd Hf) as (d' & Hd' & Hf').
        rewrite HMi in Hd'. apply version_current in Hd' as (<- & f & ct & a & Hc). exists d'. split; [done|]. split; [by exists f, ct, a|done].
      - intros (d & <- & (f & ct & a & Hc) & Hf). assert (Hd : M !! DocId d = Some d).
        { rewrite HMi. apply version_current. split; [done|]. by exists f, ct, a. }
        destruct (shows_fits _ _ M' req _ d HM (proj1 HC) Hd Hf) as (d' & Hd' & Hf'). by eapply HF.
    Qed.
    (** What the ranker knows about a document is one of its versions *)
    Lemma known_version i sh id f c a : shards !! i = Some sh → known only (rkops (Z.of_nat i)) id = Some (f, c, a) →
      ∃ ct' a', rvVersion (called murmur n cs) (Z.of_nat i) id f ct' a' ∧ (only = false → c = ct' ∧ a = a').
    Proof.
      intros Hi. unfold known. destruct (last_call id (rkops (Z.of_nat i))) as [[id' f' c'|id']|] eqn:E; [|done..].
      apply last_call_elem in E as [Hx Ho]. cbn in Ho. apply seqb_eq in Ho as ->. apply (Hsub i sh _ Hi) in Hx.
      apply rkStream_add in Hx as (d & ct & a0 & fo & Hc & Ed & Es & ->). intros [= E].
      exists ct, a0. rewrite shardOf_mod in Es by done. destruct only; injection E as <- <- <-; (split; [exists d, fo; done|done]).
    Qed.
    Lemma rexpected i sh p x h d : shards !! i = Some sh → rpart i sh p → x ∈ p.2 → DocId d = ixDocId x →
      expected only score (known only p.1 (ixDocId x)) x = Some h →
      ∃ f' ct' a', rvVersion (called murmur n cs) (Z.of_nat i) (DocId d) f' ct' a' ∧ shows_call only score h d f' ct' a' ∧
        (with_logic req → sdScores h = score (emptyIDoc (DocId d)) f').
    Proof.
      intros Hi (_ & -> & _ & HE & _) Hx Ed. unfold expected.
      destruct (known only (rkops (Z.of_nat i)) (ixDocId x)) as [[[f' c'] a']|] eqn:EK; [|done].
      destruct (known_version i sh _ _ _ _ Hi EK) as (ct1 & a1 & Hv & Ho).
      destruct (score x f') as [|z sc] eqn:Es; [done|]. intros [= <-].
      exists f', ct1, a1. rewrite Ed. split; [done|]. split.
      - split; [done|]. split; [exists x; by rewrite Es|]. intros ->. by destruct (Ho eq_refl) as [-> ->].
      - intros Hl. cbn. by rewrite <- (HE Hl x Hx).
    Qed.
    Lemma rkept i sh p x d : settled → shards !! i = Some sh → rpart i sh p → x ∈ p.2 → DocId d = ixDocId x →
      rvCurrent (called murmur n cs) (Z.of_nat i) d → ¬ rvRemoved (called murmur n cs) (DocId d) →
      (∀ f' ct' a', rvVersion (called murmur n cs) (Z.of_nat i) (DocId d) f' ct' a' → kept req (DocId d) f') →
      ∃ h, expected only score (known only p.1 (ixDocId x)) x = Some h ∧ sdDocId h = DocId d.
    Proof.
      intros Hs Hi (_ & -> & _ & HE & _) Hx Ed Hc Hnr Hk.
      assert (HK : ∃ f' c' a', known only (rkops (Z.of_nat i)) (ixDocId x) = Some (f', c', a')).
      { rewrite <- Ed. destruct Hc as (f & ct & a & fo & b & af & E & Hsh & HF).
        assert (Hin : EIndex d f ct a fo ∈ cs) by (rewrite E; apply elem_of_app; right; by left).
        destruct (last_call_some (DocId d) (rkops (Z.of_nat i)) (ROAdd (DocId d) f (if only then [] else [IStr ct; a]))) as [r Hr].
        - apply (Hall Hs i sh _ Hi). unfold rkStream. apply elem_of_list_join. exists (rkMsgs murmur n only (Z.of_nat i) (EIndex d f ct a fo)).
          split; [|by apply elem_of_list_fmap_1]. cbn [rkMsgs]. rewrite (proj2 (seqb_neq _ _) (Hid0 _ _ _ _ _ Hin)).
          rewrite (shardOf_mod _ _ _ _ Hn), Hsh, Z.eqb_refl. by left.
        - cbn. apply seqb_refl.
        - unfold known. rewrite Hr. apply last_call_elem in Hr as [Hr Ho]. apply (Hsub i sh _ Hi) in Hr. destruct r as [id' f' c'|id'].
          + destruct only; [by eauto|]. destruct c' as [|[] [|]]; eauto.
          + cbn in Ho. apply seqb_eq in Ho as ->. apply rkStream_rem in Hr as [fo' Hr]. destruct Hnr. by exists fo'. }
      destruct HK as (f' & c' & a' & EK). destruct (known_version i sh _ _ _ _ Hi EK) as (ct1 & a1 & Hv & _). rewrite <- Ed in Hv.
      destruct (Hk _ _ _ Hv) as [K1 K2]. unfold expected. rewrite EK.
      assert (Hacc : score x f' ≠ []).
      { destruct (with_logic_dec req) as [Hl|Hl]; [|by apply (K2 Hl)]. rewrite (HE Hl x Hx), <- Ed. by apply K1. }
      destruct (score x f') as [|z sc]; [done|]. eexists. split; [done|]. by cbn.
    Qed.

    Lemma rev_view : scores_numbers log2 req shards →
      ∃ parts, Forall2 (shard_view log2 only req) shards parts ∧ no_nan (all_hits only score parts) ∧
        ∀ (i : nat) part, (hits only score <$> parts) !! i = Some part →
          part_current only (called murmur n cs) req (Z.of_nat i) part ∧ (settled → part_complete (called murmur n cs) req (Z.of_nat i) part).
    Proof.
      intros Hnan. destruct (choice_list shards rpart rpart_exists) as (parts & Hl & HP).
      assert (HP' : ∀ i p, parts !! i = Some p → ∃ sh, shards !! i = Some sh ∧ rpart i sh p).
      { intros i p Hp. pose proof (lookup_lt_Some _ _ _ Hp) as Hlt. rewrite Hl in Hlt.
        apply lookup_lt_is_Some in Hlt as [sh Hs]. eauto. }
      assert (Hhit : ∀ i p h, parts !! i = Some p → h ∈ hits only score p →
        ∃ d, rvCurrent (called murmur n cs) (Z.of_nat i) d ∧ fits req d ∧
          ∃ f' ct' a', rvVersion (called murmur n cs) (Z.of_nat i) (DocId d) f' ct' a' ∧ shows_call only score h d f' ct' a' ∧
            (with_logic req → sdScores h = score (emptyIDoc (DocId d)) f')).
      { intros i p h Hp (x & Hx & He)%elem_of_list_omap. destruct (HP' i p Hp) as (sh & Hs & Hok).
        assert (Hxi : ixDocId x ∈ ixDocId <$> p.2) by by apply elem_of_list_fmap_1.
        pose proof Hok as (_ & _ & _ & _ & O5). apply O5 in Hxi as (d & Ed & Hc & Hw).
        exists d. split; [done|]. split; [done|]. by apply (rexpected i sh p x h d). }
      assert (HV : Forall2 (shard_view log2 only req) shards parts).
      { apply Forall2_same_length_lookup_2; [done|]. intros i sh p Hs Hp. by destruct (HP i sh p Hs Hp). }
      exists parts. split; [done|]. split; [by eapply parts_numbers|].
      intros i part (p & -> & Hp)%list_lookup_fmap_inv. destruct (HP' i p Hp) as (sh & Hs & Hok). split; [split|].
        + destruct (hits_ids only req p) as (l & Hl' & ->). eapply sublist_NoDup; [apply Hok|]. by apply fmap_sublist.
        + intros h Hh. by eapply Hhit.
        + intros Hset d Hc Hf Hnr Hk.
          assert (Hxi : DocId d ∈ ixDocId <$> p.2). { apply Hok. by exists d. }
          apply elem_of_list_fmap in Hxi as (x & Ed & Hx).
          destruct (rkept i sh p x d Hset Hs Hok Hx Ed Hc Hnr Hk) as (h & Hh & Eh).
          exists h. split; [|done]. apply elem_of_list_omap. by exists x.
    Qed.
    Lemma rev_search sortBy order : valid_sortBy sortBy → scores_numbers log2 req shards → ranked req → rqTimeout req <= 0 → paging_ok req →
      all_arrive (length shards) order →
      ∃ full out, Search log2 sortBy req shards order = Some (mkResp (rqTokens req) false (zlen full) (Some out)) ∧
        answers_revised n only (called murmur n cs) req settled full out.
    Proof.
      intros Hvb Hnan Hrk Ht (P1 & P2 & P3) Ha. destruct (rev_view Hnan) as (parts & H1 & H2 & H3).
      destruct (C32_lem log2 sortBy only req shards parts order Hvb H2 H1 Hrk Ht P1 P2 P3 Ha) as (full & out & F1 & F2 & F3 & F4 & F5).
      exists full, out. split; [done|]. split; [done|]. split; [done|]. split; [done|].
      exists (hits only score <$> parts). split; [|split; [done|exact H3]].
      unfold zlen in *. rewrite fmap_length. apply Forall2_length in H1. lia.
    Qed.
    Lemma rev_flight sortBy nn ccap clients tl tr ls fs a t0 : valid_sortBy sortBy → scores_numbers log2 req shards →
      ranked req → rqTimeout req <= 0 → paging_ok req →
      frun log2 sortBy nn ccap ls (fInit nn clients tl tr shards) = Some fs → Forall read_only ls → length shards = nn →
      a ∈ fAnswers fs → fReqs fs !! faSearch a = Some (req, t0) →
      ∃ full out, faResp a = mkResp (rqTokens req) false (zlen full) (Some out) ∧
        answers_revised n only (called murmur n cs) req settled full out.
    Proof.
      intros Hvb Hnan Hrk Ht Hpg Hf Hro Hl Ha Hrq. destruct (rev_view Hnan) as (parts & H1 & H2 & H3).
      destruct (global_lem _ _ _ _ _ _ _ _ _ _ _ only parts _ _ Hvb Hf Hro Hl Ha Hrq H1 H2 Hrk Ht Hpg) as (full & out & F1 & F2 & F3 & F4 & F5).
      exists full, out. split; [done|]. split; [done|]. split; [done|]. split; [done|].
      exists (hits only score <$> parts). split; [|split; [done|exact H3]].
      unfold zlen in *. rewrite fmap_length. apply Forall2_length in H1. lia.
    Qed.
  End Rev.
  Context (reqsFirst : bool) (cap : chan → nat).
  Notation reachp := (pipe_reach murmur n only reqsFirst cap).

  (** * One client that calls Flush between updates *)
  Section Staged.
    Context (sortDocs : list DocIndex → list DocIndex) (o : IndexerOpts) (s0 : Indexer) (nseg : nat) (progs phases : list (list ecall))
      (s : pstate) (shards : list Shard) (settled : Prop).
    Context (Hv : valid_sort sortDocs) (HI : Init o = Some s0) (Hr : reachp nseg progs s) (Hset : settled → quiescent s)
      (HP : mjoin progs ≡ₚ program phases) (HG : Forall good_phase phases).
    Context (HV : ∀ i, 0 <= i < n → ∃ ix M, run sortDocs (ixCalls i (sLog s)) s0 = Some ix ∧ shows ix M ∧
      removeCache ix = [] ∧ ∀ id, M !! id = version murmur n i (program phases) id).
    Context (Hsh : engine_shards sortDocs s0 only n s shards).
    Lemma sg_idx (i : nat) sh : shards !! i = Some sh → 0 <= Z.of_nat i < n.
    Proof. intros H. apply lookup_lt_Some in H. destruct Hsh as [Hl _]. unfold zlen in Hl. lia. Qed.
    Lemma sg_good : Forall good_call (mjoin progs).
    Proof.
      rewrite HP. unfold program. apply Forall_join, Forall_fmap. eapply Forall_impl; [exact HG|].
      intros ph [Hph _]. cbn. apply Forall_app. split; [|by repeat constructor]. eapply Forall_impl; [exact Hph|].
      intros [d f ct a fo|id fo|]; cbn; [by intros [? _]|done|done].
    Qed.
    Lemma sg_reach (i : nat) sh : shards !! i = Some sh → reach sortDocs o (ixCalls (Z.of_nat i) (sLog s)) (shIx sh).
    Proof.
      intros H. split; [done|]. split; [|exists s0; split; [done|by apply (proj2 Hsh)]].
      destruct (log_ix _ _ _ _ _ Hn _ _ _ _ Hr (sg_idx i sh H)) as [r Hp]. assert (HF : Forall good_op (ixCalls (Z.of_nat i) (sLog s) ++ r)).
      { rewrite Hp. apply ixStream_good, sg_good. } by apply Forall_app in HF as [? _].
    Qed.
    Lemma sg_eng (i : nat) sh : shards !! i = Some sh →
      Forall (engine_call only) (rkCalls (Z.of_nat i) (sLog s)) ∧ rrun (rkCalls (Z.of_nat i) (sLog s)) (RankerInit [only]) = Some (shRk sh).
    Proof.
      intros H. split; [|by apply (proj2 Hsh)].
      destruct (log_rk _ _ _ _ _ Hn _ _ _ _ Hr (sg_idx i sh H)) as [r Hp]. assert (HF : Forall (engine_call only) (rkCalls (Z.of_nat i) (sLog s) ++ r)).
      { rewrite Hp. apply rkStream_engine. } by apply Forall_app in HF as [? _].
    Qed.
    Lemma sg_map (i : nat) sh : shards !! i = Some sh → removeCache (shIx sh) = [] ∧
      ∃ M, shows (shIx sh) M ∧ ∀ id, M !! id = version murmur n (Z.of_nat i) (program phases) id.
    Proof.
      intros H. destruct (HV (Z.of_nat i) (sg_idx i sh H)) as (ix & M & Hx & HS & Hrc & HM).
      destruct (proj2 Hsh i sh H) as [Hx' _]. rewrite Hx in Hx'. injection Hx' as ->. split; [done|]. by exists M.
    Qed.
    Lemma sg_id0 d f ct a fo : EIndex d f ct a fo ∈ program phases → DocId d ≠ "0".
    Proof.
      intros H. pose proof (program_ord phases HG) as Ho. rewrite Forall_forall in Ho. by apply Ho in H.
    Qed.
    Lemma rk_perm i cs1 cs2 : cs1 ≡ₚ cs2 → rkStream murmur n only i cs1 ≡ₚ rkStream murmur n only i cs2.
    Proof. intros H. unfold rkStream. by rewrite H. Qed.
    Lemma sg_sub (i : nat) sh x : shards !! i = Some sh → x ∈ rkCalls (Z.of_nat i) (sLog s) →
      x ∈ rkStream murmur n only (Z.of_nat i) (program phases).
    Proof.
      intros H Hx. rewrite <- (rk_perm _ _ _ HP). destruct (log_rk _ _ _ _ _ Hn _ _ _ _ Hr (sg_idx i sh H)) as [r <-].
      apply elem_of_app. by left.
    Qed.
    Lemma sg_all : settled → ∀ (i : nat) sh x, shards !! i = Some sh → x ∈ rkStream murmur n only (Z.of_nat i) (program phases) →
      x ∈ rkCalls (Z.of_nat i) (sLog s).
    Proof.
      intros Hs i sh x H Hx. destruct (quiescent_calls _ _ _ _ _ Hn _ _ s (Z.of_nat i) Hr (Hset Hs) (sg_idx i sh H)) as [_ ->].
      by rewrite (rk_perm _ _ _ HP).
    Qed.
    Lemma sg_search sortBy log2 req order : valid_sortBy sortBy → open_request o req → scores_numbers log2 req shards →
      all_arrive (length shards) order →
      ∃ full out, Search log2 sortBy req shards order = Some (mkResp (rqTokens req) false (zlen full) (Some out)) ∧
        answers_revised n only (called murmur n (program phases)) req settled full out.
    Proof.
      intros Hvb (Hrk & Ht & Hpg & Hpr) Hnan Ha.
      eapply (rev_search sortDocs o shards (program phases) settled (λ i, ixCalls i (sLog s)) (λ i, rkCalls i (sLog s)) (proj1 Hsh)
        sg_reach sg_eng sg_map sg_id0 sg_sub sg_all); done.
    Qed.
    Lemma sg_flight sortBy log2 nn ccap clients tl tr ls fs a req t0 : valid_sortBy sortBy →
      frun log2 sortBy nn ccap ls (fInit nn clients tl tr shards) = Some fs → Forall read_only ls → length shards = nn →
      a ∈ fAnswers fs → fReqs fs !! faSearch a = Some (req, t0) →
      open_request o req → scores_numbers log2 req shards →
      ∃ full out, faResp a = mkResp (rqTokens req) false (zlen full) (Some out) ∧
        answers_revised n only (called murmur n (program phases)) req settled full out.
    Proof.
      intros Hvb Hf Hro Hl Ha Hq (Hrk & Ht & Hpg & Hpr) Hnan.
      eapply (rev_flight sortDocs o shards (program phases) settled (λ i, ixCalls i (sLog s)) (λ i, rkCalls i (sLog s)) (proj1 Hsh)
        sg_reach sg_eng sg_map sg_id0 sg_sub sg_all); done.
    Qed.
  End Staged.

  Lemma flush_versions sortDocs o s0 nseg phases s : valid_sort sortDocs → Init o = Some s0 → Forall good_phase phases →
    reachp nseg [program phases] s → returned 0 s →
    ∀ i, 0 <= i < n → ∃ ix M, run sortDocs (ixCalls i (sLog s)) s0 = Some ix ∧ shows ix M ∧
      removeCache ix = [] ∧ ∀ id, M !! id = version murmur n i (program phases) id.
  Proof.
    intros Hv HI HG Hr Hret i Hi. destruct (C39_lem _ _ _ _ _ Hn sortDocs o s0 nseg phases s i Hv HI HG Hr Hret Hi)
      as (ix & M & Hx & HS & _ & _ & Hrc & HV). by exists ix, M.
  Qed.
  Lemma one_prog {A} (l : list A) : mjoin [l] ≡ₚ l.
  Proof. cbn. by rewrite app_nil_r. Qed.
  Theorem revised_search sortDocs sortBy o s0 nseg phases s shards log2 req order :
    valid_sort sortDocs → valid_sortBy sortBy → Init o = Some s0 →
    reachp nseg [program phases] s → returned 0 s → Forall good_phase phases →
    engine_shards sortDocs s0 only n s shards →
    open_request o req → scores_numbers log2 req shards → all_arrive (length shards) order →
    ∃ full out, Search log2 sortBy req shards order = Some (mkResp (rqTokens req) false (zlen full) (Some out)) ∧
      answers_revised n only (called murmur n (program phases)) req (quiescent s) full out.
  Proof.
    intros Hv Hvb HI Hr Hret HG Hsh. eapply (sg_search sortDocs o s0 nseg [program phases] phases s shards (quiescent s)); try done.
    - apply one_prog.
    - by eapply flush_versions.
  Qed.
  Theorem revised_flight sortDocs sortBy o s0 nseg phases s shards log2 nn ccap clients tl tr ls fs a req t0 :
    valid_sort sortDocs → valid_sortBy sortBy → Init o = Some s0 →
    reachp nseg [program phases] s → returned 0 s → Forall good_phase phases →
    engine_shards sortDocs s0 only n s shards →
    frun log2 sortBy nn ccap ls (fInit nn clients tl tr shards) = Some fs → Forall read_only ls → length shards = nn →
    a ∈ fAnswers fs → fReqs fs !! faSearch a = Some (req, t0) →
    open_request o req → scores_numbers log2 req shards →
    ∃ full out, faResp a = mkResp (rqTokens req) false (zlen full) (Some out) ∧
      answers_revised n only (called murmur n (program phases)) req (quiescent s) full out.
  Proof.
    intros Hv Hvb HI Hr Hret HG Hsh. eapply (sg_flight sortDocs o s0 nseg [program phases] phases s shards (quiescent s)); try done.
    - apply one_prog.
    - by eapply flush_versions.
  Qed.
End Revise.

(** * Sessions on existing files *)
Lemma part_current_iff only R R' req i part : (∀ d, rvCurrent R i d → rvCurrent R' i d) →
  (∀ id f ct a, rvVersion R i id f ct a → rvVersion R' i id f ct a) → part_current only R req i part → part_current only R' req i part.
Proof.
  intros H1 H2 [Hnd H]. split; [done|]. intros h Hh. destruct (H h Hh) as (d & Hc & Hf & f & ct & a & Hv & Hs).
  exists d. split; [by apply H1|]. split; [done|]. exists f, ct, a. split; [by apply H2|done].
Qed.
Lemma answers_iff n only R R' req settled full out : (∀ i d, rvCurrent R i d ↔ rvCurrent R' i d) →
  (∀ i id f ct a, rvVersion R i id f ct a ↔ rvVersion R' i id f ct a) → (∀ id, rvRemoved R id ↔ rvRemoved R' id) →
  answers_revised n only R req settled full out → answers_revised n only R' req settled full out.
Proof.
  intros H1 H2 H3 (F1 & F2 & F3 & parts & F4 & F5 & F6). split; [done|]. split; [done|]. split; [done|].
  exists parts. split; [done|]. split; [done|]. intros i part Hp. destruct (F6 i part Hp) as [G1 G2]. split.
  - eapply part_current_iff; [| |exact G1]; [intros d; by rewrite H1|intros ????; by rewrite H2].
  - intros Hs d Hc Hf Hr Hk. apply (G2 Hs d); [by apply H1|done|by rewrite H3|]. intros f ct a Hv. apply (Hk f ct a). by apply H2.
Qed.

Section ReviseSession.
  Context (murmur : string → Z) (n : Z) (only reqsFirst : bool) (cap : chan → nat) (Hn : 1 <= n < 2^32).
  Context (accepts : string → string → bool) (encode : DocData → option string) (nS : Z) (HnS : 1 <= nS < 2^32) (reqsFirst2 : bool).
  Context (iter : kv → list (string * string)) (Hiter : valid_iter iter) (decode : string → DocData * bool)
    (X : Ext) (stop : gset string) (o : SegOpts) (HX : valid_range X).
  Notation preach := (pipe_reach murmur n only reqsFirst cap).
  Notation sreachp := (session_reach murmur n only reqsFirst cap accepts encode nS reqsFirst2).

  Lemma session_called dbs recs cs : placed murmur nS dbs → no_zero nS dbs → recoverProgs iter decode X stop o nS dbs = Some recs →
    let R := called murmur n (mjoin recs ++ pipeProg cs) in
    let R' := in_session murmur n nS decode X stop o dbs cs in
    (∀ i d, rvCurrent R i d ↔ rvCurrent R' i d) ∧ (∀ i id f ct a, rvVersion R i id f ct a ↔ rvVersion R' i id f ct a) ∧
    (∀ id, rvRemoved R id ↔ rvRemoved R' id).
  Proof.
    intros Hpl Hz Hp.
    destruct (recs_write murmur nS HnS iter Hiter decode X stop o HX dbs recs Hpl Hz Hp) as (Hw & [Hon Hnd] & Hin1 & Hin2).
    assert (Hnr : ∀ id fo, ERemove id fo ∉ mjoin recs).
    { intros id fo Hc. destruct (recover_calls iter decode X stop o nS dbs recs Hp) as (rs & _ & HF).
      apply elem_of_list_lookup in Hc as [k Hk]. destruct (Forall2_lookup_r _ _ _ _ _ HF Hk) as (p & _ & H).
      unfold indexCall in H. destruct (segDoc X stop o p.1 p.2); done. }
    cbn. split; [|split].
    - intros i doc. split.
      + intros (f & ct & a & fo & b & af & E & Hs & HF). apply app_eq_inv in E as [(k & E1 & E2)|(k & E1 & E2)].
        * destruct k as [|c k]; [rewrite app_nil_r in E1|]; cbn in E2.
          -- symmetry in E2. unfold pipeProg in E2. apply fmap_cons_inv in E2 as (c & cs' & E & -> & ->).
             destruct c as [doc' d fo'| |]; [|done|done]. injection E as -> -> -> -> ->. exists d. split; [done|]. left.
             exists fo', [], cs'. split; [done|]. by apply Forall_fmap in HF.
          -- injection E2 as <- E2. assert (Hc : EIndex doc f ct a fo ∈ mjoin recs) by (rewrite E1; apply elem_of_app; right; by left).
             destruct (Hin1 _ _ _ _ _ Hc) as (d & Hst & Hsd & -> & -> & ->). exists d. split; [done|]. right.
             split; [done|]. split; [done|]. subst af. apply Forall_app in HF as [_ HF]. by apply Forall_fmap in HF.
        * unfold pipeProg in E2. apply fmap_app_inv in E2 as (b' & af' & -> & E2 & ->). symmetry in E2.
          apply fmap_cons_inv in E2 as (c & cs' & E & -> & ->). destruct c as [doc' d fo'| |]; [|done|done]. injection E as -> -> -> -> ->.
          exists d. split; [done|]. left. exists fo', b', cs'. split; [done|]. by apply Forall_fmap in HF.
      + intros (d & Hs & [(fo & b & af & -> & HF)|(Hst & Hsd & HF)]).
        * exists (ddFields d), (ddContent d), (ddAttri d), fo, (mjoin recs ++ pipeProg b), (pipeProg af). split.
          { unfold pipeProg. rewrite fmap_app, fmap_cons, <-app_assoc. done. }
          split; [done|]. by apply Forall_fmap.
        * destruct (Hin2 _ _ Hst) as (doc' & Hsd' & _ & Hc). rewrite Hsd in Hsd'. injection Hsd' as <-.
          apply elem_of_list_split in Hc as (b & af & E). exists (ddFields d), (ddContent d), (ddAttri d), false, b, (af ++ pipeProg cs).
          split; [by rewrite E, <-app_assoc|]. split; [done|]. apply Forall_app. split; [|by apply Forall_fmap].
          apply Forall_forall. intros c Hc. destruct (sent_to murmur n i (DocId doc) c) eqn:Es; [exfalso|done].
          rewrite E, omap_app in Hnd. apply NoDup_app in Hnd as (_ & _ & Hnd). cbn in Hnd. apply NoDup_cons in Hnd as [Hnd _]. apply Hnd.
          apply elem_of_list_omap. exists c. split; [done|]. destruct c as [d' f' ct' a' fo'|id' fo'|]; cbn in Es |- *; [|by apply seqb_eq in Es as ->|done].
          apply andb_true_iff in Es as [->%seqb_eq _]. done.
    - intros i id f ct a. split.
      + intros (doc & fo & [Hc|Hc]%elem_of_app & <- & Hs).
        * destruct (Hin1 _ _ _ _ _ Hc) as (d & Hst & Hsd & -> & -> & ->). exists d. split; [by left|done].
        * apply elem_of_list_fmap in Hc as ([doc' d fo'| |] & E & Hc); [|done|done]. injection E as -> -> -> -> ->.
          exists d. split; [right; by exists doc', fo'|done].
      + intros (d & [Hst|(doc & fo & Hc & <-)] & Hs & -> & -> & ->).
        * destruct (Hin2 _ _ Hst) as (doc' & Hsd' & <- & Hc). exists doc', false. split; [apply elem_of_app; by left|done].
        * exists doc, fo. split; [|done]. apply elem_of_app. right. apply elem_of_list_fmap. by exists (WIndex doc d fo).
    - intros id. split.
      + intros [fo [Hc|Hc]%elem_of_app]; [by apply Hnr in Hc|]. apply elem_of_list_fmap in Hc as ([|id' fo'|] & E & Hc); [done| |done].
        injection E as -> ->. by exists fo'.
      + intros [fo Hc]. exists fo. apply elem_of_app. right. apply elem_of_list_fmap. by exists (WRemove id fo).
  Qed.

  Section Ses.
    Context (sortDocs : list DocIndex → list DocIndex) (io : IndexerOpts) (s0 : Indexer) (nseg : nat) (recs : list (list ecall)) (dbs : Z → kv)
      (ph1 : list wcall) (rest : list (list wcall)) (s : wstate) (shards : list Shard).
    Context (Hv : valid_sort sortDocs) (HI : Init io = Some s0) (Hpl : placed murmur nS dbs) (Hz : no_zero nS dbs)
      (Hp : recoverProgs iter decode X stop o nS dbs = Some recs)
      (Hg : Forall (λ ph, good_phase (pipeProg ph)) (ph1 :: rest)) (Hf : fresh_ids murmur nS dbs ph1)
      (Hr : sreachp nseg recs [wprogram (ph1 :: rest)] s) (Hret : wreturned 0 s)
      (Hsh : engine_shards sortDocs s0 only n (pipePart s) shards).
    Lemma ses_pipe : ∃ q, preach nseg ([pipeProg (wprogram (ph1 :: rest))] ++ recs) q ∧ sLog q = wLog s ∧ (pipe_rest s → quiescent q).
    Proof.
      destruct (recs_write murmur nS HnS iter Hiter decode X stop o HX dbs recs Hpl Hz Hp) as (Hw & _).
      destruct (session_staged murmur n only reqsFirst cap Hn accepts encode nS reqsFirst2 nseg recs ph1 rest s)
        as (p & q & l & _ & _ & Hq & _ & El & _ & Hst & Hk & Hqq); [done| |done|].
      { apply Forall_fmap. eapply Forall_impl; [exact Hg|]. by intros ? [? _]. }
      exists q. split; [done|]. split; [done|]. apply Hqq. by eapply session_all.
    Qed.
    Lemma ses_staged : ∃ q, preach nseg ([pipeProg (wprogram (ph1 :: rest))] ++ recs) q ∧ (pipe_rest s → quiescent q) ∧
      mjoin ([pipeProg (wprogram (ph1 :: rest))] ++ recs) ≡ₚ program (phases_after recs ph1 rest) ∧
      Forall good_phase (phases_after recs ph1 rest) ∧
      (∀ i, 0 <= i < n → ∃ ix M, run sortDocs (ixCalls i (sLog q)) s0 = Some ix ∧ shows ix M ∧
        removeCache ix = [] ∧ ∀ id, M !! id = version murmur n i (program (phases_after recs ph1 rest)) id) ∧
      engine_shards sortDocs s0 only n q shards.
    Proof.
      destruct ses_pipe as (q & Hq & El & Hqq). exists q. split; [done|]. split; [done|]. split.
      { rewrite program_after, mjoin_app, one_prog. apply Permutation_app_comm. }
      split.
      { apply Forall_cons in Hg as [Hg1 Hgr]. constructor; [by eapply fresh_phase|by apply Forall_fmap]. }
      split.
      - intros i Hi. destruct (C88_flush_lem murmur n only reqsFirst cap Hn accepts encode nS HnS reqsFirst2 iter Hiter decode X stop o HX
          sortDocs io s0 nseg recs dbs ph1 rest s Hv HI Hpl Hz Hp Hg Hf Hr Hret) as [H1 _].
        destruct (H1 i Hi) as (ix & M & Hx & HS & _ & _ & Hrc & HM). exists ix, M. rewrite El, program_after. done.
      - by apply (shards_pipe _ _ _ _ q) in Hsh.
    Qed.
    Theorem ses_search sortBy log2 req order : valid_sortBy sortBy → open_request io req → scores_numbers log2 req shards →
      all_arrive (length shards) order →
      ∃ full out, Search log2 sortBy req shards order = Some (mkResp (rqTokens req) false (zlen full) (Some out)) ∧
        answers_revised n only (in_session murmur n nS decode X stop o dbs (wprogram (ph1 :: rest))) req (pipe_rest s) full out.
    Proof.
      intros Hvb Hreq Hnan Ha. destruct ses_staged as (q & Hq & Hqq & HP & HG & HV & Hs).
      destruct (sg_search murmur n only Hn reqsFirst cap sortDocs io s0 nseg _ _ q shards (pipe_rest s) Hv HI Hq Hqq HP HG HV Hs sortBy log2 req order Hvb Hreq Hnan Ha)
        as (full & out & H1 & H2). exists full, out. split; [done|]. rewrite program_after in H2.
      eapply answers_iff; [..|exact H2]; by apply session_called.
    Qed.
    Theorem ses_flight sortBy log2 nn ccap clients tl tr ls fs a req t0 : valid_sortBy sortBy →
      frun log2 sortBy nn ccap ls (fInit nn clients tl tr shards) = Some fs → Forall read_only ls → length shards = nn →
      a ∈ fAnswers fs → fReqs fs !! faSearch a = Some (req, t0) →
      open_request io req → scores_numbers log2 req shards →
      ∃ full out, faResp a = mkResp (rqTokens req) false (zlen full) (Some out) ∧
        answers_revised n only (in_session murmur n nS decode X stop o dbs (wprogram (ph1 :: rest))) req (pipe_rest s) full out.
    Proof.
      intros Hvb Hfr Hro Hl Ha Hrq Hreq Hnan. destruct ses_staged as (q & Hq & Hqq & HP & HG & HV & Hs).
      destruct (sg_flight murmur n only Hn reqsFirst cap sortDocs io s0 nseg _ _ q shards (pipe_rest s) Hv HI Hq Hqq HP HG HV Hs
        sortBy log2 nn ccap clients tl tr ls fs a req t0 Hvb Hfr Hro Hl Ha Hrq Hreq Hnan)
        as (full & out & H1 & H2). exists full, out. split; [done|]. rewrite program_after in H2.
      eapply answers_iff; [..|exact H2]; by apply session_called.
    Qed.
  End Ses.
End ReviseSession.
