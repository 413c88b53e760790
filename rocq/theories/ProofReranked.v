(** Proofs for C118: the order of searches by BM25 after updates and removals. *)
From Coq Require Import Reals Lra Floats.SpecFloat Sorting.Permutation.
From Flocq Require Import Core BinarySingleNaN.
From Verif Require Import ProofReal ProofReal32 ProofReal64.
From Verif Require Import ModelSession ModelLookup ModelPipe ModelEngine ModelFlight ModelScoring SpecIndexer SpecSearch SpecRank SpecRoute SpecPipe SpecSegment SpecEngine SpecFlight
  SpecStore SpecEnd SpecUpdate SpecLife SpecClose SpecWhole SpecSession SpecBM25 SpecScored SpecAccuracy SpecPrefers SpecShorter SpecRevise SpecRescored SpecReranked
  ProofScored ProofRevise ProofRescored ProofAccuracy ProofPrefers ProofShorter.

(** * Which entry is which document *)
Section Tags.
  Context (E : Z * DocIndex → ScoredDoc → Prop) (Eid : ∀ w h, E w h → sdDocId h = DocId (snd w)).
  Notation key := (λ w : Z * DocIndex, (fst w, DocId (snd w))).
  Lemma tag_part i part : NoDup (sdDocId <$> part) → (∀ h, h ∈ part → ∃ d, E (i, d) h) →
    ∃ who, Forall2 E who part ∧ NoDup (key <$> who) ∧ Forall (λ w, fst w = i) who.
  Proof.
    intros HN HE. assert (∃ ds, Forall2 (λ d h, E (i, d) h) ds part) as [ds Hds].
    { clear HN. induction part as [|h part IH]; [by exists []|]. destruct IH as [ds Hds]; [intros h' Hh; apply HE; by right|].
      destruct (HE h) as [d Hd]; [by left|]. exists (d :: ds). by constructor. }
    exists (pair i <$> ds). split; [by apply Forall2_fmap_l|]. split.
    - rewrite <- list_fmap_compose. assert (DocId <$> ds = sdDocId <$> part) as Eq.
      { clear -Hds Eid. induction Hds as [|d h ds part H _ IH]; [done|]. rewrite !fmap_cons, IH. f_equal. symmetry. exact (Eid _ _ H). }
      rewrite <- Eq in HN. clear -HN. induction ds as [|d ds IH]; [constructor|]. cbn in HN. cbn.
      apply NoDup_cons in HN as [H1 H2]. apply NoDup_cons. split; [|by apply IH]. intros (d' & E' & Hd')%elem_of_list_fmap.
      apply H1. injection E' as ->. by apply elem_of_list_fmap_1.
    - apply Forall_fmap, Forall_forall. by intros.
  Qed.
  Lemma tag_parts parts : ∀ k : nat, (∀ (i : nat) part, parts !! i = Some part → NoDup (sdDocId <$> part) ∧ ∀ h, h ∈ part → ∃ d, E (Z.of_nat (k + i), d) h) →
    ∃ who, Forall2 E who (mjoin parts) ∧ NoDup (key <$> who) ∧ Forall (λ w, Z.of_nat k <= fst w) who.
  Proof.
    induction parts as [|part parts IH]; intros k HP; [exists []; repeat constructor|].
    destruct (HP 0%nat part eq_refl) as [HN HE]. rewrite Nat.add_0_r in HE. destruct (tag_part _ part HN HE) as (w1 & A1 & A2 & A3).
    destruct (IH (S k)) as (w2 & B1 & B2 & B3).
    { intros i q Hq. replace (S k + i)%nat with (k + S i)%nat by lia. by apply HP. }
    exists (w1 ++ w2). split; [cbn; by apply Forall2_app|]. split.
    - rewrite fmap_app. apply NoDup_app. split; [done|]. split; [|done]. intros [i id] (w & [= -> ->] & Hw)%elem_of_list_fmap (w' & [= E1 _] & Hw')%elem_of_list_fmap.
      rewrite Forall_forall in A3, B3. specialize (A3 _ Hw). specialize (B3 _ Hw'). lia.
    - apply Forall_app. split; [eapply Forall_impl; [exact A3|]; intros w Ew; cbn in Ew; lia|eapply Forall_impl; [exact B3|]; intros w Ew; cbn in Ew; lia].
  Qed.
  Lemma tag_out who l out : Forall2 E who l → NoDup (key <$> who) → out ⊆+ l → ∃ who', Forall2 E who' out ∧ NoDup (key <$> who').
  Proof.
    intros HF HN (k & HP)%submseteq_Permutation.
    destruct (Permutation_Forall2 HP (proj2 (Forall2_flip E who l) HF)) as (w & Hw & HF2). apply Forall2_app_inv_l in HF2 as (w1 & w2 & F1 & _ & ->).
    exists w1. split; [by apply Forall2_flip|]. rewrite Hw, fmap_app in HN. by apply NoDup_app in HN as [? _].
  Qed.
End Tags.

Lemma current_perm V i D D' : current_docs V i D → current_docs V i D' → D ≡ₚ D'.
Proof. intros [N1 H1] [N2 H2]. apply NoDup_Permutation; [by eapply NoDup_fmap_1..|]. intros d. by rewrite H1, H2. Qed.
Lemma describes_perm log2 o total D D' tokens d x : D ≡ₚ D' → describes log2 o total D tokens d x → describes log2 o total D' tokens d x.
Proof.
  intros HP. unfold describes. assert (zlen D = zlen D') as -> by (unfold zlen; by rewrite HP).
  assert (carriers D <$> tokens = carriers D' <$> tokens) as ->; [|done].
  apply list_fmap_ext. intros _ k _. unfold carriers, zlen. by rewrite HP.
Qed.

Lemma of_Z_inj a b : 0 <= a < 2 ^ 24 → 0 <= b < 2 ^ 24 → f32_of_Z a = f32_of_Z b → a = b.
Proof. intros Ha Hb E. apply eq_IZR. by rewrite <- (value_int a), <- (value_int b), E by done. Qed.

(** * The answer *)
Section Reranked.
  Context (murmur : string → Z) (n : Z) (Hn : 1 <= n < 2^32) (log2 : F → F) (Hlog : accurate_log2 log2).
  Context (o : IndexerOpts) (p : BM25Params) (Hpo : BM25Parameters o = Some p) (Hp : modest p).
  Context (Hity : IndexType o = LocsIndex ∨ IndexType o = FrequenciesIndex).
  Context (cs : list ecall) (V : Revision) (totals : Z → F).
  Context (Hsub : ∀ i D, current_docs V i D → D ⊆+ shard_docs murmur n i cs).
  Context (Htot : ∀ i D, 0 <= i < n → current_docs V i D → total_now (totals i) (shard_docs murmur n i cs) D).
  Context (Hm : modest_history (IndexType o) V murmur n cs).
  Context (req : SearchReq) (Hs : ScoringCriteria (rqOpts req) = RankByBM25) (Ht : zlen (rqTokens req) <= 2 ^ 20).
  Notation tokens := (rqTokens req).

  Lemma rr_modest i D d : 0 <= i < n → current_docs V i D → d ∈ D → modest_docs (IndexType o) D ∧ total_length (totals i) D.
  Proof.
    intros Hi HD Hd. destruct (Hm i Hi) as [(zl & Hz & Hsum) Hmd]. split.
    { apply Hmd; [done|]. intros ->. by apply elem_of_nil in Hd. }
    intros zl' Hz' Hsum'. rewrite (Htot i D Hi HD zl Hz Hsum). f_equal. f_equal. apply list_fmap_ext. intros k e He.
    assert (Hin : e ∈ D) by by eapply elem_of_list_lookup_2.
    assert (HinS : e ∈ shard_docs murmur n i cs) by (eapply elem_of_submseteq; [done|by apply Hsub]).
    apply of_Z_inj.
    - split; [by apply Hz|]. eapply Z.le_lt_trans; [apply (sum_elem zl (shard_docs murmur n i cs) e); [|exact HinS]; intros; by apply Hz|done].
    - split; [by apply Hz'|]. eapply Z.le_lt_trans; [apply (sum_elem zl' D e); [|exact Hin]; intros; by apply Hz'|done].
    - destruct (Hz e HinS) as [<- _]. destruct (Hz' e Hin) as [<- _]. done.
  Qed.
  Definition rr_entry (w : Z * DocIndex) (h : ScoredDoc) : Prop :=
    let (i, d) := w in 0 <= i < n ∧ wanted req d ∧ sdDocId h = DocId d ∧
      ∃ D x, current_docs V i D ∧ d ∈ D ∧ describes log2 o (totals i) D tokens d x ∧ sdScores h = [BM25 x].
  Lemma rr_numbers i d D x : 0 <= i < n → current_docs V i D → d ∈ D → describes log2 o (totals i) D tokens d x →
    valid_binary 24 128 (BM25 x) = true ∧ a_number (BM25 x) ∧
    ∃ y, exact_current (IndexType o) p V tokens i d y ∧ close (length tokens) (value (BM25 x)) y.
  Proof.
    intros Hi HD Hd Hx. destruct (rr_modest i D d Hi HD Hd) as [M1 M2].
    destruct (ProofAccuracy.described_score log2 o p (totals i) D tokens d x Hlog Hpo Hp Hity M1 M2 Hd Ht Hx) as (kws & K & A1 & A2 & C).
    split; [done|]. split; [done|]. eexists. split; [|exact C]. by exists D, kws.
  Qed.
  Lemma rr_proper : (∀ i id f ct a, rvVersion V i id f ct a → 0 <= i < n) → rescores_proper log2 o V totals req.
  Proof.
    intros Hv i D d f ct a x HD Hd Hw Hver Hx. apply Hv in Hver. destruct (rr_numbers i d D x Hver HD Hd Hx) as (V1 & A1 & _).
    rewrite Hs. unfold RankByBM25. apply Forall_singleton. unfold f_eqb. rewrite (eqb_real 24 128) by (by apply okf_of). by apply Req_bool_true.
  Qed.

  Context (only : bool) (settled : Prop) (full out : list ScoredDoc).
  Context (Ha : answers_rescored log2 o n only V totals req settled full out).
  Lemma rr_tags : ∃ who, Forall2 rr_entry who full ∧ NoDup ((λ w : Z * DocIndex, (fst w, DocId (snd w))) <$> who).
  Proof.
    destruct Ha as (_ & _ & _ & parts & Hl & HP & Hpart).
    destruct (tag_parts rr_entry) with (parts := parts) (k := 0%nat) as (who & H1 & H2 & _).
    - intros [i d] h (_ & _ & E & _). done.
    - intros i part Hi. destruct (Hpart i part Hi) as (D & HD & HN & Hin & _). split; [done|]. intros h Hh.
      destruct (Hin h Hh) as (d & f & ct & a & x & Hd & Hw & _ & Hx & _ & ->). exists d. cbn [Nat.add].
      split; [apply lookup_lt_Some in Hi; unfold zlen in Hl; lia|]. split; [done|]. split; [by destruct Hx as (_ & _ & E & _)|].
      exists D, x. split; [done|]. split; [done|]. split; [done|]. rewrite Hs. done.
    - eapply tag_out; [exact H1|exact H2|]. by rewrite HP.
  Qed.
  Lemma rr_value h : h ∈ full → ∃ v, sdScores h = [v] ∧ valid_binary 24 128 v = true ∧ a_number v.
  Proof.
    intros Hh. destruct rr_tags as (who & HF & _). apply elem_of_list_lookup in Hh as [k Hk].
    destruct (Forall2_lookup_r _ _ _ _ _ HF Hk) as ([i d] & _ & Hi & _ & _ & D & x & HD & Hd & Hx & E).
    destruct (rr_numbers i d D x Hi HD Hd Hx) as (V1 & A1 & _). by exists (BM25 x).
  Qed.
  Lemma rr_out h : h ∈ out → h ∈ full.
  Proof. intros H. destruct Ha as (_ & _ & Hsu & _). by eapply elem_of_submseteq. Qed.
  Lemma rr_ordered i j h1 h2 v1 v2 : (i < j)%nat → out !! i = Some h1 → out !! j = Some h2 → sdScores h1 = [v1] → sdScores h2 = [v2] →
    if ReverseOrder (rqOpts req) then (value v1 <= value v2)%R else (value v2 <= value v1)%R.
  Proof.
    intros Hij H1 H2 E1 E2. destruct (Ha) as (Ho & Hpg & _).
    destruct (Forall2_lookup_l _ _ _ _ _ Hpg H1) as (g1 & G1 & S1). destruct (Forall2_lookup_l _ _ _ _ _ Hpg H2) as (g2 & G2 & S2).
    destruct (rr_value g1) as (w1 & Ew1 & W1 & M1); [eapply page_elem, elem_of_list_lookup_2; done|].
    destruct (rr_value g2) as (w2 & Ew2 & W2 & M2); [eapply page_elem, elem_of_list_lookup_2; done|].
    destruct (rr_value h1) as (v1' & Ev1 & V1 & N1); [apply rr_out; by eapply elem_of_list_lookup_2|].
    destruct (rr_value h2) as (v2' & Ev2 & V2 & N2); [apply rr_out; by eapply elem_of_list_lookup_2|].
    rewrite E1 in Ev1. rewrite E2 in Ev2. injection Ev1 as <-. injection Ev2 as <-.
    unfold same_scores, score_eq in S1, S2. rewrite E1, Ew1 in S1. rewrite E2, Ew2 in S2.
    apply Forall2_cons in S1 as [S1 _]. apply Forall2_cons in S2 as [S2 _].
    apply eq_value in S1; [|done..]. apply eq_value in S2; [|done..].
    pose proof (sorted_lookup _ _ _ _ _ _ (page_sorted _ _ _ _ Ho) Hij G1 G2) as Hr. cbv beta in Hr. rewrite Ew1, Ew2 in Hr.
    destruct (ReverseOrder _); apply not_above in Hr; try done; by rewrite S1, S2.
  Qed.
  Theorem rr_reranked : reranked (IndexType o) p V n req out.
  Proof.
    destruct rr_tags as (whof & HF & HN). destruct (tag_out rr_entry whof full out HF HN) as (who & HW & HNw); [by destruct Ha as (_ & _ & ? & _)|].
    exists who. split; [done|]. split.
    { eapply Forall2_impl; [exact HW|]. intros [i d] h (Hi & Hw & Eid & D & x & HD & Hd & Hx & E).
      destruct (rr_numbers i d D x Hi HD Hd Hx) as (V1 & A1 & y & Hy & C).
      split; [done|]. split; [by apply HD|]. split; [done|]. split; [done|]. by exists (BM25 x), y. }
    split.
    - intros a b i1 d1 i2 d2 Hab W1 W2.
      destruct (Forall2_lookup_l _ _ _ _ _ HW W1) as (h1 & O1 & I1 & _ & _ & D1 & x1 & HD1 & Hd1 & X1 & E1).
      destruct (Forall2_lookup_l _ _ _ _ _ HW W2) as (h2 & O2 & I2 & _ & _ & D2 & x2 & HD2 & Hd2 & X2 & E2).
      destruct (rr_numbers i1 d1 D1 x1 I1 HD1 Hd1 X1) as (_ & _ & y1 & Y1 & C1). destruct (rr_numbers i2 d2 D2 x2 I2 HD2 Hd2 X2) as (_ & _ & y2 & Y2 & C2).
      exists y1, y2. split; [done|]. split; [done|]. pose proof (rr_ordered a b h1 h2 _ _ Hab O1 O2 E1 E2) as Hr.
      destruct (ReverseOrder _); (eapply order_close; [unfold zlen in Ht; lia|by eapply close_pos|by eapply close_pos|done|done|done]).
    - intros a b i d1 d2 h1 h2 W1 W2 O1 O2 Hnl.
      destruct (Forall2_lookup_l _ _ _ _ _ HW W1) as (h1' & O1' & I1 & _ & _ & D & x1 & HD & Hd1 & X1 & E1).
      destruct (Forall2_lookup_l _ _ _ _ _ HW W2) as (h2' & O2' & _ & _ & _ & D' & x2 & HD' & Hd2 & X2 & E2). simplify_eq.
      pose proof (current_perm V i D' D HD' HD) as HP. apply (describes_perm _ _ _ _ _ _ _ _ HP) in X2. rewrite HP in Hd2.
      destruct (rr_modest i D d1 I1 HD Hd1) as [M1 M2].
      exists (BM25 x1), (BM25 x2). split; [done|]. split; [done|]. split.
      + intros Hso. assert (Hb : f_ltb (BM25 x1) (BM25 x2) = false).
        { exact (pair_same log2 Hlog o p Hpo Hp Hity _ D M1 M2 tokens Ht d1 d2 Hd1 Hd2 Hnl x1 x2 X1 X2 Hso). }
        split; [done|]. intros Hij.
        destruct (rr_numbers i d1 D x1 I1 HD Hd1 X1) as (V1 & N1 & _). destruct (rr_numbers i d2 D x2 I1 HD Hd2 X2) as (V2 & N2 & _).
        unfold f_ltb in Hb. rewrite (ltb_real 24 128) in Hb by (by apply okf_of). rewrite <- !value_sfR in Hb.
        revert Hb. case Rlt_bool_spec; [intros _ Hb; discriminate Hb|]. intros Hge _.
        unfold f_eqb. rewrite (eqb_real 24 128) by (by apply okf_of). rewrite <- !value_sfR. apply Req_bool_true.
        assert (value (BM25 x1) <= value (BM25 x2))%R; [|apply Rle_antisym; assumption].
        pose proof (rr_ordered a b h1 h2 (BM25 x1) (BM25 x2)) as A. pose proof (rr_ordered b a h2 h1 (BM25 x2) (BM25 x1)) as B.
        destruct (ReverseOrder _); [by apply A|by apply B].
      + intros Hso. exact (pair_better log2 Hlog o p Hpo Hp Hity _ D M1 M2 tokens Ht d1 d2 Hd1 Hd2 Hnl x1 x2 X1 X2 Hso).
  Qed.
End Reranked.

(** * Searches after updates and removals *)
Section Thms.
  Context (murmur : string → Z) (n : Z) (only reqsFirst : bool) (cap : chan → nat) (Hn : 1 <= n < 2^32).
  Lemma called_shard cs i id f ct a : rvVersion (called murmur n cs) i id f ct a → 0 <= i < n.
  Proof. intros (d & fo & _ & _ & <-). apply Z.mod_pos_bound. lia. Qed.
  Theorem search_reranked sortDocs sortBy o s0 nseg phases s shards log2 req order p :
    valid_sort sortDocs → valid_sortBy sortBy → Init o = Some s0 →
    pipe_reach murmur n only reqsFirst cap nseg [program phases] s → returned 0 s → Forall good_phase phases →
    engine_shards sortDocs s0 only n s shards → plain_request o req →
    ScoringCriteria (rqOpts req) = RankByBM25 → zlen (rqTokens req) <= 2 ^ 20 →
    IndexType o = LocsIndex ∨ IndexType o = FrequenciesIndex → BM25Parameters o = Some p → modest p → accurate_log2 log2 →
    modest_history (IndexType o) (called murmur n (program phases)) murmur n (program phases) → all_arrive (length shards) order →
    ∃ full out, Search log2 sortBy req shards order = Some (mkResp (rqTokens req) false (zlen full) (Some out)) ∧
      answers_rescored log2 o n only (called murmur n (program phases)) (shard_total shards) req (quiescent s) full out ∧
      reranked (IndexType o) p (called murmur n (program phases)) n req out.
  Proof.
    intros Hv Hvb HI Hr Hret HG Hsh Hrq Hsc Ht Hity Hpo Hp Hlog Hm Ha.
    pose proof (rescored_totals murmur n only reqsFirst cap Hn sortDocs o s0 nseg phases s shards Hv HI Hr Hret HG Hsh) as Htot.
    pose proof (λ i D, current_given murmur n i (program phases) D) as Hsub.
    destruct (rescored_search murmur n only reqsFirst cap Hn sortDocs sortBy o s0 nseg phases s shards log2 req order Hv Hvb HI Hr Hret HG Hsh Hrq) as (full & out & H1 & H2); [|done|].
    - eapply rr_proper; try done. apply called_shard.
    - exists full, out. split; [done|]. split; [done|]. eapply rr_reranked; done.
  Qed.
  Theorem flight_reranked sortDocs sortBy o s0 nseg phases s shards log2 nn ccap clients tl tr ls fs a req t0 p :
    valid_sort sortDocs → valid_sortBy sortBy → Init o = Some s0 →
    pipe_reach murmur n only reqsFirst cap nseg [program phases] s → returned 0 s → Forall good_phase phases →
    engine_shards sortDocs s0 only n s shards →
    frun log2 sortBy nn ccap ls (fInit nn clients tl tr shards) = Some fs → Forall read_only ls → length shards = nn →
    a ∈ fAnswers fs → fReqs fs !! faSearch a = Some (req, t0) → plain_request o req →
    ScoringCriteria (rqOpts req) = RankByBM25 → zlen (rqTokens req) <= 2 ^ 20 →
    IndexType o = LocsIndex ∨ IndexType o = FrequenciesIndex → BM25Parameters o = Some p → modest p → accurate_log2 log2 →
    modest_history (IndexType o) (called murmur n (program phases)) murmur n (program phases) →
    ∃ full out, faResp a = mkResp (rqTokens req) false (zlen full) (Some out) ∧
      answers_rescored log2 o n only (called murmur n (program phases)) (shard_total shards) req (quiescent s) full out ∧
      reranked (IndexType o) p (called murmur n (program phases)) n req out.
  Proof.
    intros Hv Hvb HI Hr Hret HG Hsh Hf Hro Hl Ha Hrt Hrq Hsc Ht Hity Hpo Hp Hlog Hm.
    pose proof (rescored_totals murmur n only reqsFirst cap Hn sortDocs o s0 nseg phases s shards Hv HI Hr Hret HG Hsh) as Htot.
    pose proof (λ i D, current_given murmur n i (program phases) D) as Hsub.
    destruct (rescored_flight murmur n only reqsFirst cap Hn sortDocs sortBy o s0 nseg phases s shards log2 nn ccap clients tl tr ls fs a req t0
      Hv Hvb HI Hr Hret HG Hsh Hf Hro Hl Ha Hrt Hrq) as (full & out & H1 & H2).
    - eapply rr_proper; try done. apply called_shard.
    - exists full, out. split; [done|]. split; [done|]. eapply rr_reranked; done.
  Qed.
End Thms.

(** * Sessions on existing files *)
Section SessionThms.
  Context (murmur : string → Z) (n : Z) (only reqsFirst : bool) (cap : chan → nat) (Hn : 1 <= n < 2^32).
  Context (accepts : string → string → bool) (encode : DocData → option string) (nS : Z) (HnS : 1 <= nS < 2^32) (reqsFirst2 : bool).
  Context (iter : kv → list (string * string)) (Hiter : valid_iter iter) (decode : string → DocData * bool)
    (X : Ext) (stop : gset string) (o : SegOpts) (HX : valid_range X).
  Context (sortDocs : list DocIndex → list DocIndex) (io : IndexerOpts) (s0 : Indexer) (nseg : nat) (recs : list (list ecall)) (dbs : Z → kv)
    (ph1 : list wcall) (rest : list (list wcall)) (s : wstate) (shards : list Shard).
  Context (Hv : valid_sort sortDocs) (HI : Init io = Some s0) (Hpl : placed murmur nS dbs) (Hz : SpecLife.no_zero nS dbs)
    (Hp : recoverProgs iter decode X stop o nS dbs = Some recs)
    (Hg : Forall (λ ph, good_phase (pipeProg ph)) (ph1 :: rest)) (Hf : fresh_ids murmur nS dbs ph1)
    (Hr : session_reach murmur n only reqsFirst cap accepts encode nS reqsFirst2 nseg recs [wprogram (ph1 :: rest)] s) (Hret : wreturned 0 s)
    (Hsh : engine_shards sortDocs s0 only n (pipePart s) shards).
  Notation cs := (mjoin recs ++ pipeProg (wprogram (ph1 :: rest))).
  Notation RS := (in_session murmur n nS decode X stop o dbs (wprogram (ph1 :: rest))).
  Lemma session_given i D : current_docs RS i D → D ⊆+ shard_docs murmur n i cs.
  Proof.
    intros HD. destruct (session_called murmur n nS HnS iter Hiter decode X stop o HX dbs recs (wprogram (ph1 :: rest)) Hpl Hz Hp) as (E1 & E2 & E3).
    apply current_given. eapply current_docs_iff; [|exact HD]. intros; by rewrite E1.
  Qed.
  Lemma session_shard i id f ct a : rvVersion RS i id f ct a → 0 <= i < n.
  Proof. intros (d & _ & <- & _). apply Z.mod_pos_bound. lia. Qed.
  Theorem session_search_reranked sortBy log2 req order p : valid_sortBy sortBy → plain_request io req →
    ScoringCriteria (rqOpts req) = RankByBM25 → zlen (rqTokens req) <= 2 ^ 20 →
    IndexType io = LocsIndex ∨ IndexType io = FrequenciesIndex → BM25Parameters io = Some p → modest p → accurate_log2 log2 →
    modest_history (IndexType io) RS murmur n cs → all_arrive (length shards) order →
    ∃ full out, Search log2 sortBy req shards order = Some (mkResp (rqTokens req) false (zlen full) (Some out)) ∧
      answers_rescored log2 io n only RS (shard_total shards) req (pipe_rest s) full out ∧
      reranked (IndexType io) p RS n req out.
  Proof.
    intros Hvb Hrq Hsc Ht Hity Hpo Hpm Hlog Hm Ha. pose proof session_given as Hsub.
    pose proof (rses_total murmur n only reqsFirst cap Hn accepts encode nS HnS reqsFirst2 iter Hiter decode X stop o HX
      sortDocs io s0 nseg recs dbs ph1 rest s shards Hv HI Hpl Hz Hp Hg Hf Hr Hret Hsh) as Htot.
    destruct (rses_search murmur n only reqsFirst cap Hn accepts encode nS HnS reqsFirst2 iter Hiter decode X stop o HX
      sortDocs io s0 nseg recs dbs ph1 rest s shards Hv HI Hpl Hz Hp Hg Hf Hr Hret Hsh sortBy log2 req order Hvb Hrq) as (full & out & H1 & H2); [|done|].
    - eapply rr_proper; try done. apply session_shard.
    - exists full, out. split; [done|]. split; [done|]. eapply rr_reranked; done.
  Qed.
  Theorem session_flight_reranked sortBy log2 nn ccap clients tl tr ls fs a req t0 p : valid_sortBy sortBy →
    frun log2 sortBy nn ccap ls (fInit nn clients tl tr shards) = Some fs → Forall read_only ls → length shards = nn →
    a ∈ fAnswers fs → fReqs fs !! faSearch a = Some (req, t0) → plain_request io req →
    ScoringCriteria (rqOpts req) = RankByBM25 → zlen (rqTokens req) <= 2 ^ 20 →
    IndexType io = LocsIndex ∨ IndexType io = FrequenciesIndex → BM25Parameters io = Some p → modest p → accurate_log2 log2 →
    modest_history (IndexType io) RS murmur n cs →
    ∃ full out, faResp a = mkResp (rqTokens req) false (zlen full) (Some out) ∧
      answers_rescored log2 io n only RS (shard_total shards) req (pipe_rest s) full out ∧
      reranked (IndexType io) p RS n req out.
  Proof.
    intros Hvb Hfr Hro Hl Ha Hrt Hrq Hsc Ht Hity Hpo Hpm Hlog Hm. pose proof session_given as Hsub.
    pose proof (rses_total murmur n only reqsFirst cap Hn accepts encode nS HnS reqsFirst2 iter Hiter decode X stop o HX
      sortDocs io s0 nseg recs dbs ph1 rest s shards Hv HI Hpl Hz Hp Hg Hf Hr Hret Hsh) as Htot.
    destruct (rses_flight murmur n only reqsFirst cap Hn accepts encode nS HnS reqsFirst2 iter Hiter decode X stop o HX
      sortDocs io s0 nseg recs dbs ph1 rest s shards Hv HI Hpl Hz Hp Hg Hf Hr Hret Hsh sortBy log2 nn ccap clients tl tr ls fs a req t0 Hvb Hfr Hro Hl Ha Hrt Hrq)
      as (full & out & H1 & H2).
    - eapply rr_proper; try done. apply session_shard.
    - exists full, out. split; [done|]. split; [done|]. eapply rr_reranked; done.
  Qed.
End SessionThms.
