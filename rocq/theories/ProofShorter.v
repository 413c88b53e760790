(** Proofs for C115: two documents of one shard in the answer of a search. *)
From Coq Require Import Reals Lra Floats.SpecFloat.
From Flocq Require Import Core BinarySingleNaN.
From Verif Require Import ProofReal ProofReal32 ProofReal64.
From Verif Require Import ModelLookup ModelPipe ModelEngine ModelFlight ModelScoring SpecIndexer SpecSearch SpecRank SpecRoute SpecPipe SpecEngine SpecFlight SpecEnd
  SpecBM25 SpecScored SpecAccuracy SpecPrefers SpecShorter ProofScored ProofAccuracy ProofPrefers.

(** What the scoring function is told, with all that the theorems on the value need *)
Lemma described_value log2 o p total D tokens d x zl :
  BM25Parameters o = Some p → IndexType o = LocsIndex ∨ IndexType o = FrequenciesIndex →
  modest_docs (IndexType o) D → (∀ d, d ∈ D → TokenLen d = f32_of_Z (zl d) ∧ 0 <= zl d) → 0 < foldr Z.add 0 (zl <$> D) < 2 ^ 24 →
  total_length total D → d ∈ D → describes log2 o total D tokens d x →
  ∃ kws, hit_kws d tokens kws ∧
    BM25 x = bm25_value log2 (Some p) (zlen D) (f32_div (f32_of_Z (foldr Z.add 0 (zl <$> D))) (f32_of_Z (zlen D))) (f32_of_Z (zl d))
                         (zip (carriers D <$> tokens) (tf (IndexType o) <$> kws)) ∧
    0 <= zl d < 2 ^ 24 ∧ 0 < zlen D < 2 ^ 24 ∧
    Forall (λ t, 1 <= fst t <= zlen D ∧ modest_freq (snd t)) (zip (carriers D <$> tokens) (tf (IndexType o) <$> kws)) ∧
    length (zip (carriers D <$> tokens) (tf (IndexType o) <$> kws)) = length tokens ∧
    Forall (λ kw, value (tf (IndexType o) kw) = occurrences (IndexType o) kw ∧ (0 <= occurrences (IndexType o) kw)%R) kws.
Proof.
  intros Hpo Hity (HN & _ & Hkw) Hzl HL Htot Hd (kws & Hk & _ & Hrest). exists kws. split; [done|].
  assert (Hzl' : ∀ d, d ∈ D → TokenLen d = f32_of_Z (zl d) ∧ 0 <= zl d < 2 ^ 24).
  { intros d' Hd'. destruct (Hzl d' Hd') as [E H0]. split; [done|]. pose proof (sum_elem zl D d' (λ d H, proj2 (Hzl d H)) Hd'). lia. }
  assert (Hlenk : length tokens = length kws) by by eapply Forall2_length.
  assert (HkwD : ∀ kw, kw ∈ kws → kw ∈ Keywords d).
  { intros kw [i Hi]%elem_of_list_lookup. destruct (Forall2_lookup_r _ _ _ _ _ Hk Hi) as (t & _ & H & _). done. }
  assert (BM25 x = bm25_value log2 (Some p) (zlen D) (f32_div total (f32_of_Z (zlen D))) (doc_len d)
                         (zip (carriers D <$> tokens) (tf (IndexType o) <$> kws))) as E.
  { cbv zeta in Hrest. rewrite Hpo in Hrest. destruct Hrest as (_ & _ & H1 & _ & H2). destruct Hity as [Hi|Hi]; [|by apply H1].
    apply H2; [done|]. apply Forall_forall. intros kw Hin%HkwD. pose proof (Hkw d kw Hd Hin) as H. rewrite Hi in H. simpl in H.
    intros E0. rewrite E0 in H. unfold zlen in H. simpl in H. lia. }
  destruct (Hzl' d Hd) as [El Hl]. rewrite (doc_len_int d (zl d)) in E by done. rewrite (Htot zl Hzl) in E by lia.
  assert (0 < zlen D) as HD by (destruct D; [by apply elem_of_nil in Hd|unfold zlen; simpl; lia]).
  assert (Htf : ∀ kw, kw ∈ kws → modest_freq (tf (IndexType o) kw) ∧ value (tf (IndexType o) kw) = occurrences (IndexType o) kw).
  { intros kw Hin%HkwD. pose proof (Hkw d kw Hd Hin) as H. unfold tf, occurrences. destruct (_ =? _) eqn:Ei; [|done].
    rewrite value_int by lia. split; [|done]. apply modest_freq_int. lia. }
  split; [done|]. split; [done|]. split; [lia|]. split.
  - apply Forall_forall. intros [df f] Hin.
    apply elem_of_list_lookup in Hin as [i Hi]. apply lookup_zip_with_Some in Hi as (a & b & [= -> ->] & Ha & Hb).
    apply list_lookup_fmap_Some in Ha as (k & Hk1 & ->). apply list_lookup_fmap_Some in Hb as (kw & Hk2 & ->). cbn [fst snd]. split.
    + eapply carriers_range; [done|done|]. by eapply elem_of_list_lookup_2.
    + apply Htf. by eapply elem_of_list_lookup_2.
  - split; [rewrite zip_with_length, !fmap_length; lia|]. apply Forall_forall. intros kw Hin. destruct (Htf kw Hin) as [Hm Hv]. split; [done|].
    rewrite <- Hv. destruct Hm as (_ & _ & [->|H] & _); [apply Rle_refl|].
    assert (P20 : (0 < / IZR (2 ^ 20))%R) by (apply Rinv_0_lt_compat, IZR_lt; done). lra.
Qed.

Lemma same_tf ity tokens d1 d2 kws1 kws2 : same_occurrences ity tokens d1 d2 → hit_kws d1 tokens kws1 → hit_kws d2 tokens kws2 →
  tf ity <$> kws1 = tf ity <$> kws2.
Proof.
  intros Hs H1 H2. apply list_eq. intros i. rewrite !list_lookup_fmap.
  pose proof (Forall2_length _ _ _ H1) as L1. pose proof (Forall2_length _ _ _ H2) as L2.
  destruct (kws1 !! i) as [k1|] eqn:E1; [|apply lookup_ge_None in E1; assert (kws2 !! i = None) as -> by (apply lookup_ge_None; lia); done].
  destruct (kws2 !! i) as [k2|] eqn:E2; [|apply lookup_ge_None in E2; apply lookup_lt_Some in E1; lia]. simpl. f_equal.
  destruct (Forall2_lookup_r _ _ _ _ _ H1 E1) as (t & Et & Hk1 & T1). destruct (Forall2_lookup_r _ _ _ _ _ H2 E2) as (t' & Et' & Hk2 & T2).
  simplify_eq. assert (Ht : Text k1 ∈ tokens) by by eapply elem_of_list_lookup_2. pose proof (Hs k1 k2 Hk1 Hk2 Ht ltac:(congruence)) as Hq.
  unfold tf. destruct (ity =? LocsIndex); by rewrite Hq.
Qed.

Section Pair.
  Context (log2 : F → F) (Hlog : accurate_log2 log2) (o : IndexerOpts) (p : BM25Params) (Hpo : BM25Parameters o = Some p) (Hp : modest p).
  Context (Hity : IndexType o = LocsIndex ∨ IndexType o = FrequenciesIndex) (total : F) (D : list DocIndex).
  Context (HD : modest_docs (IndexType o) D) (Htot : total_length total D) (tokens : list string) (Ht : zlen tokens <= 2 ^ 20).
  Context (d1 d2 : DocIndex) (H1 : d1 ∈ D) (H2 : d2 ∈ D) (Hl : not_longer d1 d2) (x1 x2 : IndexedDoc).
  Context (Hx1 : describes log2 o total D tokens d1 x1) (Hx2 : describes log2 o total D tokens d2 x2).

  Lemma pair_same : same_occurrences (IndexType o) tokens d1 d2 → f_ltb (BM25 x1) (BM25 x2) = false.
  Proof.
    intros Hs. destruct (HD) as (_ & (zl & Hzl & HL) & _).
    destruct (described_value log2 o p total D tokens d1 x1 zl Hpo Hity HD Hzl HL Htot H1 Hx1) as (k1 & K1 & E1 & Z1 & N1 & T1 & L1 & _).
    destruct (described_value log2 o p total D tokens d2 x2 zl Hpo Hity HD Hzl HL Htot H2 Hx2) as (k2 & K2 & E2 & Z2 & _).
    rewrite E1, E2. rewrite <- (same_tf _ _ _ _ _ _ Hs K1 K2).
    unfold not_longer in Hl. destruct (Hzl d1 H1) as [F1 _]. destruct (Hzl d2 H2) as [F2 _]. rewrite F1, F2, !value_int in Hl by lia. apply le_IZR in Hl.
    apply value_short; try done; try lia. unfold zlen in *. lia.
  Qed.
  Lemma pair_better : no_fewer_occurrences (IndexType o) tokens d1 d2 → hardly_below (length tokens) (value (BM25 x2)) (value (BM25 x1)).
  Proof.
    intros Hs. destruct (HD) as (_ & (zl & Hzl & HL) & _).
    destruct (described_value log2 o p total D tokens d1 x1 zl Hpo Hity HD Hzl HL Htot H1 Hx1) as (k1 & K1 & E1 & Z1 & N1 & T1 & L1 & O1).
    destruct (described_value log2 o p total D tokens d2 x2 zl Hpo Hity HD Hzl HL Htot H2 Hx2) as (k2 & K2 & E2 & Z2 & _ & T2 & L2 & O2).
    rewrite E1, E2. set (t1 := zip _ (_ <$> k1)) in *. set (t2 := zip _ (_ <$> k2)) in *.
    unfold not_longer in Hl. destruct (Hzl d1 H1) as [F1 _]. destruct (Hzl d2 H2) as [F2 _]. rewrite F1, F2, !value_int in Hl by lia.
    set (L := foldr Z.add 0 _) in *.
    destruct (bm25_accurate log2 Hlog p Hp (zlen D) N1 L HL (zl d1) Z1 t1 T1) as (_ & _ & C1); [unfold zlen in *; lia|].
    destruct (bm25_accurate log2 Hlog p Hp (zlen D) N1 L HL (zl d2) Z2 t2 T2) as (_ & _ & C2); [unfold zlen in *; lia|].
    rewrite L1 in C1. rewrite L2 in C2. eapply floats_hardly_below; [unfold zlen in Ht; lia|exact C1|exact C2|].
    assert (Hsens : sensible p (zlen D) (IZR L / IZR (zlen D))) by by apply modest_sensible.
    apply (Rle_trans _ (exact_bm25 p (zlen D) (IZR L / IZR (zlen D)) (IZR (zl d1)) ((λ t : Z * F, (fst t, value (snd t))) <$> t2))).
    - apply exact_short; [done|split; [apply IZR_le; lia|done]|]. apply Forall_fmap. eapply Forall_impl; [exact T2|].
      intros t [A (_ & _ & [B|B] & _)]; cbn [fst snd compose]; (split; [lia|]); [lra|].
      assert (P20 : (0 < / IZR (2 ^ 20))%R) by (apply Rinv_0_lt_compat, IZR_lt; done). lra.
    - apply exact_frequent; [done|apply IZR_le; lia| |].
      + apply Forall_fmap. eapply Forall_impl; [exact T1|]. intros t [A _]. cbn [fst snd compose]. lia.
      + unfold at_least_as_frequent. apply Forall2_fmap, Forall2_same_length_lookup. split; [congruence|].
        intros i u1 u2 U1 U2. unfold t1, t2 in U1, U2.
        apply lookup_zip_with_Some in U1 as (a & b & -> & Ua & Ub). apply lookup_zip_with_Some in U2 as (a' & b' & -> & Ua' & Ub'). cbn [fst snd].
        apply list_lookup_fmap_Some in Ub as (w1 & W1 & ->). apply list_lookup_fmap_Some in Ub' as (w2 & W2 & ->).
        split; [congruence|]. rewrite Forall_forall in O1, O2.
        destruct (O1 w1) as [-> _]; [by eapply elem_of_list_lookup_2|]. destruct (O2 w2) as [-> P2]; [by eapply elem_of_list_lookup_2|]. split; [done|].
        destruct (Forall2_lookup_r _ _ _ _ _ K1 W1) as (t & Et & M1 & X1). destruct (Forall2_lookup_r _ _ _ _ _ K2 W2) as (t' & Et' & M2 & X2).
        simplify_eq. apply Hs; [done|done| |congruence]. by eapply elem_of_list_lookup_2.
  Qed.
End Pair.

Lemma once_same cs d f ct a fo d' f' ct' a' fo' : NoDup (omap call_id cs) → EIndex d f ct a fo ∈ cs → EIndex d' f' ct' a' fo' ∈ cs → DocId d = DocId d' →
  EIndex d f ct a fo = EIndex d' f' ct' a' fo'.
Proof.
  intros Hn H1 H2 E. induction cs as [|c cs IH]; [by apply elem_of_nil in H1|].
  assert (Hid : ∀ d f ct a fo, EIndex d f ct a fo ∈ cs → DocId d ∈ omap call_id cs).
  { intros. apply elem_of_list_omap. by eexists. }
  apply elem_of_cons in H1 as [<-|H1]; apply elem_of_cons in H2 as [H2|H2]; try done.
  - exfalso. apply Hid in H2. rewrite <- E in H2. simpl in Hn. by apply NoDup_cons in Hn as [Hn _].
  - exfalso. subst c. apply Hid in H1. rewrite E in H1. simpl in Hn. by apply NoDup_cons in Hn as [Hn _].
  - apply IH; try done. simpl in Hn. destruct (call_id c); [by apply NoDup_cons in Hn as [_ Hn]|done].
Qed.

Section Answers.
  Context (murmur : string → Z) (n : Z) (Hn : 1 <= n < 2^32) (log2 : F → F) (Hlog : accurate_log2 log2).
  Context (o : IndexerOpts) (p : BM25Params) (Hpo : BM25Parameters o = Some p) (Hp : modest p).
  Context (Hity : IndexType o = LocsIndex ∨ IndexType o = FrequenciesIndex).
  Context (cs : list ecall) (Hcs : NoDup (omap call_id cs)) (totals : Z → F).
  Context (Htot : ∀ i, 0 <= i < n → total_length (totals i) (shard_docs murmur n i cs)).
  Context (Hdocs : ∀ i, 0 <= i < n → shard_docs murmur n i cs ≠ [] → modest_docs (IndexType o) (shard_docs murmur n i cs)).
  Context (only : bool) (req : SearchReq) (full out : list ScoredDoc).
  Context (Hs : ScoringCriteria (rqOpts req) = RankByBM25) (Ht : zlen (rqTokens req) <= 2 ^ 20).
  Context (Ha : answers_scored log2 o murmur n only cs totals req full out).

  (** An entry of the answer is about the document of its id. *)
  Lemma entry_told h d f ct a fo : h ∈ full → EIndex d f ct a fo ∈ cs → sdDocId h = DocId d →
    ∃ x, (let i := shard_for murmur n (DocId d) ct in describes log2 o (totals i) (shard_docs murmur n i cs) (rqTokens req) d x) ∧ sdScores h = [BM25 x].
  Proof.
    intros Hh Hc Hid. destruct Ha as (_ & _ & _ & _ & Hin & _). rewrite Hs in Hin.
    destruct (Hin h Hh) as (d' & f' & ct' & a' & fo' & x & Hc' & Hw & Hx & _ & ->). cbn [sdDocId entry_for] in Hid.
    assert (ixDocId x = DocId d') as E by (destruct Hx as (_ & _ & E & _); exact E).
    pose proof (once_same cs _ _ _ _ _ _ _ _ _ _ Hcs Hc Hc' ltac:(congruence)) as [= -> -> -> -> ->]. by exists x.
  Qed.
  Lemma in_shard d f ct a fo : EIndex d f ct a fo ∈ cs → d ∈ shard_docs murmur n (shard_for murmur n (DocId d) ct) cs.
  Proof. intros Hc. unfold shard_docs. apply elem_of_list_omap. exists (EIndex d f ct a fo). split; [done|]. cbn. by rewrite Z.eqb_refl. Qed.

  Lemma neighbours_told d1 d2 h1 h2 : neighbours murmur n cs d1 d2 → h1 ∈ full → h2 ∈ full → sdDocId h1 = DocId d1 → sdDocId h2 = DocId d2 →
    ∃ D total x1 x2, modest_docs (IndexType o) D ∧ total_length total D ∧ d1 ∈ D ∧ d2 ∈ D ∧
      describes log2 o total D (rqTokens req) d1 x1 ∧ describes log2 o total D (rqTokens req) d2 x2 ∧
      sdScores h1 = [BM25 x1] ∧ sdScores h2 = [BM25 x2].
  Proof.
    intros (f1 & ct1 & a1 & fo1 & f2 & ct2 & a2 & fo2 & C1 & C2 & Hsh) M1 M2 I1 I2.
    destruct (entry_told _ _ _ _ _ _ M1 C1 I1) as (x1 & X1 & S1). destruct (entry_told _ _ _ _ _ _ M2 C2 I2) as (x2 & X2 & S2).
    cbv zeta in X1, X2. rewrite <- Hsh in X2. pose proof (in_shard _ _ _ _ _ C1) as D1. pose proof (in_shard _ _ _ _ _ C2) as D2. rewrite <- Hsh in D2.
    assert (Hi : 0 <= shard_for murmur n (DocId d1) ct1 < n) by (unfold shard_for; apply Z.mod_pos_bound; lia).
    eexists _, _, x1, x2. split; [|split; [by apply Htot|done]].
    apply Hdocs; [done|]. intros E. rewrite E in D1. by apply elem_of_nil in D1.
  Qed.
  Lemma neighbours_numbers d1 h1 D total x1 : d1 ∈ D → modest_docs (IndexType o) D → total_length total D → describes log2 o total D (rqTokens req) d1 x1 →
    sdScores h1 = [BM25 x1] → valid_binary 24 128 (BM25 x1) = true ∧ a_number (BM25 x1).
  Proof.
    intros M HD HT Hx _. destruct (described_score log2 o p total D (rqTokens req) d1 x1) as (_ & _ & V & A & _); done.
  Qed.

  Lemma told_full_out h : h ∈ out → h ∈ full.
  Proof. intros H. destruct Ha as (_ & _ & Hsub & _). by eapply elem_of_submseteq. Qed.

  Lemma answer_number h : h ∈ full → ∃ v, sdScores h = [v] ∧ valid_binary 24 128 v = true ∧ a_number v.
  Proof.
    intros Hh. destruct (Ha) as (_ & _ & _ & _ & Hin & _). rewrite Hs in Hin.
    destruct (Hin h Hh) as (d & f & ct & a & fo & x & Hc & Hw & Hx & _ & ->).
    destruct (told_score murmur n Hn log2 Hlog o p Hpo Hp Hity cs totals Htot Hdocs _ _ _ _ _ _ _ Ht Hc Hx) as (kws & _ & V & A & _). by exists (BM25 x).
  Qed.
  (** Entries of the answer stand in the order of their scores. *)
  Lemma out_ordered i j h1 h2 v1 v2 : (i < j)%nat → out !! i = Some h1 → out !! j = Some h2 → sdScores h1 = [v1] → sdScores h2 = [v2] →
    if ReverseOrder (rqOpts req) then (value v1 <= value v2)%R else (value v2 <= value v1)%R.
  Proof.
    intros Hij H1 H2 E1 E2. destruct (Ha) as (Ho & Hpg & _).
    destruct (Forall2_lookup_l _ _ _ _ _ Hpg H1) as (g1 & G1 & S1). destruct (Forall2_lookup_l _ _ _ _ _ Hpg H2) as (g2 & G2 & S2).
    destruct (answer_number g1) as (w1 & Ew1 & W1 & M1); [eapply page_elem, elem_of_list_lookup_2; done|].
    destruct (answer_number g2) as (w2 & Ew2 & W2 & M2); [eapply page_elem, elem_of_list_lookup_2; done|].
    destruct (answer_number h1) as (v1' & Ev1 & V1 & N1); [apply told_full_out; by eapply elem_of_list_lookup_2|].
    destruct (answer_number h2) as (v2' & Ev2 & V2 & N2); [apply told_full_out; by eapply elem_of_list_lookup_2|].
    rewrite E1 in Ev1. rewrite E2 in Ev2. injection Ev1 as <-. injection Ev2 as <-.
    unfold same_scores, score_eq in S1, S2. rewrite E1, Ew1 in S1. rewrite E2, Ew2 in S2.
    apply Forall2_cons in S1 as [S1 _]. apply Forall2_cons in S2 as [S2 _].
    apply eq_value in S1; [|done..]. apply eq_value in S2; [|done..].
    pose proof (sorted_lookup _ _ _ _ _ _ (page_sorted _ _ _ _ Ho) Hij G1 G2) as Hr. cbv beta in Hr. rewrite Ew1, Ew2 in Hr.
    destruct (ReverseOrder _); apply not_above in Hr; try done; by rewrite S1, S2.
  Qed.

  Theorem answer_shorter_first : shorter_first (IndexType o) murmur n cs req out.
  Proof.
    intros d1 d2 i j h1 h2 Hnb Hso Hnl O1 O2 I1 I2.
    assert (F1 : h1 ∈ full) by (apply told_full_out; by eapply elem_of_list_lookup_2).
    assert (F2 : h2 ∈ full) by (apply told_full_out; by eapply elem_of_list_lookup_2).
    destruct (neighbours_told d1 d2 h1 h2 Hnb F1 F2 I1 I2) as (D & total & x1 & x2 & HD & HT & D1 & D2 & X1 & X2 & S1 & S2).
    exists (BM25 x1), (BM25 x2). split; [done|]. split; [done|].
    assert (Hb : f_ltb (BM25 x1) (BM25 x2) = false).
    { exact (pair_same log2 Hlog o p Hpo Hp Hity total D HD HT (rqTokens req) Ht d1 d2 D1 D2 Hnl x1 x2 X1 X2 Hso). }
    split; [done|]. intros Hij.
    destruct (neighbours_numbers d1 h1 D total x1 D1 HD HT X1 S1) as [V1 N1]. destruct (neighbours_numbers d2 h2 D total x2 D2 HD HT X2 S2) as [V2 N2].
    unfold f_ltb in Hb. rewrite (ltb_real 24 128) in Hb by (by apply okf_of). rewrite <- !value_sfR in Hb.
    revert Hb. case Rlt_bool_spec; [intros _ Hb; discriminate Hb|]. intros Hge _.
    unfold f_eqb. rewrite (eqb_real 24 128) by (by apply okf_of). rewrite <- !value_sfR. apply Req_bool_true.
    assert (value (BM25 x1) <= value (BM25 x2))%R.
    { pose proof (out_ordered i j h1 h2 (BM25 x1) (BM25 x2)) as A. pose proof (out_ordered j i h2 h1 (BM25 x2) (BM25 x1)) as B. destruct (ReverseOrder _); [by apply A|by apply B]. }
    apply Rle_antisym; assumption.
  Qed.
  Theorem answer_better : better_not_below (IndexType o) murmur n cs req out.
  Proof.
    intros d1 d2 h1 h2 Hnb Hso Hnl O1 O2 I1 I2.
    destruct (neighbours_told d1 d2 h1 h2 Hnb (told_full_out _ O1) (told_full_out _ O2) I1 I2) as (D & total & x1 & x2 & HD & HT & D1 & D2 & X1 & X2 & S1 & S2).
    exists (BM25 x1), (BM25 x2). split; [done|]. split; [done|]. exact (pair_better log2 Hlog o p Hpo Hp Hity total D HD HT (rqTokens req) Ht d1 d2 D1 D2 Hnl x1 x2 X1 X2 Hso).
  Qed.
End Answers.

Theorem search_shorter murmur n only reqsFirst cap sortDocs sortBy o s0 nseg progs s shards log2 req order p :
  1 <= n < 2^32 → valid_sort sortDocs → valid_sortBy sortBy → Init o = Some s0 →
  pipe_reach murmur n only reqsFirst cap nseg progs s → quiescent s → once_each (ordinary (mjoin progs)) →
  engine_shards sortDocs s0 only n s shards → Forall nothing_waits shards →
  plain_request o req → ScoringCriteria (rqOpts req) = RankByBM25 → zlen (rqTokens req) <= 2 ^ 20 →
  IndexType o = LocsIndex ∨ IndexType o = FrequenciesIndex → BM25Parameters o = Some p → modest p → accurate_log2 log2 →
  (∀ i, 0 <= i < n → shard_docs murmur n i (ordinary (mjoin progs)) ≠ [] → modest_docs (IndexType o) (shard_docs murmur n i (ordinary (mjoin progs)))) →
  all_arrive (length shards) order →
  ∃ full out, Search log2 sortBy req shards order = Some (mkResp (rqTokens req) false (zlen full) (Some out)) ∧
    answers_scored log2 o murmur n only (ordinary (mjoin progs)) (shard_total shards) req full out ∧
    shorter_first (IndexType o) murmur n (ordinary (mjoin progs)) req out ∧
    better_not_below (IndexType o) murmur n (ordinary (mjoin progs)) req out.
Proof.
  intros Hn Hv Hvb HI Hr Hq Ho Hsh Hw Hrq Hsc Ht Hity Hpo Hp Hlog Hdocs Ha.
  destruct (search_ranked murmur n only reqsFirst cap sortDocs sortBy o s0 nseg progs s shards log2 req order p
    Hn Hv Hvb HI Hr Hq Ho Hsh Hw Hrq Hsc Ht Hity Hpo Hp Hlog Hdocs Ha) as (full & out & H1 & H2 & _).
  assert (Htot : ∀ i, 0 <= i < n → total_length (shard_total shards i) (shard_docs murmur n i (ordinary (mjoin progs)))).
  { intros i Hi. by eapply scored_totals. }
  exists full, out. split; [done|]. split; [done|]. destruct Ho as [_ Hnd].
  split; [eapply answer_shorter_first; done|eapply answer_better; done].
Qed.
Theorem flight_shorter murmur n only reqsFirst cap sortDocs sortBy o s0 nseg progs s shards log2 nn ccap
    clients tl tr ls fs a req t0 p :
  1 <= n < 2^32 → valid_sort sortDocs → valid_sortBy sortBy → Init o = Some s0 →
  pipe_reach murmur n only reqsFirst cap nseg progs s → quiescent s → once_each (ordinary (mjoin progs)) →
  engine_shards sortDocs s0 only n s shards → Forall nothing_waits shards →
  frun log2 sortBy nn ccap ls (fInit nn clients tl tr shards) = Some fs → Forall read_only ls → length shards = nn →
  a ∈ fAnswers fs → fReqs fs !! faSearch a = Some (req, t0) →
  plain_request o req → ScoringCriteria (rqOpts req) = RankByBM25 → zlen (rqTokens req) <= 2 ^ 20 →
  IndexType o = LocsIndex ∨ IndexType o = FrequenciesIndex → BM25Parameters o = Some p → modest p → accurate_log2 log2 →
  (∀ i, 0 <= i < n → shard_docs murmur n i (ordinary (mjoin progs)) ≠ [] → modest_docs (IndexType o) (shard_docs murmur n i (ordinary (mjoin progs)))) →
  ∃ full out, faResp a = mkResp (rqTokens req) false (zlen full) (Some out) ∧
    answers_scored log2 o murmur n only (ordinary (mjoin progs)) (shard_total shards) req full out ∧
    shorter_first (IndexType o) murmur n (ordinary (mjoin progs)) req out ∧
    better_not_below (IndexType o) murmur n (ordinary (mjoin progs)) req out.
Proof.
  intros Hn Hv Hvb HI Hr Hq Ho Hsh Hw Hf Hro Hl Ha Hrt Hrq Hsc Ht Hity Hpo Hp Hlog Hdocs.
  destruct (flight_ranked murmur n only reqsFirst cap sortDocs sortBy o s0 nseg progs s shards log2 nn ccap clients tl tr ls fs a req t0 p
    Hn Hv Hvb HI Hr Hq Ho Hsh Hw Hf Hro Hl Ha Hrt Hrq Hsc Ht Hity Hpo Hp Hlog Hdocs) as (full & out & H1 & H2 & _).
  assert (Htot : ∀ i, 0 <= i < n → total_length (shard_total shards i) (shard_docs murmur n i (ordinary (mjoin progs)))).
  { intros i Hi. by eapply scored_totals. }
  exists full, out. split; [done|]. split; [done|]. destruct Ho as [_ Hnd].
  split; [eapply answer_shorter_first; done|eapply answer_better; done].
Qed.
