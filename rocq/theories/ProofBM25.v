(** Scores computed with the BM25 formula are numbers and not negative. *)
From Coq Require Import Floats.SpecFloat.
From Verif Require Import ModelEngine SpecIndexer SpecSearch SpecLogic SpecTotal SpecRank SpecEngine SpecBM25
  ProofFloat ProofMag ProofIxThms ProofSearchThms ProofTotal ProofEngine.

Lemma one_below : below 10 (f32_of_Z 1).
Proof. by vm_compute. Qed.

Lemma one_minus x : from_0_to 10 x → f_ltb (f32_of_Z 1) x = false → nn (f32_sub (f32_of_Z 1) x).
Proof.
  intros Hx Hle. pose proof (from_below _ _ Hx) as Hb.
  change (f32_of_Z 1) with (S754_finite false 8388608 (-23)) in *.
  destruct x as [s|s| |s m e]; [done|done|done|]. destruct Hb as (-> & Hc & _).
  rewrite fexp_eq in Hc. unfold f_ltb, SFltb in Hle. cbn [SFcompare] in Hle.
  unfold f32_sub. cbn [SFsub cond_Zopp].
  assert (H : 0 <= Zpos (fst (shl_align 8388608 (-23) (Z.min (-23) e))) - Zpos (fst (shl_align m e (Z.min (-23) e)))).
  { rewrite !align_eq by lia. destruct (Z.compare_spec (-23) e) as [E|E|E]; [| done|].
    - subst e. change (Z.min (-23) (-23)) with (-23). change (-23 - -23) with 0. rewrite !Z.pow_0_r.
      change (Pos.compare_cont Eq 8388608 m) with (8388608 ?= m)%positive in Hle.
      destruct (Pos.compare_spec 8388608 m) as [X|X|X]; [lia|done|lia].
    - replace (Z.min (-23) e) with e by lia. replace (e - e) with 0 by lia. rewrite Z.pow_0_r.
      assert (Zpos m < 2 ^ 24) as Hm by (apply Z.log2_lt_pow2; lia).
      assert (2 ^ 1 <= 2 ^ (-23 - e)) as Hp by (apply Z.pow_le_mono_r; lia).
      change (2 ^ 24) with 16777216 in Hm. change (2 ^ 1) with 2 in Hp. lia. }
  revert H. generalize (Zpos (fst (shl_align 8388608 (-23) (Z.min (-23) e))) - Zpos (fst (shl_align m e (Z.min (-23) e)))).
  intros [|p|p] H; [exact I|apply round_nn|lia].
Qed.

Lemma gtb_nz x : nn x → f_gtb x f_zero = true → nz x.
Proof. destruct x; done. Qed.

Lemma term_nn log2 p N df tfr len avg : usual p → usual_log2 log2 → 0 < N < 2 ^ 63 → 0 < df < 2 ^ 63 →
  below 64 tfr → nz tfr → below 100 len → nn avg → nz avg → nn (bm25_term log2 p N df tfr len avg).
Proof.
  intros (HK & HKp & HB & HB1) Hlog HN Hdf Htf Htfz Hlen Ha Haz. unfold bm25_term.
  apply from_below in HK as HK'. apply from_below in HB as HB'.
  assert (Hidf : below 8 (f32_of_f64 (log2 (f64_add (f64_div (f64_of_Z N) (f64_of_Z df)) (f64_of_Z 1))))).
  { specialize (Hlog N df HN Hdf). destruct (log2 _) as [s|s| |s m e]; [done|done|done|].
    destruct Hlog as [-> Hl]. cbn [f32_of_f64 cond_Zopp binary_normalize]. apply (round_below _ _ 7); lia. }
  set (idf := f32_of_f64 _) in *.
  assert (H1 : below 73 (f32_mul idf tfr)) by (apply (mul_below 8 64); [done|done|lia]).
  assert (H2 : below 12 (f32_add (K1 p) (f32_of_Z 1))) by (apply (add_below 10); [done|exact one_below|lia]).
  assert (H3 : below 86 (f32_mul (f32_mul idf tfr) (f32_add (K1 p) (f32_of_Z 1)))) by (apply (mul_below 73 12); [done|done|lia]).
  assert (H4 : below 111 (f32_mul (B p) len)) by (apply (mul_below 10 100); [done|done|lia]).
  assert (H5 : nn (f32_div (f32_mul (B p) len) avg)).
  { apply div_nn; [by eapply below_nn|done|by eapply below_fin|done]. }
  assert (H6 : nn (f32_add (f32_sub (f32_of_Z 1) (B p)) (f32_div (f32_mul (B p) len) avg))).
  { apply add_nn; [by apply one_minus|done]. }
  assert (H7 : nn (f32_mul (K1 p) (f32_add (f32_sub (f32_of_Z 1) (B p)) (f32_div (f32_mul (B p) len) avg)))).
  { apply mul_nn; [by eapply below_nn|done|by eapply below_fin|]. apply gtb_nz; [by eapply below_nn|done]. }
  assert (Htn : nn tfr) by by eapply below_nn.
  apply div_nn; [by eapply below_nn|by apply add_nn|by eapply below_fin|].
  apply add_nz; [done|done| |done]. eapply below_mono; [|done]. lia.
Qed.

Lemma sum_nn l : ∀ x, nn x → Forall nn l → nn (foldl f32_add x l).
Proof.
  induction l as [|y l IH]; intros x Hx Hl; [done|]. cbn [foldl]. apply Forall_cons in Hl as [Hy Hl].
  apply IH; [by apply add_nn|done].
Qed.

Lemma eqb_nz x : nn x → f_eqb x f_zero = false → nz x.
Proof. destruct x; done. Qed.

Lemma value_nn log2 par N total len terms : (∀ p, par = Some p → usual p) → usual_log2 log2 → 0 < N < 2 ^ 63 →
  nn total → fin total → below 100 len → Forall (λ t, 0 < t.1 < 2 ^ 63 ∧ below 64 t.2) terms →
  nn (bm25_value log2 par N (f32_div total (f32_of_Z N)) len terms).
Proof.
  intros Hp Hlog HN Ht Htf Hlen Hterms. unfold bm25_value. destruct par as [p|]; [|done].
  destruct (f_eqb _ f_zero) eqn:E; [done|]. destruct (of_Z_below N HN) as [HNb HNz].
  assert (Ha : nn (f32_div total (f32_of_Z N))) by (apply div_nn; [done|by eapply below_nn|done|done]).
  apply sum_nn; [done|]. apply Forall_fmap, Forall_forall. intros t Hin.
  apply elem_of_list_filter in Hin as [Hg Hin]. rewrite Forall_forall in Hterms. destruct (Hterms t Hin) as [Hdf Htb].
  apply term_nn; [by apply Hp|done|done|done|done| |done|done|by apply eqb_nz].
  apply gtb_nz; [by eapply below_nn|done].
Qed.

Lemma doc_len_below d : from_0_to 100 (TokenLen d) → below 100 (doc_len d).
Proof. intros H. unfold doc_len. destruct (f_eqb _ _); [done|by apply from_below]. Qed.

Lemma tf_below ity kw : from_0_to 64 (Frequency kw) → zlen (Starts kw) < 2 ^ 63 → below 64 (tf ity kw).
Proof.
  intros Hf Hz. unfold tf. destruct (ity =? LocsIndex); [|by apply from_below].
  pose proof (zlen_nonneg (Starts kw)). destruct (Z.eq_dec (zlen (Starts kw)) 0) as [->|]; [done|].
  apply of_Z_below. lia.
Qed.

Lemma scores_lem sortDocs o ops s log2 : reach sortDocs o ops s →
  (∀ p, BM25Parameters (initOptions s) = Some p → usual p) → usual_log2 log2 →
  (∀ d, added d ops → usual_doc d) → nn (totalTokenLen s) → fin (totalTokenLen s) →
  numDocs s < 2 ^ 63 → (∀ k n, row_count s k n → n < 2 ^ 63) →
  ∀ tokens labels flt logic docs n, plain_logic logic →
    Lookup log2 s tokens labels flt false logic = Some (docs, n) → Forall (λ r, a_score (BM25 r)) docs.
Proof.
  intros HR Hp Hlog Hd Ht Htf HN Hrows tokens labels flt logic docs n Hpl Hrun.
  destruct (search_thm _ _ _ _ log2 HR) as (M & Hs & Ha & HL).
  destruct (HL tokens labels flt logic Hpl) as (hits & Hsort & Hh & [(_ & _ & _ & Hn)|(_ & docs' & HL' & _ & _ & Hr)]).
  { by rewrite Hn in Hrun. }
  rewrite HL' in Hrun. injection Hrun as -> _. apply Forall_forall. intros r Hin. apply score_nn.
  destruct (Hr r Hin) as (d & kws & HM & Hk & Hfld).
  assert (Hu : usual_doc d) by (apply Hd; by eapply Ha). destruct Hu as [Hul Huk].
  assert (HNp : 0 < numDocs s).
  { destruct (numDocs_count _ _ _ _ HR) as (L & _ & HLv & ->). destruct Hs as (Hs & _).
    assert (ixDocId r ∈ L) as Hel by (apply HLv, Hs; by eexists). destruct L; [by apply elem_of_nil in Hel|].
    rewrite zlen_cons. pose proof (zlen_nonneg L). lia. }
  assert (Hbm : ∀ dfs ity, Forall2 (row_count s) tokens dfs →
    nn (bm25_value log2 (BM25Parameters (initOptions s)) (numDocs s)
               (f32_div (totalTokenLen s) (f32_of_Z (numDocs s))) (doc_len d) (zip dfs (tf ity <$> kws)))).
  { intros dfs ity Hdf. apply value_nn; [done|done|lia|done|done|by apply doc_len_below|].
    clear -Hk Hdf Huk Hrows Hs HM. revert kws Hk. induction Hdf as [|t df ts dfs Hrc Hdf IH]; intros kws Hk.
    - inversion Hk. constructor.
    - inversion Hk as [|? kw ? kws' [Hkd Hkt] Hk']; subst. cbn [fmap list_fmap zip zip_with]. constructor; [|by apply IH].
      cbn [fst snd]. rewrite Forall_forall in Huk. destruct (Huk kw Hkd) as [Hf1 Hf2]. split; [|by apply tf_below].
      split; [|by eapply Hrows]. destruct Hrc as (L & _ & HLr & ->).
      assert (ixDocId r ∈ L) as Hel.
      { apply HLr. destruct Hs as (_ & _ & Hs & _). apply (Hs _ _ _ HM). apply elem_of_list_fmap. by exists kw. }
      destruct L; [by apply elem_of_nil in Hel|]. rewrite zlen_cons. pose proof (zlen_nonneg L). lia. }
  destruct Hfld as (_ & _ & F0 & F1 & F2 & F3).
  destruct (Z.eq_dec (IndexType (initOptions s)) LocsIndex) as [E|E].
  - destruct (decide (Exists (λ kw, Starts kw = []) kws)) as [Hx|Hx].
    + by rewrite (F2 E Hx).
    + apply not_Exists_Forall in Hx; [|intros kw; apply _]. destruct (F3 E Hx) as [(dfs & Hdf & ->) _]. by apply Hbm.
  - destruct (Z.eq_dec (IndexType (initOptions s)) FrequenciesIndex) as [E2|E2].
    + destruct (F1 E2) as (dfs & Hdf & ->). by apply Hbm.
    + by rewrite (F0 E E2).
Qed.

Lemma of_Z_nn n : 0 <= n < 2 ^ 63 → nn (f32_of_Z n) ∧ fin (f32_of_Z n).
Proof.
  intros Hn. destruct (Z.eq_dec n 0) as [->|]; [done|].
  destruct (of_Z_below n ltac:(lia)) as [H _]. split; [by eapply below_nn|by eapply below_fin].
Qed.

Lemma scores_small_lem sortDocs o ops s log2 zl : reach sortDocs o ops s →
  (∀ p, BM25Parameters (initOptions s) = Some p → usual p) → usual_log2 log2 →
  (∀ d, added d ops → usual_doc d) → 
  (∀ d, added d ops → TokenLen d = f32_of_Z (zl d) ∧ 0 <= zl d < 2 ^ 24) → added_len zl ops < 2 ^ 24 →
  numDocs s < 2 ^ 63 → (∀ k n, row_count s k n → n < 2 ^ 63) →
  ∀ tokens labels flt logic docs n, plain_logic logic →
    Lookup log2 s tokens labels flt false logic = Some (docs, n) → Forall (λ r, a_score (BM25 r)) docs.
Proof.
  intros HR Hp Hlog Hd Hz Hsum HN Hrows.
  destruct (C20_additions_lem _ _ _ _ _ HR Hz Hsum) as (M & D & Hc & Hdr & Ht).
  assert (Hz0 : ∀ d, added d ops → 0 <= zl d) by (intros d Hd'; by destruct (Hz d Hd') as [_ [? _]]).
  pose proof (drawn_sum zl ops D Hz0 Hdr).
  assert (0 <= sum_len zl D).
  { rewrite <- sumZ_lensOf. apply sumZ_nonneg. intros id n Hn. unfold lensOf in Hn.
    apply lookup_omap_Some in Hn as (d & Hd1 & Hd2). destruct (Hdr _ _ Hd2) as [Hd3 _]. destruct (Hz d Hd3) as [_ ?].
    revert Hd1. destruct (Z.eqb_spec (zl d) 0); [done|]. injection 1 as <-. lia. }
  destruct (of_Z_nn (sum_len zl D)) as [H1 H2]; [lia|]. rewrite <- Ht in H1, H2.
  by apply (scores_lem sortDocs o ops s log2).
Qed.

(** * The default criterion *)
Lemma default_no_nan only parts : Forall (λ p, Forall (λ r, a_score (BM25 r)) p.2) parts →
  no_nan (all_hits only (λ d _, [BM25 d]) parts).
Proof.
  intros H. unfold no_nan, all_hits. apply Forall_forall. intros e He.
  apply elem_of_list_join in He as (l & He & Hl). apply elem_of_list_fmap in Hl as (p & -> & Hp).
  unfold hits in He. apply elem_of_list_omap in He as (d & Hd & He). unfold expected in He.
  destruct (known _ _ _) as [[[f c] a]|]; [|done]. injection He as <-. constructor; [|constructor].
  rewrite Forall_forall in H. specialize (H p Hp). rewrite Forall_forall in H. by destruct (H d Hd).
Qed.

Lemma scores_total_lem sortDocs o ops s log2 : reach sortDocs o ops s →
  (∀ p, BM25Parameters (initOptions s) = Some p → usual p) → usual_log2 log2 →
  (∀ d, added d ops → usual_doc d) → from_0_to 127 (totalTokenLen s) →
  numDocs s < 2 ^ 63 → (∀ k n, row_count s k n → n < 2 ^ 63) →
  ∀ tokens labels flt logic docs n, plain_logic logic →
    Lookup log2 s tokens labels flt false logic = Some (docs, n) → Forall (λ r, a_score (BM25 r)) docs.
Proof.
  intros HR Hp Hlog Hd Ht. apply from_below in Ht.
  apply (scores_lem sortDocs o ops s log2 HR Hp Hlog Hd); [by eapply below_nn|by eapply below_fin].
Qed.

Lemma default_search_lem log2 sortBy only toks labels logic ids rev off max orderless shards parts order :
  let req := mkReq toks labels logic ids (mkRankOpts (λ d _, [BM25 d]) rev off max) 0 false orderless in
  valid_sortBy sortBy → Forall2 (shard_view log2 only req) shards parts →
  Forall (λ p, Forall (λ r, a_score (BM25 r)) p.2) parts → orderless = false →
  0 <= off → 0 <= max → off + max < 2^63 → all_arrive (length shards) order →
  ∃ full out,
    full ≡ₚ all_hits only (λ d _, [BM25 d]) parts ∧ in_order rev full ∧
    Search log2 sortBy req shards order = Some (mkResp toks false (zlen full) (Some out)) ∧
    Forall2 same_scores out (page off max full) ∧ out ⊆+ full.
Proof.
  intros req Hv Hf Hs -> Ho Hm Hb Ha.
  exact (C32_lem log2 sortBy only req shards parts order Hv (default_no_nan only parts Hs) Hf (conj eq_refl eq_refl)
    ltac:(reflexivity || (cbn; lia)) Ho Hm Hb Ha).
Qed.
