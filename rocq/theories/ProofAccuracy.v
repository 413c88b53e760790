(** Proofs for C114: BM25 in floating point against the formula over the reals. *)
From Coq Require Import Reals Lra Floats.SpecFloat.
From Flocq Require Import Core BinarySingleNaN.
From Verif Require Import ProofReal ProofReal32 ProofReal64.
From Verif Require Import ModelLookup ModelPipe ModelEngine ModelFlight ModelScoring SpecIndexer SpecSearch SpecRank SpecRoute SpecPipe SpecEngine SpecFlight SpecEnd
  SpecBM25 SpecScored SpecAccuracy ProofScored.

Lemma value_sfR x : value x = sfR x.
Proof.
  destruct x as [| | |s m e]; try done. cbn [value]. unfold sfR. cbn [SF2R]. unfold F2R. cbn [Fnum Fexp].
  rewrite bpow_powerRZ. by destruct s.
Qed.
Lemma okf_of prec emax x : valid_binary prec emax x = true → a_number x → okf prec emax x.
Proof. intros H1 H2. split; [done|]. by destruct x. Qed.
Lemma of_okf prec emax x : okf prec emax x → valid_binary prec emax x = true ∧ a_number x.
Proof. intros [H1 H2]. split; [done|]. by destruct x. Qed.
Lemma bpow_m20 : bpow radix2 (-20) = (/ IZR (2 ^ 20))%R.
Proof. done. Qed.
Lemma f32_ofZ n : f32_of_Z n = SpecFloat.binary_normalize 24 128 n 0 false.
Proof. done. Qed.

Section Terms.
  Context (log2 : F → F) (Hlog : accurate_log2 log2) (p : BM25Params) (Hp : modest p).
  Context (N : Z) (HN : 0 < N < 2 ^ 24) (L : Z) (HL : 0 < L < 2 ^ 24) (len : Z) (Hlen : 0 <= len < 2 ^ 24).
  Notation avg := (f32_div (f32_of_Z L) (f32_of_Z N)).
  Notation avgR := (IZR L / IZR N)%R.

  Lemma avg_real : Fl 1 (-24) 24 avg avgR.
  Proof.
    assert (HN0 : (0 < IZR N)%R) by (apply IZR_lt; lia).
    assert (HL0 : (0 < IZR L)%R) by (apply IZR_lt; lia).
    assert (HFN := Fl_int N ltac:(lia)). assert (HFL := Fl_int L ltac:(lia)).
    apply (Fl_div 0 0 0 0 24 24); try done; try lia.
  Qed.
  Lemma avg_pos : (0 < avgR)%R.
  Proof. apply Rdiv_lt_0_compat; apply IZR_lt; lia. Qed.
  Lemma avg_not_zero : f_eqb avg f_zero = false.
  Proof.
    destruct avg_real as (O & Hn & _). unfold f_eqb. rewrite (eqb_real 24 128) by done.
    apply Req_bool_false. change (sfR f_zero) with 0%R. destruct Hn as (_ & _ & Hn). intros E. rewrite E in Hn.
    pose proof avg_pos. lra.
  Qed.

  Lemma term_ok df f : 1 <= df <= N → modest_freq f → f_gtb f f_zero = true →
    Fl 12 (-90) 70 (bm25_term log2 p N df f (f32_of_Z len) avg)
      (exact_term (value (K1 p)) (value (B p)) N df (value f) (IZR len) avgR).
  Proof.
    intros Hdf (Vf & Nf & Lf & Uf) Hf.
    destruct Hp as [(V1 & N1 & L1 & U1) (V2 & N2 & L2 & U2)].
    rewrite !value_sfR in *. pose proof (okf_of _ _ _ V1 N1) as O1. pose proof (okf_of _ _ _ V2 N2) as O2. pose proof (okf_of _ _ _ Vf Nf) as Of.
    assert (Pf : (0 < sfR f)%R).
    { unfold f_gtb in Hf. rewrite (ltb_real 24 128) in Hf by done. change (sfR f_zero) with 0%R in Hf.
      revert Hf. case Rlt_bool_spec; intros H E; [exact H|discriminate E]. }
    assert (P20 : (0 < / IZR (2 ^ 20))%R) by (apply Rinv_0_lt_compat, IZR_lt; done).
    apply term_real.
    - apply idf_real; [|lia..]. intros x [Hv Hf']%of_okf Hx. rewrite <- !value_sfR in *. destruct (Hlog x Hv Hf' Hx) as (A & A' & A'').
      split; [by apply okf_of|]. exact A''.
    - apply lg_range. destruct (arg_real N df) as (_ & _ & H & _); [lia..|]. exact H.
    - apply Fl_exact; [done|right; exact L1|exact U1].
    - lra.
    - done.
    - exact L2.
    - exact U2.
    - apply Fl_exact; [done| |exact Uf]. exact Lf.
    - exact Pf.
    - apply Fl_int. lia.
    - apply avg_real.
    - apply avg_pos.
  Qed.

  Lemma exact_zero df : exact_term (value (K1 p)) (value (B p)) N df 0 (IZR len) avgR = 0%R.
  Proof. unfold exact_term, Rdiv. ring. Qed.
  Lemma freq_zero f : modest_freq f → f_gtb f f_zero = false → value f = 0%R.
  Proof.
    intros (Vf & Nf & Lf & Uf) Hf. rewrite !value_sfR in *. pose proof (okf_of _ _ _ Vf Nf) as Of.
    unfold f_gtb in Hf. rewrite (ltb_real 24 128) in Hf by done. change (sfR f_zero) with 0%R in Hf. destruct Lf as [Lf|Lf]; [done|].
    assert (P20 : (0 < / IZR (2 ^ 20))%R) by (apply Rinv_0_lt_compat, IZR_lt; done). exfalso.
    revert Hf. case Rlt_bool_spec; intros H E; [discriminate E|lra].
  Qed.

  Lemma foldl_left (xs : list F) a : foldl f32_add a xs = fold_left (SFadd 24 128) xs a.
  Proof. revert a. induction xs as [|x xs IH]; intros a; [done|]. apply IH. Qed.
  Lemma filter_terms (terms : list (Z * F)) : Forall (λ t, 1 <= fst t <= N ∧ modest_freq (snd t)) terms →
    ∃ ys, List.Forall2 (Fl 12 (-90) 70)
       ((λ t, bm25_term log2 p N (fst t) (snd t) (f32_of_Z len) avg) <$> filter (λ t, f_gtb (snd t) f_zero = true) terms) ys ∧
     foldr Rplus 0%R ys = exact_bm25 p N avgR (IZR len) ((λ t, (fst t, value (snd t))) <$> terms).
  Proof.
    induction 1 as [|[df f] terms [Hdf Hf] _ (ys & Hys & Hsum)]; [exists []; split; [constructor|done]|].
    destruct (f_gtb f f_zero) eqn:E.
    - exists (exact_term (value (K1 p)) (value (B p)) N df (value f) (IZR len) avgR :: ys). rewrite filter_cons_True by done.
      split; [constructor; [by apply term_ok|exact Hys]|]. cbn [foldr]. rewrite Hsum. done.
    - exists ys. rewrite filter_cons_False by (simpl; by rewrite E). split; [done|].
      rewrite Hsum. unfold exact_bm25. rewrite !fmap_cons. cbn [foldr fst snd].
      rewrite (freq_zero f) by done. rewrite exact_zero. ring.
  Qed.

  Theorem bm25_accurate (terms : list (Z * F)) : Forall (λ t, 1 <= fst t <= N ∧ modest_freq (snd t)) terms →
    zlen terms <= 2 ^ 20 →
    let x := bm25_value log2 (Some p) N avg (f32_of_Z len) terms in
    valid_binary 24 128 x = true ∧ a_number x ∧
    close (length terms) (value x) (exact_bm25 p N avgR (IZR len) ((λ t, (fst t, value (snd t))) <$> terms)).
  Proof.
    intros Ht Hlt x. destruct (filter_terms terms Ht) as (ys & Hys & Hsum).
    assert (Hfl : (length (filter (λ t : Z * F, f_gtb (snd t) f_zero = true) terms) <= length terms)%nat) by apply filter_length.
    unfold zlen in Hlt.
    assert (Fl (12 + length terms) (-90) 90 x (0 + foldr Rplus 0 ys)%R) as (O & Hn & _).
    { subst x. unfold bm25_value. rewrite avg_not_zero, foldl_left.
      eapply Fl_weaken; [apply (sum_real _ _ Hys 0)|..]; rewrite ?fmap_length; try lia.
      - split; [by split|]. split; [apply near_refl; [apply eps_pos|apply Rle_refl]|]. split; [by left|apply bpow_ge_0].
      - rewrite Rmult_0_l. apply Rle_refl. }
    apply of_okf in O as [V A]. split; [done|]. split; [done|]. unfold close.
    rewrite Rplus_0_l, Hsum in Hn. rewrite value_sfR. apply near_err; [lia|exact Hn].
  Qed.
End Terms.

(** * Documents of a shard *)
Lemma value_int n : 0 <= n < 2 ^ 24 → value (f32_of_Z n) = IZR n.
Proof. intros Hn. rewrite value_sfR. apply int_real. exact Hn. Qed.
Lemma doc_len_int d n : TokenLen d = f32_of_Z n → 0 <= n < 2 ^ 24 → doc_len d = f32_of_Z n.
Proof.
  intros E Hn. unfold doc_len. rewrite E. destruct (f_eqb _ _) eqn:Ez; [|done].
  destruct (int_real n Hn) as [O V]. unfold f_eqb in Ez. rewrite (eqb_real 24 128) in Ez by done.
  unfold f32_of_Z in Ez. rewrite V in Ez. change (sfR f_zero) with 0%R in Ez. revert Ez. case Req_bool_spec; intros Ez E'; [|discriminate E'].
  apply eq_IZR in Ez. subst n. by vm_compute.
Qed.
Lemma sum_elem (zl : DocIndex → Z) D d : (∀ d, d ∈ D → 0 <= zl d) → d ∈ D → zl d <= foldr Z.add 0 (zl <$> D).
Proof.
  induction D as [|d' D IH]; intros Hz Hd; [by apply elem_of_nil in Hd|]. rewrite fmap_cons. cbn [foldr].
  assert (0 <= foldr Z.add 0 (zl <$> D)).
  { clear -Hz. assert (Hz' : ∀ d, d ∈ D → 0 <= zl d) by (intros; apply Hz; by right). clear Hz. induction D as [|x D IH]; [done|].
    rewrite fmap_cons. cbn [foldr]. pose proof (Hz' x ltac:(by left)). assert (0 <= foldr Z.add 0 (zl <$> D)) by (apply IH; intros; apply Hz'; by right). lia. }
  apply elem_of_cons in Hd as [->|Hd]; [lia|]. assert (0 <= zl d') by (apply Hz; by left).
  assert (zl d <= foldr Z.add 0 (zl <$> D)) by (apply IH; [intros; apply Hz; by right|done]). lia.
Qed.
Lemma sum_value (zl : DocIndex → Z) D : (∀ d, d ∈ D → TokenLen d = f32_of_Z (zl d) ∧ 0 <= zl d < 2 ^ 24) →
  foldr Rplus 0%R ((λ d, value (TokenLen d)) <$> D) = IZR (foldr Z.add 0 (zl <$> D)).
Proof.
  induction D as [|d D IH]; intros H; [done|]. rewrite !fmap_cons. cbn [foldr]. rewrite IH by (intros; apply H; by right).
  destruct (H d ltac:(by left)) as [-> Hd]. rewrite value_int by done. by rewrite plus_IZR.
Qed.
Lemma carriers_range D d tokens kws k : d ∈ D → hit_kws d tokens kws → k ∈ tokens → 1 <= carriers D k <= zlen D.
Proof.
  intros Hd Hk Hin. unfold carriers, zlen. pose proof (filter_length (λ d, k ∈ Text <$> Keywords d) D).
  assert (d ∈ filter (λ d, k ∈ Text <$> Keywords d) D) as Hf.
  { apply elem_of_list_filter. split; [|done]. unfold hit_kws in Hk. apply elem_of_list_lookup in Hin as [i Hi].
    destruct (Forall2_lookup_l _ _ _ _ _ Hk Hi) as (kw & _ & Hkw & <-). by apply elem_of_list_fmap_1. }
  destruct (filter _ D); [by apply elem_of_nil in Hf|]. simpl in *. lia.
Qed.

Lemma described_score log2 o p total D tokens d x :
  accurate_log2 log2 → BM25Parameters o = Some p → modest p → IndexType o = LocsIndex ∨ IndexType o = FrequenciesIndex →
  modest_docs (IndexType o) D → total_length total D → d ∈ D → zlen tokens <= 2 ^ 20 →
  describes log2 o total D tokens d x →
  ∃ kws, hit_kws d tokens kws ∧ valid_binary 24 128 (BM25 x) = true ∧ a_number (BM25 x) ∧
    close (length tokens) (value (BM25 x)) (exact_score (IndexType o) p D tokens d kws).
Proof.
  intros Hlog Hpo Hp Hity (HN & (zl & Hzl & HL) & Hkw) Htot Hd Ht (kws & Hk & _ & Hrest). exists kws. split; [done|].
  assert (Hzl' : ∀ d, d ∈ D → TokenLen d = f32_of_Z (zl d) ∧ 0 <= zl d < 2 ^ 24).
  { intros d' Hd'. destruct (Hzl d' Hd') as [E H0]. split; [done|]. pose proof (sum_elem zl D d' (λ d H, proj2 (Hzl d H)) Hd'). lia. }
  assert (Hlenk : length tokens = length kws) by by eapply Forall2_length.
  assert (HkwD : ∀ kw, kw ∈ kws → kw ∈ Keywords d).
  { intros kw [i Hi]%elem_of_list_lookup. destruct (Forall2_lookup_r _ _ _ _ _ Hk Hi) as (t & _ & H & _). done. }
  assert (BM25 x = bm25_value log2 (Some p) (zlen D) (f32_div total (f32_of_Z (zlen D))) (doc_len d)
                         (zip (carriers D <$> tokens) (tf (IndexType o) <$> kws))) as E.
  { cbv zeta in Hrest. rewrite Hpo in Hrest. destruct Hrest as (_ & _ & H1 & _ & H2). destruct Hity as [Hi|Hi]; [|by apply H1].
    apply H2; [done|]. apply Forall_forall. intros kw Hin%HkwD. pose proof (Hkw d kw Hd Hin) as H. rewrite Hi in H. simpl in H.
    intros E0. rewrite E0 in H. unfold zlen in H. simpl in H. lia. }
  destruct (Hzl' d Hd) as [El Hl]. rewrite (doc_len_int d (zl d)) in E by done. rewrite (Htot zl Hzl) in E by lia.
  assert (0 < zlen D) as HD by (destruct D; [by apply elem_of_nil in Hd|unfold zlen; simpl; lia]).
  assert (Htf : ∀ kw, kw ∈ kws → modest_freq (tf (IndexType o) kw) ∧ value (tf (IndexType o) kw) = occurrences (IndexType o) kw).
  { intros kw Hin%HkwD. pose proof (Hkw d kw Hd Hin) as H. unfold tf, occurrences. destruct (_ =? _) eqn:Ei; [|done].
    rewrite value_int by lia. split; [|done]. destruct (int_real (zlen (Starts kw)) ltac:(lia)) as [O V].
    apply of_okf in O as [V1 V2]. split; [done|]. split; [done|]. rewrite value_int by lia. split; [right|apply IZR_le; lia].
    apply (Rle_trans _ 1); [|apply IZR_le; lia]. rewrite <- Rinv_1. apply Rinv_le_contravar; [lra|]. apply IZR_le. done. }
  set (terms := zip (carriers D <$> tokens) (tf (IndexType o) <$> kws)) in *.
  assert (Hlt : length terms = length tokens).
  { unfold terms. rewrite zip_with_length, !fmap_length. lia. }
  destruct (bm25_accurate log2 Hlog p Hp (zlen D) ltac:(lia) _ HL (zl d) ltac:(lia) terms) as (A & A1 & A2).
  - apply Forall_forall. intros [df f] Hin. unfold terms in Hin.
    apply elem_of_list_lookup in Hin as [i Hi]. apply lookup_zip_with_Some in Hi as (a & b & [= -> ->] & Ha & Hb).
    apply list_lookup_fmap_Some in Ha as (k & Hk1 & ->). apply list_lookup_fmap_Some in Hb as (kw & Hk2 & ->). cbn [fst snd]. split.
    + eapply carriers_range; [done|done|]. by eapply elem_of_list_lookup_2.
    + apply Htf. by eapply elem_of_list_lookup_2.
  - unfold zlen in *. lia.
  - rewrite <- E in *. rewrite Hlt in A2. split; [done|]. split; [done|].
    unfold exact_score. rewrite (sum_value zl) by done. rewrite El, value_int by done.
    replace (zip (carriers D <$> tokens) (occurrences (IndexType o) <$> kws)) with ((λ t : Z * F, (fst t, value (snd t))) <$> terms); [done|].
    unfold terms. clear -Htf. generalize (carriers D <$> tokens). induction kws as [|kw kws IH]; intros [|a l]; try done.
    rewrite !fmap_cons. cbn [zip_with]. rewrite fmap_cons, IH by (intros; apply Htf; by right). cbn [fst snd].
    destruct (Htf kw ltac:(by left)) as [_ ->]. done.
Qed.

(** * Order *)
Lemma order_close t x1 x2 y1 y2 : (Z.of_nat t <= 2 ^ 20) → (0 <= y1)%R → (0 <= y2)%R → close t x1 y1 → close t x2 y2 → (x2 <= x1)%R → hardly_below t y2 y1.
Proof.
  intros Ht P1 P2 H1 H2 Hx. unfold close, hardly_below in *. apply Rabs_le_inv in H1. apply Rabs_le_inv in H2.
  change (IZR (2 ^ 22)) with 4194304%R in *. change (IZR (2 ^ 21)) with 2097152%R.
  assert (0 <= INR (12 + t) <= 2097152)%R as [Ha Hb].
  { split; [apply pos_INR|]. rewrite INR_IZR_INZ. apply IZR_le. lia. }
  set (a := (INR (12 + t) * / 4194304)%R) in *. replace (INR (12 + t) * / 2097152)%R with (2 * a)%R by (unfold a; lra).
  assert (0 <= a <= / 2)%R by (unfold a; lra). nra.
Qed.
Lemma close_pos t x y : close t x y → (0 <= y)%R.
Proof.
  unfold close. intros H. pose proof (Rabs_pos (x - y)). assert (0 < INR (12 + t) * / IZR (2 ^ 22))%R.
  { apply Rmult_lt_0_compat; [apply lt_0_INR; lia|apply Rinv_0_lt_compat, IZR_lt; done]. }
  nra.
Qed.

(** What a list of entries must have for the order *)
Definition scored_entry (t : nat) (E : ScoredDoc → R → Prop) (h : ScoredDoc) : Prop :=
  ∃ v y, sdScores h = [v] ∧ E h y ∧ valid_binary 24 128 v = true ∧ a_number v ∧ close t (value v) y.
Lemma page_sorted {A} (R : A → A → Prop) i n l : StronglySorted R l → StronglySorted R (page i n l).
Proof.
  assert (Hd : ∀ k l, StronglySorted R l → StronglySorted R (drop k l)).
  { clear. intros k l H. revert k. induction H as [|x l H IH Hx]; intros [|k]; simpl; try constructor; auto. }
  assert (Ht : ∀ k l, StronglySorted R l → StronglySorted R (take k l)).
  { clear. intros k l H. revert k. induction H as [|x l H IH Hx]; intros [|k]; simpl; try constructor; auto. by apply Forall_take. }
  intros H. unfold page. destruct (n =? 0); auto.
Qed.
Lemma page_elem {A} (x : A) i n l : x ∈ page i n l → x ∈ l.
Proof.
  unfold page. intros H. assert (x ∈ drop (Z.to_nat i) l) as H1.
  { destruct (n =? 0); [done|]. apply elem_of_list_lookup in H as [j Hj]. apply elem_of_list_lookup. exists j.
    apply lookup_take_Some in Hj as [Hj _]. exact Hj. }
  apply elem_of_list_lookup in H1 as [j Hj]. rewrite lookup_drop in Hj. by eapply elem_of_list_lookup_2.
Qed.
Lemma sorted_lookup {A} (R : A → A → Prop) (l : list A) i j x y : StronglySorted R l → (i < j)%nat → l !! i = Some x → l !! j = Some y → R x y.
Proof.
  intros H. revert i j. induction H as [|z l H IH Hz]; intros i j Hij Hi Hj; [done|].
  destruct j as [|j]; [lia|]. destruct i as [|i]; cbn in Hi, Hj.
  - injection Hi as ->. rewrite Forall_forall in Hz. apply Hz. by eapply elem_of_list_lookup_2.
  - eapply (IH i j); [lia|done..].
Qed.
Lemma not_above v w : valid_binary 24 128 v = true → a_number v → valid_binary 24 128 w = true → a_number w →
  ¬ ranks_above [v] [w] → (value v <= value w)%R.
Proof.
  intros V N V' N' H. destruct (Rle_or_lt (value v) (value w)) as [Hle|Hlt]; [done|]. exfalso. apply H. apply above_here.
  unfold f_gtb. rewrite (ltb_real 24 128) by (by apply okf_of). apply Rlt_bool_true. rewrite <- !value_sfR. done.
Qed.
Lemma eq_value v w : valid_binary 24 128 v = true → a_number v → valid_binary 24 128 w = true → a_number w →
  f_eqb v w = true → value v = value w.
Proof.
  intros V N V' N'. unfold f_eqb. rewrite (eqb_real 24 128) by (by apply okf_of). rewrite <- !value_sfR. case Req_bool_spec; [done|].
  intros _ H. discriminate H.
Qed.
Lemma ordered_entries t (E : ScoredDoc → R → Prop) reverse i n full out : Z.of_nat t <= 2 ^ 20 →
  (∀ h, h ∈ full → scored_entry t E h) → in_order reverse full → Forall2 same_scores out (page i n full) → out ⊆+ full →
  ∀ a b h1 h2, (a < b)%nat → out !! a = Some h1 → out !! b = Some h2 → ∃ y1 y2, E h1 y1 ∧ E h2 y2 ∧
    if reverse then hardly_below t y1 y2 else hardly_below t y2 y1.
Proof.
  intros Ht HE Ho Hs Hsub a b h1 h2 Hab H1 H2.
  destruct (Forall2_lookup_l _ _ _ _ _ Hs H1) as (g1 & G1 & S1). destruct (Forall2_lookup_l _ _ _ _ _ Hs H2) as (g2 & G2 & S2).
  assert (HG1 : g1 ∈ full) by (eapply page_elem, elem_of_list_lookup_2; done).
  assert (HG2 : g2 ∈ full) by (eapply page_elem, elem_of_list_lookup_2; done).
  assert (HH1 : h1 ∈ full) by (eapply elem_of_submseteq; [by eapply elem_of_list_lookup_2|done]).
  assert (HH2 : h2 ∈ full) by (eapply elem_of_submseteq; [by eapply elem_of_list_lookup_2|done]).
  destruct (HE _ HH1) as (v1 & y1 & Ev1 & Ey1 & V1 & N1 & C1). destruct (HE _ HH2) as (v2 & y2 & Ev2 & Ey2 & V2 & N2 & C2).
  destruct (HE _ HG1) as (w1 & z1 & Ew1 & _ & W1 & M1 & _). destruct (HE _ HG2) as (w2 & z2 & Ew2 & _ & W2 & M2 & _).
  unfold same_scores, score_eq in S1, S2. rewrite Ev1, Ew1 in S1. rewrite Ev2, Ew2 in S2.
  apply Forall2_cons in S1 as [S1 _]. apply Forall2_cons in S2 as [S2 _].
  apply eq_value in S1; [|done..]. apply eq_value in S2; [|done..].
  pose proof (sorted_lookup _ _ _ _ _ _ (page_sorted _ i n _ Ho) Hab G1 G2) as Hr. cbv beta in Hr. rewrite Ew1, Ew2 in Hr.
  exists y1, y2. split; [done|]. split; [done|].
  destruct reverse; apply not_above in Hr; try done; rewrite <- S1, <- S2 in Hr;
    (eapply order_close; [done|by eapply close_pos|by eapply close_pos|done|done|done]).
Qed.

(** * Searches *)
Section Searches.
  Context (murmur : string → Z) (n : Z) (Hn : 1 <= n < 2^32) (log2 : F → F) (Hlog : accurate_log2 log2).
  Context (o : IndexerOpts) (p : BM25Params) (Hpo : BM25Parameters o = Some p) (Hp : modest p).
  Context (Hity : IndexType o = LocsIndex ∨ IndexType o = FrequenciesIndex).
  Context (cs : list ecall) (totals : Z → F).
  Context (Htot : ∀ i, 0 <= i < n → total_length (totals i) (shard_docs murmur n i cs)).
  Context (Hdocs : ∀ i, 0 <= i < n → shard_docs murmur n i cs ≠ [] → modest_docs (IndexType o) (shard_docs murmur n i cs)).

  Lemma told_score tokens d f ct a fo x : zlen tokens <= 2 ^ 20 → EIndex d f ct a fo ∈ cs →
    (let i := shard_for murmur n (DocId d) ct in describes log2 o (totals i) (shard_docs murmur n i cs) tokens d x) →
    ∃ kws, hit_kws d tokens kws ∧ valid_binary 24 128 (BM25 x) = true ∧ a_number (BM25 x) ∧
      close (length tokens) (value (BM25 x))
        (exact_score (IndexType o) p (shard_docs murmur n (shard_for murmur n (DocId d) ct) cs) tokens d kws).
  Proof.
    intros Ht Hc Hx. cbv zeta in Hx. assert (Hi : 0 <= shard_for murmur n (DocId d) ct < n) by (unfold shard_for; apply Z.mod_pos_bound; lia).
    set (i := shard_for murmur n (DocId d) ct) in *.
    assert (Hd : d ∈ shard_docs murmur n i cs).
    { unfold shard_docs. apply elem_of_list_omap. exists (EIndex d f ct a fo). split; [done|]. cbn. fold i. by rewrite Z.eqb_refl. }
    eapply described_score; try done; [|by apply Htot]. apply Hdocs; [done|]. intros E. rewrite E in Hd. by apply elem_of_nil in Hd.
  Qed.
  Lemma told_proper req : ScoringCriteria (rqOpts req) = RankByBM25 → zlen (rqTokens req) <= 2 ^ 20 →
    scores_proper log2 o murmur n cs totals req.
  Proof.
    intros Hs Ht d f ct a fo x Hc Hw Hx. destruct (told_score _ _ _ _ _ _ _ Ht Hc Hx) as (kws & _ & V & A & _).
    rewrite Hs. unfold RankByBM25. apply Forall_singleton. unfold f_eqb. rewrite (eqb_real 24 128) by (by apply okf_of). by apply Req_bool_true.
  Qed.
  Lemma told_ranked only req full out : ScoringCriteria (rqOpts req) = RankByBM25 → zlen (rqTokens req) <= 2 ^ 20 →
    answers_scored log2 o murmur n only cs totals req full out → ranked_by_bm25 (IndexType o) p murmur n cs req out.
  Proof.
    intros Hs Ht (Ho & Hpg & Hsub & _ & Hin & _). rewrite Hs in Hin.
    assert (HE : ∀ h, h ∈ full → scored_entry (length (rqTokens req)) (exact_entry (IndexType o) p murmur n cs (rqTokens req)) h).
    { intros h Hh. destruct (Hin h Hh) as (d & f & ct & a & fo & x & Hc & Hw & Hx & _ & ->).
      destruct (told_score _ _ _ _ _ _ _ Ht Hc Hx) as (kws & Hk & V & A & C).
      eexists (BM25 x), _. split; [done|]. split; [|by split; [done|split; [done|exact C]]].
      exists d, f, ct, a, fo, kws. split; [done|]. split; [|by split]. destruct Hx as (_ & _ & Hid & _). by rewrite <- Hid. }
    split.
    - intros h Hh. destruct (HE h) as (v & y & H1 & H2 & _ & H3 & H4); [by eapply elem_of_submseteq|]. by exists v, y.
    - eapply ordered_entries; [unfold zlen in Ht; lia|done..].
  Qed.
End Searches.

Theorem search_ranked murmur n only reqsFirst cap sortDocs sortBy o s0 nseg progs s shards log2 req order p :
  1 <= n < 2^32 → valid_sort sortDocs → valid_sortBy sortBy → Init o = Some s0 →
  pipe_reach murmur n only reqsFirst cap nseg progs s → quiescent s → once_each (ordinary (mjoin progs)) →
  engine_shards sortDocs s0 only n s shards → Forall nothing_waits shards →
  plain_request o req → ScoringCriteria (rqOpts req) = RankByBM25 → zlen (rqTokens req) <= 2 ^ 20 →
  IndexType o = LocsIndex ∨ IndexType o = FrequenciesIndex → BM25Parameters o = Some p → modest p → accurate_log2 log2 →
  (∀ i, 0 <= i < n → shard_docs murmur n i (ordinary (mjoin progs)) ≠ [] → modest_docs (IndexType o) (shard_docs murmur n i (ordinary (mjoin progs)))) →
  all_arrive (length shards) order →
  ∃ full out, Search log2 sortBy req shards order = Some (mkResp (rqTokens req) false (zlen full) (Some out)) ∧
    answers_scored log2 o murmur n only (ordinary (mjoin progs)) (shard_total shards) req full out ∧
    ranked_by_bm25 (IndexType o) p murmur n (ordinary (mjoin progs)) req out.
Proof.
  intros Hn Hv Hvb HI Hr Hq Ho Hsh Hw Hrq Hsc Ht Hity Hpo Hp Hlog Hdocs Ha.
  assert (Htot : ∀ i, 0 <= i < n → total_length (shard_total shards i) (shard_docs murmur n i (ordinary (mjoin progs)))).
  { intros i Hi. by eapply scored_totals. }
  edestruct (scored_search murmur n only reqsFirst cap Hn) as (full & out & H1 & H2); [done..| |done|].
  - eapply told_proper; done.
  - exists full, out. split; [done|]. split; [done|]. eapply told_ranked; done.
Qed.

Theorem flight_ranked murmur n only reqsFirst cap sortDocs sortBy o s0 nseg progs s shards log2 nn ccap
    clients tl tr ls fs a req t0 p :
  1 <= n < 2^32 → valid_sort sortDocs → valid_sortBy sortBy → Init o = Some s0 →
  pipe_reach murmur n only reqsFirst cap nseg progs s → quiescent s → once_each (ordinary (mjoin progs)) →
  engine_shards sortDocs s0 only n s shards → Forall nothing_waits shards →
  frun log2 sortBy nn ccap ls (fInit nn clients tl tr shards) = Some fs → Forall read_only ls → length shards = nn →
  a ∈ fAnswers fs → fReqs fs !! faSearch a = Some (req, t0) →
  plain_request o req → ScoringCriteria (rqOpts req) = RankByBM25 → zlen (rqTokens req) <= 2 ^ 20 →
  IndexType o = LocsIndex ∨ IndexType o = FrequenciesIndex → BM25Parameters o = Some p → modest p → accurate_log2 log2 →
  (∀ i, 0 <= i < n → shard_docs murmur n i (ordinary (mjoin progs)) ≠ [] → modest_docs (IndexType o) (shard_docs murmur n i (ordinary (mjoin progs)))) →
  ∃ full out, faResp a = mkResp (rqTokens req) false (zlen full) (Some out) ∧
    answers_scored log2 o murmur n only (ordinary (mjoin progs)) (shard_total shards) req full out ∧
    ranked_by_bm25 (IndexType o) p murmur n (ordinary (mjoin progs)) req out.
Proof.
  intros Hn Hv Hvb HI Hr Hq Ho Hsh Hw Hf Hro Hl Ha Hrt Hrq Hsc Ht Hity Hpo Hp Hlog Hdocs.
  assert (Htot : ∀ i, 0 <= i < n → total_length (shard_total shards i) (shard_docs murmur n i (ordinary (mjoin progs)))).
  { intros i Hi. by eapply scored_totals. }
  edestruct (scored_flight murmur n only reqsFirst cap Hn) as (full & out & H1 & H2); [done..| |].
  - eapply told_proper; done.
  - exists full, out. split; [done|]. split; [done|]. eapply told_ranked; done.
Qed.

(** * A logarithm that is accurate *)
Definition floorLog2 (x : F) : F := SpecFloat.binary_normalize 53 1024 (Zfloor (log2_of (value x) * IZR (2 ^ 52))) (-52) false.
Lemma floorLog2_accurate : accurate_log2 floorLog2.
Proof.
  intros x V A Hx. set (l := log2_of (value x)).
  assert (1 <= l <= 64)%R as [Hl1 Hl2].
  { pose proof ln2_pos as H2.
    assert (Hmono : ∀ a b, (0 < a)%R → (a <= b)%R → (ln a <= ln b)%R).
    { intros a b Ha [Hab|Hab]; [apply Rlt_le, ln_increasing; assumption|rewrite Hab; lra]. }
    assert (H1 : (ln 2 <= ln (value x))%R) by (apply Hmono; lra).
    assert (H3 : (ln (value x) <= 64 * ln 2)%R).
    { apply (Rle_trans _ (ln (2 ^ 64))); [apply Hmono; [lra|]|rewrite ln_pow by lra; rewrite INR_IZR_INZ; change (Z.of_nat 64) with 64; lra].
      replace (2 ^ 64)%R with (IZR (2 ^ 64)); [apply Hx|]. rewrite pow_IZR. done. }
    unfold l, log2_of. split; apply (Rmult_le_reg_r (ln 2)); try lra.
    - replace (ln (value x) / ln 2 * ln 2)%R with (ln (value x)) by (field; lra). lra.
    - replace (ln (value x) / ln 2 * ln 2)%R with (ln (value x)) by (field; lra). lra. }
  set (z := Zfloor (l * IZR (2 ^ 52))).
  assert (Hz1 : (IZR z <= l * IZR (2 ^ 52))%R) by apply Zfloor_lb.
  assert (Hz2 : (l * IZR (2 ^ 52) < IZR z + 1)%R) by apply Zfloor_ub.
  change (IZR (2 ^ 52)) with 4503599627370496%R in *.
  assert (Hz3 : (4503599627370496 <= IZR z)%R).
  { apply IZR_le. apply (Zfloor_lub 4503599627370496). lra. }
  assert (HF : F2R (Float radix2 z (-52)) = (IZR z * / 4503599627370496)%R) by done.
  set (w := (IZR z * / 4503599627370496)%R) in *.
  assert (Hw : (1 <= w <= 64)%R) by (unfold w; lra). assert (Hwl : (l - / 4503599627370496 <= w <= l)%R) by (unfold w; lra).
  pose proof (rnd64_err w ltac:(lra)) as He. apply Rabs_le_inv in He.
  destruct (normalize_real 53 1024 prec53 max53 z (-52) false) as [O E].
  { rewrite HF. apply (Rlt_trans _ (bpow radix2 30)); [|apply bpow_lt; lia]. change (bpow radix2 30) with 1073741824%R. apply Rabs_def1; lra. }
  rewrite HF in E. change (SpecFloat.binary_normalize 53 1024 z (-52) false) with (floorLog2 x) in O, E.
  apply of_okf in O as [O1 O2]. split; [done|]. split; [done|]. rewrite !value_sfR in *. rewrite E. fold l.
  change (IZR (2 ^ 40)) with 1099511627776%R. apply Rabs_le. lra.
Qed.
Lemma log2_of_2 : log2_of 2 = 1%R.
Proof. unfold log2_of. field. pose proof ln2_pos. lra. Qed.
Lemma floorLog2_2 : floorLog2 (f64_of_Z 2) = f64_of_Z 1.
Proof.
  unfold floorLog2. rewrite value_sfR. destruct (int_real64 2 ltac:(lia)) as [_ E]. unfold f64_of_Z. rewrite E, log2_of_2, Rmult_1_l, Zfloor_IZR. by vm_compute.
Qed.
Lemma modest_int k b : 0 < k < 2 ^ 20 → 0 <= b <= 1 → modest (mkBM25 (f32_of_Z k) (f32_of_Z b)).
Proof.
  intros Hk Hb. destruct (int_real k ltac:(lia)) as [[V1 A1]%of_okf _]. destruct (int_real b ltac:(lia)) as [[V2 A2]%of_okf _].
  assert (H20 : (/ IZR (2 ^ 20) <= 1)%R) by (rewrite <- Rinv_1; apply Rinv_le_contravar; [lra|]; by apply IZR_le).
  split; split; try done; (split; [done|]); cbn [K1 B]; rewrite value_int by lia.
  - split; [apply (Rle_trans _ 1); [done|]|]; apply IZR_le; lia.
  - split; [|apply IZR_le; lia]. destruct (Z.eq_dec b 0) as [->|]; [by left|]. right. apply (Rle_trans _ 1); [done|]. apply IZR_le; lia.
Qed.
Lemma modest_freq_int k : 0 <= k < 2 ^ 24 → modest_freq (f32_of_Z k).
Proof.
  intros Hk. destruct (int_real k ltac:(lia)) as [[V1 A1]%of_okf _]. unfold modest_freq. rewrite value_int by lia.
  assert (H20 : (/ IZR (2 ^ 20) <= 1)%R) by (rewrite <- Rinv_1; apply Rinv_le_contravar; [lra|]; by apply IZR_le).
  do 2 (split; [done|]). split; [|apply IZR_le; lia].
  destruct (Z.eq_dec k 0) as [->|]; [by left|]. right. apply (Rle_trans _ 1); [done|]. apply IZR_le; lia.
Qed.
