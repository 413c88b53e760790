(** Proofs for C121: the order of searches by BM25 while documents are being added. *)
From Coq Require Import Reals Lra Floats.SpecFloat Sorting.Permutation.
From Flocq Require Import Core BinarySingleNaN.
From Verif Require Import ProofReal ProofReal32 ProofReal64.
From Verif Require Import ModelLookup ModelPipe ModelEngine ModelFlight ModelScoring SpecIndexer SpecSearch SpecRank SpecRoute SpecPipe SpecEngine SpecFlight SpecEnd SpecFits SpecDuring SpecDeadline
  SpecBM25 SpecScored SpecAccuracy SpecPrefers SpecShorter SpecRescored SpecGrowing SpecGrowingOrder
  ProofEnd ProofMoments ProofScored ProofRescored ProofAccuracy ProofPrefers ProofShorter ProofReranked ProofGrowing.

Lemma pick_all {A} (P : nat → A → Prop) m : (∀ i, (i < m)%nat → ∃ x, P i x) → ∃ l, length l = m ∧ ∀ i x, l !! i = Some x → P i x.
Proof.
  induction m as [|m IH]; intros H; [by exists []|]. destruct IH as (l & Hl & HP); [intros i Hi; apply H; lia|].
  destruct (H m) as [x Hx]; [lia|]. exists (l ++ [x]). split; [rewrite app_length; cbn; lia|]. intros i y Hy.
  apply lookup_app_Some in Hy as [Hy|[Hi Hy]]; [by apply HP|]. rewrite Hl in *. destruct (i - m)%nat as [|k] eqn:E; [|done].
  assert (i = m) as -> by lia. by injection Hy as <-.
Qed.

Section Order.
  Context (murmur : string → Z) (n : Z) (Hn : 1 <= n < 2^32) (only : bool) (log2 : F → F) (Hlog : accurate_log2 log2).
  Context (o : IndexerOpts) (p : BM25Params) (Hpo : BM25Parameters o = Some p) (Hp : modest p).
  Context (Hity : IndexType o = LocsIndex ∨ IndexType o = FrequenciesIndex).
  Context (cs : list ecall) (Hnd : NoDup (omap call_id cs)) (Hm : modest_additions (IndexType o) murmur n cs).
  Context (req : SearchReq) (Hs : ScoringCriteria (rqOpts req) = RankByBM25) (Ht : zlen (rqTokens req) <= 2 ^ 20).
  Notation tokens := (rqTokens req).
  Notation ever i := (shard_docs murmur n i cs).

  Lemma go_modest i D d total : 0 <= i < n → D ⊆+ ever i → d ∈ D → total_now total (ever i) D → modest_docs (IndexType o) D ∧ total_length total D.
  Proof.
    intros Hi Hsub Hd Htot. destruct (Hm i Hi) as (HN & (zl & Hz & Hsum) & Hkw).
    assert (Hin : ∀ e, e ∈ D → e ∈ ever i) by (intros e He; by eapply elem_of_submseteq).
    assert (Hz0 : ∀ e, e ∈ ever i → TokenLen e = f32_of_Z (zl e) ∧ 0 <= zl e) by (intros e He; destruct (Hz e He); split; [done|lia]).
    destruct (sum_submseteq zl D (ever i) Hsub) as [S1 S2]; [intros e He; by apply Hz0|].
    pose proof (sum_elem zl D d (λ e He, proj2 (Hz0 e (Hin e He))) Hd) as S3. destruct (Hz d (Hin d Hd)) as [_ S4].
    split.
    - split; [pose proof (submseteq_length _ _ Hsub); unfold zlen in *; lia|]. split.
      + exists zl. split; [intros e He; by apply Hz0, Hin|lia].
      + intros e kw He. by apply Hkw, Hin.
    - intros zl' Hz' Hsum'. rewrite (Htot zl Hz0 Hsum). f_equal. f_equal. apply list_fmap_ext. intros k e He%elem_of_list_lookup_2.
      apply of_Z_inj.
      + split; [by apply Hz0, Hin|]. eapply Z.le_lt_trans; [apply (sum_elem zl (ever i) e); [|by apply Hin]; intros; by apply Hz0|done].
      + split; [by apply Hz'|]. eapply Z.le_lt_trans; [apply (sum_elem zl' D e); [|exact He]; intros; by apply Hz'|done].
      + destruct (Hz e (Hin e He)) as [<- _]. by destruct (Hz' e He) as [<- _].
  Qed.
  Lemma go_numbers i D d total x : 0 <= i < n → D ⊆+ ever i → d ∈ D → total_now total (ever i) D → describes log2 o total D tokens d x →
    valid_binary 24 128 (BM25 x) = true ∧ a_number (BM25 x) ∧
    ∃ kws, hit_kws d tokens kws ∧ close (length tokens) (value (BM25 x)) (exact_score (IndexType o) p D tokens d kws).
  Proof.
    intros Hi Hsub Hd Htot Hx. destruct (go_modest i D d total Hi Hsub Hd Htot) as [M1 M2].
    destruct (ProofAccuracy.described_score log2 o p total D tokens d x Hlog Hpo Hp Hity M1 M2 Hd Ht Hx) as (kws & K & A1 & A2 & C). eauto 8.
  Qed.

  (** The scores are numbers at every moment. *)
  Lemma go_proper {P : Type} (shard_in : P → nat → Shard → Prop) (grows : P → P → Prop) ws ps :
    moments murmur n only o cs shard_in grows → growing_mo murmur n only o cs shard_in → written_as n shard_in grows ws ps →
    timed_request o req → ¬ with_logic req → Forall (scores_numbers log2 req) ws.
  Proof.
    intros Hmo HT HW Hpr Hnl.
    assert (Hloc : IndexType o = LocsIndex → rqTokens req ≠ []).
    { destruct Hpr as (_ & _ & [(_ & _ & ?)|[? _]]); done. }
    apply Forall_lookup. intros t w Hw sh docs num x f [i Hi]%elem_of_list_lookup HL Hx.
    destruct (at_seen n shard_in grows ws ps HW t i sh) as (q & _ & HP); [exists t, w; split; [lia|done]|].
    destruct (gr_told _ _ _ _ _ _ HT q i sh log2 req docs num x HP Hnl Hloc HL Hx) as (d & Hin & _ & Htold).
    pose proof (mo_range _ _ _ _ _ _ _ Hmo _ _ _ HP) as Hi'.
    destruct (go_numbers (Z.of_nat i) _ d _ x Hi' (sublist_submseteq _ _ (filter_sublist _ _)) Hin (gr_total _ _ _ _ _ _ HT q i sh HP) Htold) as (V1 & A1 & _).
    rewrite Hs. unfold RankByBM25. apply Forall_singleton. unfold f_eqb. rewrite (eqb_real 24 128) by (by apply okf_of). by apply Req_bool_true.
  Qed.

  Section Answer.
    Context (ws : list (list Shard)) (t1 t2 : nat) (hs : list nat) (full out : list ScoredDoc).
    Context (Hpg : page_of req full out) (Hh : answers_heard only cs ws t1 t2 req hs full).
    Context (HD : scored_during log2 o murmur n only cs ws t1 t2 req full).
    (** what each entry is among the documents of its shard *)
    Definition go_entry (D : Z → list DocIndex) (T : Z → F) (h : ScoredDoc) : Prop :=
      ∃ d f ct a fo x, EIndex d f ct a fo ∈ cs ∧ DocId d = sdDocId h ∧
        let i := shard_for murmur n (DocId d) ct in d ∈ D i ∧ describes log2 o (T i) (D i) tokens d x ∧ sdScores h = [BM25 x].
    Lemma go_tags : ∃ (D : Z → list DocIndex) (T : Z → F),
      (∀ i, (i < Z.to_nat n)%nat → ∃ m w sh, (t1 <= m <= t2)%nat ∧ ws !! m = Some w ∧ w !! i = Some sh ∧
         D (Z.of_nat i) = held (shIx sh) (ever (Z.of_nat i))) ∧
      (∀ i, 0 <= i < n → D i ⊆+ ever i ∧ total_now (T i) (ever i) (D i)) ∧ ∀ h, h ∈ full → go_entry D T h.
    Proof.
      destruct (pick_all (λ i (q : list DocIndex * F), ∃ m w sh, (t1 <= m <= t2)%nat ∧ ws !! m = Some w ∧ w !! i = Some sh ∧
        fst q = held (shIx sh) (ever (Z.of_nat i)) ∧ total_now (snd q) (ever (Z.of_nat i)) (fst q) ∧
        ∀ h d f ct a fo, h ∈ full → EIndex d f ct a fo ∈ cs → DocId d = sdDocId h → shard_for murmur n (DocId d) ct = Z.of_nat i →
          d ∈ fst q ∧ ∃ x, describes log2 o (snd q) (fst q) tokens d x ∧ sdScores h = [BM25 x]) (Z.to_nat n)) as (l & Hl & HP).
      { intros i Hi. destruct (HD i Hi) as (m & w & sh & Hm1 & Hw & Hsh & Htot & Hen).
        exists (held (shIx sh) (ever (Z.of_nat i)), totalTokenLen (shIx sh)), m, w, sh. do 5 (split; [done|]).
        intros h d f ct a fo H1 H2 H3 H4. destruct (Hen h d f ct a fo H1 H2 H3 H4) as (H5 & x & H6 & _ & ->).
        split; [done|]. exists x. split; [done|]. by rewrite Hs. }
      set (q := λ i, default ([], f_zero) (l !! Z.to_nat i)). exists (λ i, fst (q i)), (λ i, snd (q i)).
      assert (Hq : ∀ i, (i < Z.to_nat n)%nat → l !! i = Some (q (Z.of_nat i))).
      { intros i Hi. unfold q. rewrite Nat2Z.id. destruct (lookup_lt_is_Some_2 l i) as [z Hz]; [lia|]. by rewrite Hz. }
      split; [|split].
      - intros i Hi. destruct (HP i _ (Hq i Hi)) as (m & w & sh & A1 & A2 & A3 & A4 & _). by exists m, w, sh.
      - intros i Hi. assert (Hi' : (Z.to_nat i < Z.to_nat n)%nat) by lia. specialize (Hq _ Hi').
        destruct (HP _ _ Hq) as (m & w & sh & _ & _ & _ & A4 & A5 & _). rewrite !Z2Nat.id in * by lia. split; [|done].
        rewrite A4. apply sublist_submseteq, filter_sublist.
      - intros h Hin. destruct Hh as [Hst _]. destruct (Hst h Hin) as (_ & _ & _ & _ & _ & d & f & ct & a & fo & _ & _ & Hc & _ & E & _).
        assert (Hr : 0 <= shard_for murmur n (DocId d) ct < n) by (apply Z.mod_pos_bound; lia).
        assert (Hi' : (Z.to_nat (shard_for murmur n (DocId d) ct) < Z.to_nat n)%nat) by lia. specialize (Hq _ Hi').
        destruct (HP _ _ Hq) as (m & w & sh & _ & _ & _ & _ & _ & A6). rewrite !Z2Nat.id in * by lia.
        destruct (A6 h d f ct a fo Hin Hc (eq_sym E) eq_refl) as (B1 & x & B2 & B3). exists d, f, ct, a, fo, x. by split_and!.
    Qed.
    Theorem go_ranked : ranked_during (IndexType o) p murmur n cs ws t1 t2 req out.
    Proof.
      destruct go_tags as (D & T & HD1 & HD2 & HD3). exists D. split; [done|].
      assert (Hrange : ∀ d ct, 0 <= shard_for murmur n (DocId d) ct < n) by (intros d ct; apply Z.mod_pos_bound; lia).
      assert (Hout : ∀ h, h ∈ out → h ∈ full) by (intros h H; destruct Hpg as (_ & _ & Hsu); by eapply elem_of_submseteq).
      assert (Hval : ∀ h, h ∈ full → ∃ v y, sdScores h = [v] ∧ valid_binary 24 128 v = true ∧ a_number v ∧
        exact_among (IndexType o) p murmur n cs D tokens h y ∧ close (length tokens) (value v) y).
      { intros h (d & f & ct & a & fo & x & H1 & H2 & H3 & H4 & H5)%HD3. destruct (HD2 _ (Hrange d ct)) as [S1 S2].
        destruct (go_numbers _ _ d _ x (Hrange d ct) S1 H3 S2 H4) as (V1 & A1 & kws & K & C).
        exists (BM25 x). eexists. do 3 (split; [done|]). split; [|exact C]. exists d, f, ct, a, fo, kws. by split_and!. }
      assert (Hord : ∀ i j h1 h2 v1 v2, (i < j)%nat → out !! i = Some h1 → out !! j = Some h2 → sdScores h1 = [v1] → sdScores h2 = [v2] →
        if ReverseOrder (rqOpts req) then (value v1 <= value v2)%R else (value v2 <= value v1)%R).
      { intros i j h1 h2 v1 v2 Hij H1 H2 E1 E2. destruct (Hpg) as (Ho & Hp' & _).
        destruct (Forall2_lookup_l _ _ _ _ _ Hp' H1) as (g1 & G1 & S1). destruct (Forall2_lookup_l _ _ _ _ _ Hp' H2) as (g2 & G2 & S2).
        destruct (Hval g1) as (w1 & _ & Ew1 & W1 & M1 & _); [eapply page_elem, elem_of_list_lookup_2; done|].
        destruct (Hval g2) as (w2 & _ & Ew2 & W2 & M2 & _); [eapply page_elem, elem_of_list_lookup_2; done|].
        destruct (Hval h1) as (v1' & _ & Ev1 & V1 & N1 & _); [apply Hout; by eapply elem_of_list_lookup_2|].
        destruct (Hval h2) as (v2' & _ & Ev2 & V2 & N2 & _); [apply Hout; by eapply elem_of_list_lookup_2|].
        rewrite E1 in Ev1. rewrite E2 in Ev2. injection Ev1 as <-. injection Ev2 as <-.
        unfold same_scores, score_eq in S1, S2. rewrite E1, Ew1 in S1. rewrite E2, Ew2 in S2.
        apply Forall2_cons in S1 as [S1 _]. apply Forall2_cons in S2 as [S2 _].
        apply eq_value in S1; [|done..]. apply eq_value in S2; [|done..].
        pose proof (sorted_lookup _ _ _ _ _ _ (page_sorted _ _ _ _ Ho) Hij G1 G2) as Hr. cbv beta in Hr. rewrite Ew1, Ew2 in Hr.
        destruct (ReverseOrder _); apply not_above in Hr; try done; by rewrite S1, S2. }
      assert (Hnb : ∀ d1 d2 h1 h2, neighbours murmur n cs d1 d2 → h1 ∈ out → h2 ∈ out → sdDocId h1 = DocId d1 → sdDocId h2 = DocId d2 →
        ∃ i x1 x2, 0 <= i < n ∧ d1 ∈ D i ∧ d2 ∈ D i ∧ describes log2 o (T i) (D i) tokens d1 x1 ∧ describes log2 o (T i) (D i) tokens d2 x2 ∧
          sdScores h1 = [BM25 x1] ∧ sdScores h2 = [BM25 x2]).
      { intros d1 d2 h1 h2 (f1 & ct1 & a1 & fo1 & f2 & ct2 & a2 & fo2 & C1 & C2 & Esh) H1%Hout%HD3 H2%Hout%HD3 I1 I2.
        destruct H1 as (d1' & f1' & ct1' & a1' & fo1' & x1 & C1' & E1 & X1). destruct H2 as (d2' & f2' & ct2' & a2' & fo2' & x2 & C2' & E2 & X2).
        assert (Eq1 : EIndex d1' f1' ct1' a1' fo1' = EIndex d1 f1 ct1 a1 fo1).
        { eapply only_same; [exact (nodup_once cs Hnd _ _ _ _ _ C1)|done|]. cbn. congruence. }
        assert (Eq2 : EIndex d2' f2' ct2' a2' fo2' = EIndex d2 f2 ct2 a2 fo2).
        { eapply only_same; [exact (nodup_once cs Hnd _ _ _ _ _ C2)|done|]. cbn. congruence. }
        injection Eq1 as -> -> -> -> ->. injection Eq2 as -> -> -> -> ->. rewrite <- Esh in X2.
        exists (shard_for murmur n (DocId d1) ct1), x1, x2. destruct X1 as (? & ? & ?), X2 as (? & ? & ?). split; [apply Hrange|]. by do 5 (split; [done|]). }
      split; [|split; [|split]].
      - intros h (v & y & H1 & _ & H2 & H3 & H4)%Hout%Hval. by exists v, y.
      - intros i j h1 h2 Hij H1 H2. destruct (Hval h1) as (v1 & y1 & E1 & _ & _ & Y1 & C1); [apply Hout; by eapply elem_of_list_lookup_2|].
        destruct (Hval h2) as (v2 & y2 & E2 & _ & _ & Y2 & C2); [apply Hout; by eapply elem_of_list_lookup_2|].
        exists y1, y2. split; [done|]. split; [done|]. pose proof (Hord i j h1 h2 _ _ Hij H1 H2 E1 E2) as Hr.
        destruct (ReverseOrder _); (eapply order_close; [unfold zlen in Ht; lia|by eapply close_pos|by eapply close_pos|done|done|done]).
      - intros d1 d2 a b h1 h2 Hne Hso Hnl H1 H2 I1 I2.
        destruct (Hnb d1 d2 h1 h2 Hne (elem_of_list_lookup_2 _ _ _ H1) (elem_of_list_lookup_2 _ _ _ H2) I1 I2) as (i & x1 & x2 & Hi & Hd1 & Hd2 & X1 & X2 & E1 & E2).
        destruct (HD2 i Hi) as [S1 S2]. destruct (go_modest i (D i) d1 _ Hi S1 Hd1 S2) as [M1 M2].
        assert (Hb : f_ltb (BM25 x1) (BM25 x2) = false).
        { exact (pair_same log2 Hlog o p Hpo Hp Hity _ (D i) M1 M2 tokens Ht d1 d2 Hd1 Hd2 Hnl x1 x2 X1 X2 Hso). }
        exists (BM25 x1), (BM25 x2). do 3 (split; [done|]). intros Hij.
        destruct (go_numbers i (D i) d1 _ x1 Hi S1 Hd1 S2 X1) as (V1 & N1 & _). destruct (go_numbers i (D i) d2 _ x2 Hi S1 Hd2 S2 X2) as (V2 & N2 & _).
        unfold f_ltb in Hb. rewrite (ltb_real 24 128) in Hb by (by apply okf_of). rewrite <- !value_sfR in Hb.
        revert Hb. case Rlt_bool_spec; [intros _ Hb; discriminate Hb|]. intros Hge _.
        unfold f_eqb. rewrite (eqb_real 24 128) by (by apply okf_of). rewrite <- !value_sfR. apply Req_bool_true.
        assert (value (BM25 x1) <= value (BM25 x2))%R; [|apply Rle_antisym; assumption].
        pose proof (Hord a b h1 h2 (BM25 x1) (BM25 x2)) as A. pose proof (Hord b a h2 h1 (BM25 x2) (BM25 x1)) as B.
        destruct (ReverseOrder _); [by apply A|by apply B].
      - intros d1 d2 h1 h2 Hne Hso Hnl H1 H2 I1 I2.
        destruct (Hnb d1 d2 h1 h2 Hne H1 H2 I1 I2) as (i & x1 & x2 & Hi & Hd1 & Hd2 & X1 & X2 & E1 & E2).
        destruct (HD2 i Hi) as [S1 S2]. destruct (go_modest i (D i) d1 _ Hi S1 Hd1 S2) as [M1 M2].
        exists (BM25 x1), (BM25 x2). do 2 (split; [done|]).
        exact (pair_better log2 Hlog o p Hpo Hp Hity _ (D i) M1 M2 tokens Ht d1 d2 Hd1 Hd2 Hnl x1 x2 X1 X2 Hso).
    Qed.
  End Answer.

  Theorem order_mo {P : Type} (shard_in : P → nat → Shard → Prop) (grows : P → P → Prop) sortBy ccap clients tl tr shards ls fs ps ans t0 :
    moments murmur n only o cs shard_in grows → growing_mo murmur n only o cs shard_in → valid_sortBy sortBy →
    frun log2 sortBy (Z.to_nat n) ccap ls (fInit (Z.to_nat n) clients tl tr shards) = Some fs →
    written_as n shard_in grows (fWorlds fs) ps →
    ans ∈ fAnswers fs → fReqs fs !! faSearch ans = Some (req, t0) → timed_request o req → ¬ with_logic req →
    ∃ full out late, faResp ans = mkResp (rqTokens req) late (zlen full) (Some out) ∧ page_of req full out ∧
      heard_from (Z.to_nat n) req (heardOf (faGot ans)) late ∧
      answers_heard only cs (fWorlds fs) t0 (faEnd ans) req (heardOf (faGot ans)) full ∧
      scored_during log2 o murmur n only cs (fWorlds fs) t0 (faEnd ans) req full ∧
      ranked_during (IndexType o) p murmur n cs (fWorlds fs) t0 (faEnd ans) req out.
  Proof.
    intros Hmo HT Hvb Hf HW Ha Hq Hpr Hnl. pose proof (go_proper shard_in grows _ ps Hmo HT HW Hpr Hnl) as Hnum.
    destruct (scored_mo murmur n only o cs Hn shard_in grows Hmo HT Hnd log2 sortBy ccap clients tl tr shards ls fs ps ans req t0 Hvb Hf HW Ha Hq Hpr Hnl Hnum)
      as (full & out & late & R1 & R2 & R3 & R4 & R5).
    exists full, out, late. do 5 (split; [done|]). by eapply go_ranked.
  Qed.
End Order.
