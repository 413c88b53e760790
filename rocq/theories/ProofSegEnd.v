(** From texts to search results, and the reserved id "0" in the engine. *)
From Verif Require Import ModelSegment ModelPipe SpecIndexer SpecSearch SpecRank SpecRoute SpecPipe SpecSegment ProofSearchThms ProofIxSearch
  ProofRoute ProofPipe ProofSegment ProofSegThms.

(** * Blank words *)
Lemma glued_app a b : glued (a ++ b) = String.append (glued a) (glued b).
Proof. induction a as [|w a IH]; [done|]. cbn [app]. by rewrite !glued_cons, IH, sapp_assoc. Qed.
Lemma sapp_empty a b : String.append a b = "" → a = "" ∧ b = "".
Proof. destruct a; [done|discriminate]. Qed.
Lemma split_keyword_nonempty ws k : split_keyword False ws k → k ≠ "".
Proof.
  intros (i & w & Hi & Hw & [->|[->|[[] _]]]); [done|]. rewrite (take_S_r _ _ _ Hi), glued_app, glued_cons. intros E.
  apply sapp_empty in E as [_ E]. by apply sapp_empty in E as [E _].
Qed.

Section Blank.
  Context (X : Ext) (stop : gset string) (o : SegOpts).
  Hypothesis Hrange : valid_range X.
  Hypothesis Ho : NotUseGse o = true ∧ Using o = 0 ∧ PinYinOpt o = false.

  Lemma no_blank_keyword id d doc : segDoc X stop o id d = Some doc →
    "" ∉ tkText <$> ddTokens d → "" ∉ ddLabels d → "" ∉ Text <$> Keywords doc.
  Proof.
    intros H Ht Hl. destruct (segDoc_map X stop o Hrange _ _ _ H) as (m & (m1 & n1 & Hm1 & ->) & _ & _ & _ & Hkw).
    rewrite <- has_keyword_text. intros [ls Hls%Hkw]. rewrite addLabels_lookup in Hls.
    destruct Ho as (O1 & O2 & O3). rewrite makeTokensMap_eq, O3 in Hm1.
    destruct (textMap X stop o d) as [[m0 n0]|] eqn:E; [|done]. cbn in Hm1. injection Hm1 as <- <-.
    assert (Hm0 : m0 !! "" = None).
    { unfold textMap in E. rewrite O1, O2 in E. cbn in E. destruct (seqb (ddContent d) ""); [by injection E as <- <-|].
      destruct (defaultTokens_eq stop o (toLower X (ddContent d))) as (m' & n' & E1 & E2). rewrite E1 in E. injection E as -> ->.
      apply ForSplitData_lem in E2 as (E2 & _). apply eq_None_not_Some. rewrite E2. intros [Hk _].
      apply (split_keyword_nonempty (splitSpace (toLower X (ddContent d))) ""); [|done].
      unfold split_keyword in *. rewrite O2 in Hk. naive_solver. }
    assert (Hm1 : addTokens stop (userTokens o d) m0 !! "" = None).
    { destruct (decide ("" ∈ stop)); [by rewrite addTokens_stop|]. rewrite addTokens_lookup by done.
      destruct (last _) as [t|] eqn:El; [|done]. exfalso. apply last_Some in El as [l' El].
      assert (Hin : t ∈ filter (λ t, tkText t = "") (userTokens o d)) by (rewrite El; apply elem_of_app; right; by left).
      apply elem_of_list_filter in Hin as [Ht1 Ht2]. apply Ht. rewrite <- Ht1. apply elem_of_list_fmap_1.
      unfold userTokens in Ht2. rewrite O2, andb_false_r in Ht2. done. }
    rewrite Hm1 in Hls. by destruct (decide _) as [[? _]|].
  Qed.
End Blank.

Lemma foreign_word_finds_nothing sortDocs io ops s log2 k tokens labels flt logic docs n :
  reach sortDocs io ops s → (∀ d, added d ops → k ∉ Text <$> Keywords d) → k ∈ tokens ++ labels → plain_logic logic →
  Lookup log2 s tokens labels flt false logic = Some (docs, n) → docs = [] ∧ n = 0.
Proof.
  intros HR Hk Hin Hpl Hrun. destruct (C03_lem _ _ _ _ log2 HR) as (M & Hs & Ha & HM).
  assert (docs = []) as ->.
  { destruct docs as [|x docs]; [done|]. exfalso. assert (Hx : ixDocId x ∈ ixDocId <$> x :: docs) by by left.
    apply (HM _ _ _ _ _ _ Hpl Hrun) in Hx as (_ & _ & d & Hd & Hall). by apply (Hk d (Ha _ _ Hd)), Hall. }
  split; [done|]. destruct (C04_lem _ _ _ _ _ _ _ _ _ _ _ HR Hpl Hrun) as (_ & _ & -> & _). done.
Qed.

Lemma Tokens_split X stop o text toks : NotUseGse o = true → text ≠ "" →
  Tokens X stop o text toks = splitSpace (toLower X text) ++ toks.
Proof. intros Ho Ht. unfold Tokens. apply seqb_neq in Ht. by rewrite Ht, Ho. Qed.

Lemma C49_nothing_lem X stop o sortDocs io ops s log2 text toks labels flt logic docs n :
  valid_range X → NotUseGse o = true → Using o = 0 → PinYinOpt o = false →
  reach sortDocs io ops s →
  (∀ doc, added doc ops → ∃ id d, segDoc X stop o id d = Some doc ∧ "" ∉ tkText <$> ddTokens d ∧ "" ∉ ddLabels d) →
  text ≠ "" → "" ∈ splitSpace (toLower X text) → plain_logic logic →
  Lookup log2 s (Tokens X stop o text toks) labels flt false logic = Some (docs, n) → docs = [] ∧ n = 0.
Proof.
  intros Hr O1 O2 O3 HR Hdocs Ht Hb Hpl. eapply (foreign_word_finds_nothing _ _ _ _ _ ""); [done| | |done].
  - intros doc (id & d & Hd & H1 & H2)%Hdocs. by eapply no_blank_keyword.
  - rewrite Tokens_split by done. rewrite !elem_of_app. by left; left.
Qed.

(** * Index, then search *)
Lemma segDoc_good X stop o id d doc : valid_range X → segDoc X stop o id d = Some doc → good_doc doc ∧ DocId doc = id.
Proof. intros Hr H. destruct (segDoc_map X stop o Hr _ _ _ H) as (m & _ & H1 & H2 & _). done. Qed.

Lemma C61_lem X stop o murmur sortDocs only n io i cs0 id d fo c cs1 s0 :
  valid_range X → NotUseGse o = true → Using o = 0 →
  valid_sort sortDocs → Init io = Some s0 → 1 <= n < 2^32 →
  indexCall X stop o id d fo = Some c →
  Forall good_call (cs0 ++ c :: cs1) → Forall forced_call (cs0 ++ c :: cs1) →
  u32 (murmur (String.append id (ddContent d))) `mod` n = i →
  Forall (λ c, sent_to murmur n i id c = false) cs1 →
  ∃ sh, shard_after murmur sortDocs io only n i (cs0 ++ c :: cs1) sh ∧
  ∀ log2 text qs ws labels flt logic docs k, plain_logic logic →
    text ≠ "" → ddContent d ≠ "" →
    words (toLower X text) qs → words (toLower X (ddContent d)) ws →
    Forall (λ q, q ≠ "" ∧ q ∈ ws ∧ q ∉ stop) qs → Forall (λ l, l ∈ ddLabels d) labels → passes flt id →
    Lookup log2 (shIx sh) (Tokens X stop o text []) labels flt false logic = Some (docs, k) →
    id ∈ ixDocId <$> docs.
Proof.
  intros Hr O1 O2 Hsort HI Hn Hc Hg Hf Hi Hlast. unfold indexCall in Hc.
  destruct (segDoc X stop o id d) as [doc|] eqn:Ed; [|done]. injection Hc as <-.
  destruct (segDoc_good _ _ _ _ _ _ Hr Ed) as [Hgd <-].
  destruct (holds_version murmur sortDocs only n io i cs0 doc (ddFields d) (ddContent d) (ddAttri d) fo cs1 s0) as (sh & Hsh & Hserves); try done.
  exists sh. split; [done|]. intros log2 text qs ws labels flt logic docs k Hpl Ht Hcne Hqs Hws Hall Hlab Hp Hrun.
  destruct (Hserves log2) as (_ & _ & _ & Hs & _). eapply Hs; [done|done|].
  rewrite Tokens_split by done. rewrite (words_unique _ _ _ (splitSpace_words _) Hqs), app_nil_r.
  destruct Hqs as (Hq0 & _). split; [by destruct qs|]. split; [done|]. intros w [Hw|Hw]%elem_of_app.
  - rewrite Forall_forall in Hall. destruct (Hall w Hw) as (? & ? & ?).
    eapply (C50_words_lem X stop o Hr); [done|by right|done|done|done|done|done].
  - rewrite Forall_forall in Hlab. specialize (Hlab w Hw).
    destruct (segDoc_map X stop o Hr _ _ _ Ed) as (m & (m1 & n1 & Hm1 & ->) & _ & _ & _ & Hkw).
    apply has_keyword_text. assert (is_Some (foldl (addLabel stop o) m1 (ddLabels d) !! w)) as [ls Hls].
    { rewrite addLabels_lookup. destruct (m1 !! w); [done|]. rewrite decide_True; [done|]. split; [done|]. by rewrite O1. }
    exists ls. by apply Hkw.
Qed.

(** * The id "0" in the engine *)
Section Zero.
  Context (murmur : string → Z) (n : Z) (only reqsFirst : bool) (cap : chan → nat).

  Definition not_zero (o : op) : Prop := match o with OpAdd (Some d) _ => DocId d ≠ "0" | _ => True end.
  Lemma not_zero_hidden sortDocs io ops s log2 : reach sortDocs io ops s → Forall not_zero ops →
    HasDoc s "0" = false ∧ not_found log2 s "0".
  Proof.
    intros HR Hz. assert (Hh : HasDoc s "0" = false).
    { destruct (C03_lem _ _ _ _ log2 HR) as (M & (Hs1 & Hs2 & _) & Ha & _). apply not_true_iff_false. rewrite Hs1. intros [d Hd].
      destruct (Ha _ _ Hd) as [f Hf]. rewrite Forall_forall in Hz. apply (Hz _ Hf). by apply Hs2 in Hd. }
    split; [done|]. by eapply hasdoc_not_found.
  Qed.

  Lemma ixStream_not_zero i cs : Forall not_zero (ixStream murmur n i cs).
  Proof.
    unfold ixStream. apply Forall_join, Forall_fmap, Forall_true. intros [d f ct a fo|id fo|]; cbn.
    - destruct (seqb (DocId d) "0") eqn:E; [destruct fo; by repeat constructor|]. apply seqb_neq in E.
      destruct (_ =? i); [by repeat constructor|]. destruct fo; by repeat constructor.
    - by repeat constructor.
    - by repeat constructor.
  Qed.

  (** An event of a call which hands a document to an indexer *)
  Lemma evsC_adds cs i d f : EvIx i (OpAdd (Some d) f) ∈ evsC murmur n only reqsFirst cs →
    DocId d ≠ "0" ∧ ∃ fl ct a fo, EIndex d fl ct a fo ∈ cs.
  Proof.
    unfold evsC. rewrite elem_of_list_join. intros (l & Hl & (c & -> & Hc)%elem_of_list_fmap).
    assert (Hseg : ∀ c0, EvIx i (OpAdd (Some d) f) ∈ evsM murmur n only (MSeg c0) →
      DocId d ≠ "0" ∧ ∃ fl ct a fo, c0 = EIndex d fl ct a fo).
    { clear. intros c0. unfold evsM. rewrite elem_of_list_join. intros (l & Hl & (a & -> & Ha)%elem_of_list_fmap).
      cbn [handler] in Ha. unfold segActs in Ha. destruct c0 as [d0 fl ct at_ fo|id fo|]; [|by apply elem_of_nil in Ha..].
      assert (Hnone : ∀ j, EvIx i (OpAdd (Some d) f) ∉ evs1 murmur n only (ASend (CIxAdd j) (MAdd j None true))).
      { intros j. cbn. rewrite !elem_of_cons, elem_of_nil. naive_solver. }
      destruct (seqb (DocId d0) "0") eqn:E.
      - destruct fo; [|by apply elem_of_nil in Ha]. apply elem_of_list_fmap in Ha as (j & -> & _). by apply Hnone in Hl.
      - apply seqb_neq in E. rewrite !elem_of_app, !elem_of_list_singleton in Ha. destruct Ha as [->|[Ha| ->]].
        + cbn in Hl. assert (d = d0) as ->; [|naive_solver].
          destruct fo; cbn in Hl; rewrite !elem_of_cons, elem_of_nil in Hl; naive_solver.
        + destruct fo; [|by apply elem_of_nil in Ha]. apply elem_of_list_fmap in Ha as (j & -> & _). by apply Hnone in Hl.
        + cbn in Hl. rewrite !elem_of_cons, elem_of_nil in Hl. naive_solver. }
    unfold evsA in Hl. rewrite elem_of_list_join in Hl. destruct Hl as (l & Hl & (a & -> & Ha)%elem_of_list_fmap).
    assert (Hinc : ∀ id fo cc, a ∈ incs id fo cc → EvIx i (OpAdd (Some d) f) ∉ evs murmur n only a).
    { intros id fo cc. unfold incs. destruct (seqb id "0"), fo; cbn; rewrite ?elem_of_cons, ?elem_of_nil; intros Hx; destruct_or!; subst; try done.
      all: cbn; rewrite elem_of_cons, elem_of_nil; naive_solver. }
    destruct c as [d0 fl ct at_ fo|id fo|]; cbn [callActs] in Ha.
    - unfold indexActs in Ha. apply elem_of_app in Ha as [Ha|Ha]; [by apply Hinc in Ha|].
      apply elem_of_list_singleton in Ha as ->. cbn [evs] in Hl. destruct (Hseg _ Hl) as [Hz (x1 & x2 & x3 & x4 & Hx)].
      split; [done|]. exists x1, x2, x3, x4. by rewrite <- Hx.
    - apply elem_of_app in Ha as [Ha|Ha]; [by apply Hinc in Ha|]. exfalso.
      rewrite elem_of_list_join in Ha. destruct Ha as (l' & Ha & (j & -> & _)%elem_of_list_fmap).
      rewrite elem_of_cons in Ha. destruct Ha as [->|Ha].
      + cbn in Hl. destruct (seqb id "0"), fo; cbn in Hl; rewrite ?elem_of_cons, ?elem_of_nil in Hl; naive_solver.
      + destruct (seqb id "0"); [by apply elem_of_nil in Ha|]. apply elem_of_list_singleton in Ha as ->.
        cbn in Hl. rewrite ?elem_of_cons, ?elem_of_nil in Hl. naive_solver.
    - rewrite !elem_of_app in Ha. exfalso. destruct Ha as [Ha|[Ha|Ha]].
      + assert (Hx : EvIx i (OpAdd (Some d) f) ∈ evsA murmur n only (flushLoop1 reqsFirst)).
        { unfold evsA. rewrite elem_of_list_join. eexists. split; [done|]. by apply elem_of_list_fmap_1. }
        rewrite evsA_loop1 in Hx. by apply elem_of_nil in Hx.
      + unfold indexActs in Ha. apply elem_of_app in Ha as [Ha|Ha]; [by apply Hinc in Ha|].
        apply elem_of_list_singleton in Ha as ->. cbn [evs] in Hl. destruct (Hseg _ Hl) as [Hz (x1 & x2 & x3 & x4 & Hx)]. injection Hx as Hx _ _ _ _. by subst d.
      + assert (Hx : EvIx i (OpAdd (Some d) f) ∈ evsA murmur n only flushLoop2).
        { unfold evsA. rewrite elem_of_list_join. eexists. split; [done|]. by apply elem_of_list_fmap_1. }
        rewrite evsA_loop2 in Hx. by apply elem_of_nil in Hx.
  Qed.

  Lemma ixCalls_adds nseg progs s i o : pipe_reach murmur n only reqsFirst cap nseg progs s →
    o ∈ ixCalls i (sLog s) → ∀ d f, o = OpAdd (Some d) f →
    DocId d ≠ "0" ∧ ∃ fl ct a fo, EIndex d fl ct a fo ∈ mjoin progs.
  Proof.
    intros Hr Ho d f ->. unfold ixCalls in Ho. apply elem_of_list_omap in Ho as (e & He & Hm).
    destruct e as [c|j o|j o]; try done. destruct (Z.eqb_spec j i) as [->|]; [|done]. injection Hm as ->.
    apply (evsC_adds _ i d f). rewrite <- (reach_all _ _ _ _ _ _ _ _ Hr). apply elem_of_app. by left.
  Qed.

  Lemma C15_pipe_lem sortDocs io s0 nseg progs s i x log2 :
    valid_sort sortDocs → Forall (Forall good_call) progs → pipe_reach murmur n only reqsFirst cap nseg progs s →
    Init io = Some s0 → run sortDocs (ixCalls i (sLog s)) s0 = Some x →
    HasDoc x "0" = false ∧ not_found log2 x "0".
  Proof.
    intros Hs Hg Hr HI Hrun. eapply (not_zero_hidden sortDocs io (ixCalls i (sLog s))).
    - split; [done|]. split; [|by exists s0]. apply Forall_forall. intros [[d|] f|id f] Ho; try done. cbn.
      destruct (ixCalls_adds _ _ _ _ _ Hr Ho d f eq_refl) as (_ & fl & ct & a & fo & Hin).
      apply elem_of_list_join in Hin as (pg & Hin & Hpg). rewrite Forall_forall in Hg. specialize (Hg pg Hpg).
      rewrite Forall_forall in Hg. apply (Hg _ Hin).
    - apply Forall_forall. intros [[d|] f|id f] Ho; try done. cbn.
      by destruct (ixCalls_adds _ _ _ _ _ Hr Ho d f eq_refl) as [? _].
  Qed.
End Zero.
