From Verif Require Import ModelSegment SpecIndexer SpecSearch SpecSegment ProofSegment.

(** * Stop words *)
Lemma stopInit_spec lines k : k ∈ stopInit lines ↔ k ∈ lines ∧ k ≠ "".
Proof.
  unfold stopInit. induction lines as [|l lines IH] using rev_ind; [cbn; rewrite elem_of_nil; set_solver|].
  rewrite foldl_app. cbn [foldl]. rewrite elem_of_app, elem_of_list_singleton. destruct (seqb l "") eqn:E.
  - apply seqb_eq in E as ->. rewrite IH. naive_solver.
  - apply seqb_neq in E. rewrite elem_of_union, elem_of_singleton, IH. naive_solver.
Qed.

Section Thms.
  Variable X : Ext.
  Variable stop : gset string.
  Variable o : SegOpts.
  Hypothesis Hrange : valid_range X.

  Lemma stop_not_keyword id d doc k : segDoc X stop o id d = Some doc → NotUseGse o = false → k ∈ stop →
    k ∉ Text <$> Keywords doc.
  Proof.
    intros H Ho Hk. destruct (segDoc_map X stop o Hrange _ _ _ H) as (m & (m0 & n & Hm & ->) & _ & _ & _ & Hkw).
    rewrite <- has_keyword_text. intros (ls & Hls%Hkw). rewrite addLabels_lookup in Hls.
    rewrite (makeTokensMap_stop _ _ _ _ _ _ _ Hm Hk) in Hls. destruct (decide _) as [[_ Hd]|]; [by apply Hd|done].
  Qed.

  (** * User tokens *)
  Lemma map_tokens d m k : docMap X stop o d m → PinYinOpt o = false → k ∉ stop →
    ∀ t, last (filter (λ t, tkText t = k) (userTokens o d)) = Some t → m !! k = Some (tkLocs t).
  Proof.
    intros (m0 & n & Hm & ->) Hp Hk t Ht. rewrite addLabels_lookup. rewrite makeTokensMap_eq, Hp in Hm.
    destruct (textMap X stop o d) as [[m1 n1]|]; [|done]. injection Hm as <- <-.
    rewrite addTokens_lookup by done. by rewrite Ht.
  Qed.
  Lemma addPin_grows l : ∀ i m k, is_Some (m !! k) → is_Some (addPin stop i l m !! k).
  Proof.
    induction l as [|w l IH]; intros i m k H; [done|]. cbn. apply IH. destruct (IsStopToken stop w); [done|].
    destruct (decide (w = k)) as [->|]; [by rewrite lookup_insert|by rewrite lookup_insert_ne].
  Qed.
  Lemma map_grows d m m0 n0 k : docMap X stop o d m → textMap X stop o d = Some (m0, n0) → k ∉ stop →
    (is_Some (m0 !! k) ∨ (∃ t, t ∈ userTokens o d ∧ tkText t = k) ∨ k ∈ ddLabels d) → is_Some (m !! k).
  Proof.
    intros (m1 & n & Hm & ->) H0 Hk Hd. rewrite addLabels_lookup.
    assert (H : (is_Some (m0 !! k) ∨ ∃ t, t ∈ userTokens o d ∧ tkText t = k) → is_Some (m1 !! k)).
    { intros H. rewrite makeTokensMap_eq, H0 in Hm.
      assert (is_Some (addTokens stop (userTokens o d) m0 !! k)).
      { rewrite addTokens_lookup by done. destruct (last _) eqn:El; [done|]. destruct H as [?|(t & Ht & Htk)]; [done|].
        apply last_None in El. exfalso. apply (elem_of_nil t). rewrite <- El. by apply elem_of_list_filter. }
      cbn in Hm. destruct (PinYinOpt o); injection Hm as <- <-; [by apply addPin_grows|done]. }
    destruct (m1 !! k) eqn:E; [done|]. destruct Hd as [Hd|[Hd|Hd]].
    - exfalso. destruct H as [? ?]; [by left|done].
    - exfalso. destruct H as [? ?]; [by right|done].
    - by rewrite decide_True.
  Qed.

  Lemma C48_tokens_lem id d doc t : segDoc X stop o id d = Some doc →
    (Using o = 1 → ddContent d = "") → t ∈ ddTokens d → tkText t ∉ stop → tkText t ∈ Text <$> Keywords doc.
  Proof.
    intros H H1 Ht Hs. destruct (segDoc_map X stop o Hrange _ _ _ H) as (m & Hm & _ & _ & _ & Hkw).
    rewrite <- has_keyword_text. destruct (textMap_total X stop o d) as [[m0 n0] H0].
    destruct (map_grows d m m0 n0 (tkText t) Hm H0) as [ls Hls]; [done| |by exists ls; apply Hkw].
    right. left. exists t. split; [|done]. unfold userTokens. destruct (Z.eqb_spec (Using o) 1) as [E|E].
    - rewrite (H1 E). done.
    - by rewrite andb_false_r.
  Qed.
  Lemma C48_locations_lem id d doc a t b : segDoc X stop o id d = Some doc → PinYinOpt o = false →
    (Using o = 1 → ddContent d = "") → ddTokens d = a ++ t :: b → tkText t ∉ tkText <$> b → tkText t ∉ stop →
    has_keyword doc (tkText t) (tkLocs t).
  Proof.
    intros H Hp H1 Ht Hb Hs. destruct (segDoc_map X stop o Hrange _ _ _ H) as (m & Hm & _ & _ & _ & Hkw).
    apply Hkw. eapply map_tokens; [done|done|done|].
    assert (Hu : userTokens o d = ddTokens d).
    { unfold userTokens. destruct (Z.eqb_spec (Using o) 1) as [E|E]; [by rewrite (H1 E)|by rewrite andb_false_r]. }
    rewrite Hu, Ht, filter_app, filter_cons_True by done.
    assert (filter (λ t', tkText t' = tkText t) b = []) as ->.
    { destruct (filter _ b) as [|x l] eqn:E; [done|]. exfalso. assert (Hx : x ∈ filter (λ t', tkText t' = tkText t) b) by (rewrite E; by left).
      apply elem_of_list_filter in Hx as [Hx1 Hx2]. apply Hb. rewrite <- Hx1. by apply elem_of_list_fmap_1. }
    apply last_snoc.
  Qed.

  (** * Labels *)
  Definition noLabels (d : DocData) : DocData := mkData (ddContent d) (ddAttri d) (ddTokens d) [] (ddFields d).
  Lemma C48_labels_lem id d doc doc0 k ls : segDoc X stop o id d = Some doc →
    segDoc X stop o id (mkData (ddContent d) (ddAttri d) (ddTokens d) [] (ddFields d)) = Some doc0 →
    has_keyword doc k ls ↔
      has_keyword doc0 k ls ∨
      (k ∉ Text <$> Keywords doc0 ∧ k ∈ ddLabels d ∧ (NotUseGse o = false → k ∉ stop) ∧ ls = []).
  Proof.
    intros H H'. destruct (segDoc_map X stop o Hrange _ _ _ H) as (m & (m1 & n1 & Hm1 & ->) & _ & _ & _ & Hkw).
    destruct (segDoc_map X stop o Hrange _ _ _ H') as (m' & (m2 & n2 & Hm2 & ->) & _ & _ & _ & Hkw').
    change (makeTokensMap X stop o (mkData (ddContent d) (ddAttri d) (ddTokens d) [] (ddFields d))) with (makeTokensMap X stop o d) in Hm2.
    rewrite Hm2 in Hm1. injection Hm1 as -> ->. cbn [foldl ddLabels] in *.
    rewrite <- has_keyword_text, Hkw, Hkw', addLabels_lookup.
    assert (Hn : (∃ l, has_keyword doc0 k l) ↔ is_Some (m1 !! k)).
    { split; intros [l Hl]; exists l; by apply Hkw'. }
    rewrite Hn. destruct (m1 !! k) as [l|] eqn:E.
    - split; [naive_solver|]. intros [?|(Hx & _)]; [done|]. destruct Hx. by exists l.
    - split.
      + destruct (decide _) as [[? ?]|]; [|done]. intros [= <-]. right. split; [by intros []|]. done.
      + intros [?|(_ & ? & ? & ->)]; [done|]. by rewrite decide_True.
  Qed.

  Lemma segDoc_len id d doc : segDoc X stop o id d = Some doc →
    ∃ m n, makeTokensMap X stop o d = Some (m, n) ∧ TokenLen doc = f32_of_Z n.
  Proof.
    unfold segDoc. destruct (makeTokensMap X stop o d) as [[m n]|]; [|done]. cbn. intros [= <-]. by exists m, n.
  Qed.
  Lemma C48_labels_len id d doc doc0 : segDoc X stop o id d = Some doc →
    segDoc X stop o id (mkData (ddContent d) (ddAttri d) (ddTokens d) [] (ddFields d)) = Some doc0 →
    TokenLen doc = TokenLen doc0.
  Proof.
    intros (m & n & H1 & ->)%segDoc_len (m' & n' & H2 & ->)%segDoc_len.
    change (makeTokensMap X stop o (mkData (ddContent d) (ddAttri d) (ddTokens d) [] (ddFields d))) with (makeTokensMap X stop o d) in H2.
    congruence.
  Qed.
  Lemma C48_len_lem id d doc : segDoc X stop o id d = Some doc → PinYinOpt o = false →
    (ddContent d = "" ∨ Using o = 2 → TokenLen doc = f32_of_Z (zlen (ddTokens d))) ∧
    (ddContent d ≠ "" → Using o = 1 → TokenLen doc = f32_of_Z (zlen (modeSegment X (ddContent d)))) ∧
    (ddContent d ≠ "" → Using o = 0 → NotUseGse o = false →
      TokenLen doc = f32_of_Z (zlen (modeSegment X (ddContent d)) + zlen (ddTokens d))).
  Proof.
    intros (m & n & H1 & ->)%segDoc_len Hp. rewrite makeTokensMap_eq, Hp in H1.
    assert (Hc : ∀ s, s ≠ "" → seqb s "" = false). { intros s Hs. by apply String.eqb_neq. }
    split; [|split].
    - intros H. assert (textMap X stop o d = Some (∅, 0) ∧ userTokens o d = ddTokens d) as [E1 E2].
      { unfold textMap, userTokens. destruct H as [->|E]; [done|]. rewrite E.
        destruct (seqb _ _); [done|]. by destruct (NotUseGse o). }
      rewrite E1, E2 in H1. cbn in H1. injection H1 as <- <-. f_equal.
    - intros H%Hc E. unfold textMap, userTokens in H1. rewrite H, E in H1. destruct (NotUseGse o); cbn in H1; injection H1 as <- <-; f_equal; unfold zlen; cbn [length]; lia.
    - intros H%Hc E E'. unfold textMap, userTokens in H1. rewrite H, E, E' in H1. cbn in H1. injection H1 as <- <-. done.
  Qed.

  (** * Mode 1 *)
  Lemma addSegments_dom sg : ∀ m k, is_Some (addSegments stop sg m !! k) → is_Some (m !! k) ∨ k ∈ sg.*1.
  Proof.
    induction sg as [|s sg IH]; intros m k H; [by left|]. cbn [fmap list_fmap]. rewrite elem_of_cons.
    change (addSegments stop (s :: sg) m) with (addSegments stop sg (if IsStopToken stop s.1 then m else <[s.1 := default [] (m !! s.1) ++ [s.2]]> m)) in H.
    destruct (IH _ _ H) as [H1|H1]; [|by right; right].
    destruct (IsStopToken stop s.1); [by left|]. destruct (decide (s.1 = k)) as [<-|]; [by right; left|].
    rewrite lookup_insert_ne in H1 by done. by left.
  Qed.
  Lemma C48_mode1_lem id d doc k : segDoc X stop o id d = Some doc → Using o = 1 → ddContent d ≠ "" → PinYinOpt o = false →
    k ∈ Text <$> Keywords doc → k ∈ (modeSegment X (ddContent d)).*1 ∨ k ∈ ddLabels d.
  Proof.
    intros H H1 Hc Hp Hk. destruct (segDoc_map X stop o Hrange _ _ _ H) as (m & (m1 & n1 & Hm1 & ->) & _ & _ & _ & Hkw).
    rewrite <- has_keyword_text in Hk. destruct Hk as [ls Hls%Hkw]. rewrite addLabels_lookup in Hls.
    rewrite makeTokensMap_eq, Hp in Hm1. unfold textMap, userTokens in Hm1. rewrite H1 in Hm1.
    apply seqb_neq in Hc. rewrite Hc in Hm1. rewrite andb_false_r in Hm1. cbn in Hm1. injection Hm1 as <- <-.
    destruct (addSegments _ _ _ !! k) eqn:E.
    - left. destruct (addSegments_dom (modeSegment X (ddContent d)) ∅ k) as [[? ?]|?]; [by rewrite E|by apply lookup_empty_Some in H0|done].
    - destruct (decide _) as [[? ?]|]; [by right|done].
  Qed.

  (** * Pinyin *)
  Lemma addPin_last l : ∀ i m a w b, l = a ++ w :: b → w ∉ b → w ∉ stop → addPin stop i l m !! w = Some [i + zlen a].
  Proof.
    assert (Hnot : ∀ l i m w, w ∉ l → addPin stop i l m !! w = m !! w).
    { clear. intros l. induction l as [|v l' IH]; intros i m w Hw; [done|]. cbn. rewrite IH by set_solver. destruct (IsStopToken stop v); [done|].
      apply lookup_insert_ne. set_solver. }
    induction l as [|v l IH]; intros i m a w b E Hb Hs; [by destruct a|]. destruct a as [|x a]; injection E as -> E; [subst l|].
    - cbn. rewrite Hnot by done. unfold IsStopToken. rewrite bool_decide_eq_false_2 by done. rewrite lookup_insert.
      unfold zlen. cbn. by rewrite Z.add_0_r.
    - cbn [addPin]. rewrite (IH _ _ a w b) by done. do 2 f_equal. unfold zlen. cbn [length]. lia.
  Qed.
  Lemma C48_pinyin_lem id d doc a w b : segDoc X stop o id d = Some doc → PinYinOpt o = true →
    PinYin X stop o (ddContent d) = a ++ w :: b → w ∉ b → w ∉ stop → has_keyword doc w [zlen a].
  Proof.
    intros H Hp Hl Hb Hs. destruct (segDoc_map X stop o Hrange _ _ _ H) as (m & (m1 & n1 & Hm1 & ->) & _ & _ & _ & Hkw).
    apply Hkw. rewrite addLabels_lookup. rewrite makeTokensMap_eq, Hp in Hm1.
    destruct (textMap X stop o d) as [[m0 n0]|]; [|done]. injection Hm1 as <- <-.
    rewrite (addPin_last _ 0 _ a w b) by done. done.
  Qed.

  (** * Whole words *)
  Lemma C50_words_lem id d doc ws w : segDoc X stop o id d = Some doc → whole_words o → ddContent d ≠ "" →
    words (toLower X (ddContent d)) ws → w ∈ ws → w ≠ "" → w ∉ stop → w ∈ Text <$> Keywords doc.
  Proof.
    intros H Ho Hc Hw Hin Hne Hs. destruct (segDoc_map X stop o Hrange _ _ _ H) as (m & Hm & _ & _ & _ & Hkw).
    rewrite <- has_keyword_text. destruct (textMap_total X stop o d) as [[m0 n0] H0].
    destruct (map_grows d m m0 n0 w Hm H0) as [ls Hls]; [done| |by exists ls; apply Hkw]. left.
    unfold textMap in H0. apply seqb_neq in Hc. rewrite Hc in H0.
    replace (NotUseGse o && (Using o =? 0) || (Using o =? 4)) with true in H0.
    2:{ destruct Ho as [->|[-> ->]]; [by rewrite orb_true_r|done]. }
    destruct (defaultTokens_eq stop o (toLower X (ddContent d))) as (m' & n' & E & E'). rewrite E in H0. injection H0 as -> ->.
    apply ForSplitData_lem in E' as (E1 & _). rewrite E1. split; [|done].
    rewrite (words_unique _ _ _ (splitSpace_words _) Hw). apply elem_of_list_lookup in Hin as [i Hi].
    exists i, w. naive_solver.
  Qed.

  (** The keywords of a document with text only, in whole-word mode. *)
  Lemma C50_exact_lem id d doc ws : segDoc X stop o id d = Some doc → whole_words o → PinYinOpt o = false →
    ddContent d ≠ "" → ddTokens d = [] → ddLabels d = [] →
    words (toLower X (ddContent d)) ws →
    ∃ n : Z, 0 <= n ∧ TokenLen doc = f32_of_Z n ∧
    (∀ k, k ∈ Text <$> Keywords doc ↔ split_keyword False ws k ∧ k ∉ stop) ∧
    (∀ k l, has_keyword doc k l → l ≠ [] ∧ StronglySorted Z.lt l) ∧
    (∀ j, 1 <= j <= n ↔ ∃ k l, has_keyword doc k l ∧ j ∈ l) ∧
    (∀ k1 k2 l1 l2 j, has_keyword doc k1 l1 → has_keyword doc k2 l2 → j ∈ l1 → j ∈ l2 → k1 = k2).
  Proof.
    intros H Ho Hp Hc Ht Hl Hw. destruct (segDoc_map X stop o Hrange _ _ _ H) as (m & (m1 & n1 & Hm1 & Hmm) & _ & _ & _ & Hkw).
    rewrite Hl in Hmm. cbn in Hmm. subst m1.
    unfold segDoc in H. rewrite Hm1 in H. injection H as Hdoc.
    rewrite makeTokensMap_eq, Hp in Hm1.
    unfold textMap in Hm1. apply seqb_neq in Hc. rewrite Hc in Hm1.
    replace (NotUseGse o && (Using o =? 0) || (Using o =? 4)) with true in Hm1.
    2:{ destruct Ho as [->|[-> ->]]; [by rewrite orb_true_r|done]. }
    destruct (defaultTokens_eq stop o (toLower X (ddContent d))) as (m' & n' & E & E'). rewrite E in Hm1.
    assert (Hu : userTokens o d = []).
    { unfold userTokens. rewrite Ht. by destruct (_ && _). }
    rewrite Hu in Hm1. cbn in Hm1. injection Hm1 as -> Hn.
    rewrite (words_unique _ _ _ (splitSpace_words _) Hw) in E'.
    exists n1. assert (n' = n1) as ->. { unfold zlen in Hn. cbn in Hn. lia. }
    assert (Hn0 : 0 <= n1).
    { rewrite ForSplitData_eq in E' by done. injection E' as E'.
      pose proof (posInv_addAll stop (emitted o (Z.to_nat (zlen ws)) ws "") _ posInv_empty) as (Hp0 & _). by rewrite E' in Hp0. }
    split; [done|]. split; [by rewrite <- Hdoc|].
    apply ForSplitData_lem in E' as (E1 & E2 & E3 & E4). split; [|split; [|split]].
    - intros k. rewrite <- has_keyword_text. assert (split_keyword False ws k ↔ split_keyword (Using o = 6) ws k) as ->.
      { assert (Using o ≠ 6) by (destruct Ho as [->|[_ ->]]; done). unfold split_keyword. naive_solver. }
      rewrite <- E1. split; intros [l Hk]; exists l; by apply Hkw.
    - intros k l Hk%Hkw. by apply (E2 k).
    - intros j. rewrite E3. split; intros (k & l & Hk & Hj); exists k, l; (split; [by apply Hkw|done]).
    - intros k1 k2 l1 l2 j H1%Hkw H2%Hkw. by apply E4.
  Qed.
End Thms.
