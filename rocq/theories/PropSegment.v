(** Theorems about segmentation: segment.go, stop_tokens.go, engine.go Tokens. *)
From Verif Require Import ModelSegment ModelPipe SpecIndexer SpecSearch SpecRoute SpecPipe SpecSegment ProofIxThms ProofRoute ProofSegment ProofSegThms
  ProofSegEnd ExampleTools.

(** An instance of the external functions: ASCII lower case, one byte per character,
    a segmenter that cuts at spaces. *)
Definition lowerAscii (c : Ascii.ascii) : Ascii.ascii :=
  let k := Ascii.N_of_ascii c in if (65 <=? k)%N && (k <=? 90)%N then Ascii.ascii_of_N (k + 32) else c.
Fixpoint lower (s : string) : string :=
  match s with EmptyString => "" | String c r => String (lowerAscii c) (lower r) end.
Fixpoint letters (s : string) : list string :=
  match s with EmptyString => [] | String c r => String c "" :: letters r end.
Fixpoint offsets (i : Z) (ws : list string) : list (string * Z) :=
  match ws with [] => [] | w :: r => (w, i) :: offsets (i + strlen w + 1) r end.
Definition exX : Ext := mkExt lower letters (λ s, offsets 0 (splitSpace (lower s))) splitSpace (λ _, ["ni"; "hao"]) letters map_to_list.
Lemma exX_range : valid_range exX.
Proof. intros m. done. Qed.
Definition keywordsOf (doc : option DocIndex) : list (string * list Z) :=
  match doc with Some d => (λ kw, (Text kw, Starts kw)) <$> Keywords d | None => [] end.
Definition sameElems (l1 l2 : list (string * list Z)) : bool :=
  forallb (λ x, bool_decide (x ∈ l2)) l1 && forallb (λ x, bool_decide (x ∈ l1)) l2 && (Nat.eqb (length l1) (length l2)).
Definition data (content : string) (toks : list TokenData) (labels : list string) : DocData := mkData content INil toks labels INil.
Definition gse (u : Z) : SegOpts := mkSegOpts false u false false.
Definition noGse : SegOpts := mkSegOpts true 0 false false.

(** * C47: stop words *)
Theorem C47_stop_words_never_indexed X o lines id d doc k : valid_range X →
  segDoc X (engineStop o lines) o id d = Some doc → NotUseGse o = false → k ∈ lines → k ≠ "" →
  k ∉ Text <$> Keywords doc.
Proof.
  intros Hr H Ho Hk Hne. eapply (stop_not_keyword X _ o Hr); [done|done|]. unfold engineStop. rewrite Ho.
  by apply stopInit_spec.
Qed.
Print Assumptions C47_stop_words_never_indexed.
Theorem C47_stop_words_never_searched X o lines text toks k :
  k ∈ Tokens X (engineStop o lines) o text toks → NotUseGse o = false → k ∈ lines → k ≠ "" → k ∈ toks.
Proof.
  unfold Tokens, engineStop, Segment. intros H Ho Hk Hne. rewrite Ho in H. destruct (seqb text ""); [done|].
  apply elem_of_app in H as [H|H]; [|done]. apply elem_of_list_filter in H as [H _]. unfold IsStopToken in H.
  apply bool_decide_eq_false in H. exfalso. by apply H, stopInit_spec.
Qed.
Print Assumptions C47_stop_words_never_searched.
(** Only the listed words are dropped: nothing else ever is. *)
Theorem C47_only_stop_words_are_dropped X o lines id d doc : valid_range X →
  segDoc X (engineStop o lines) o id d = Some doc →
  ∀ l, l ∈ ddLabels d → (NotUseGse o = true ∨ l ∉ lines ∨ l = "") → l ∈ Text <$> Keywords doc.
Proof.
  intros Hr H l Hl Hs. destruct (segDoc_map X _ o Hr _ _ _ H) as (m & (m1 & n1 & Hm1 & ->) & _ & _ & _ & Hkw).
  apply has_keyword_text. assert (is_Some (foldl (addLabel (engineStop o lines) o) m1 (ddLabels d) !! l)) as [ls Hls].
  { rewrite addLabels_lookup. destruct (m1 !! l); [done|]. rewrite decide_True; [done|]. split; [done|]. intros Ho.
    unfold engineStop. rewrite Ho, stopInit_spec. intros [Hin Hne]. destruct Hs as [Hs|[Hs|Hs]]; [congruence|done|done]. }
  exists ls. by apply Hkw.
Qed.
Print Assumptions C47_only_stop_words_are_dropped.
(** Without the segmenter the stop word file is ignored. *)
Theorem C47_no_stop_words_without_segmenter X o l1 l2 id d : NotUseGse o = true →
  segDoc X (engineStop o l1) o id d = segDoc X (engineStop o l2) o id d.
Proof. unfold engineStop. by intros ->. Qed.
Print Assumptions C47_no_stop_words_without_segmenter.

Example C47_case :
  sameElems (keywordsOf (segDoc exX (engineStop (gse 0) ["the"; ""; "x"]) (gse 0) "1" (data "The cat the dog" [mkTok "x" [3]; mkTok "y" [1; 2]] ["the"; "red"; "cat"])))
    [("cat", [4]); ("dog", [12]); ("y", [1; 2]); ("red", [])] = true ∧
  sameElems (keywordsOf (segDoc exX (engineStop noGse ["the"]) noGse "1" (data "the cat" [] [])))
    [("the", [1; 2]); ("cat", [3]); ("thecat", [4])] = true ∧
  bool_decide (Tokens exX (engineStop (gse 0) ["the"]) (gse 0) "The cat" ["z"] = ["cat"; "z"]) = true.
Proof. by vm_compute. Qed.

(** * C48: user tokens and labels *)
Theorem C48_user_tokens_are_keywords X stop o id d doc t : valid_range X → segDoc X stop o id d = Some doc →
  (Using o = 1 → ddContent d = "") → t ∈ ddTokens d → tkText t ∉ stop → tkText t ∈ Text <$> Keywords doc.
Proof. intros Hr. exact (C48_tokens_lem X stop o Hr id d doc t). Qed.
Print Assumptions C48_user_tokens_are_keywords.
(** The locations are those of the last token with this text. *)
Theorem C48_user_token_locations X stop o id d doc a t b : valid_range X → segDoc X stop o id d = Some doc →
  PinYinOpt o = false → (Using o = 1 → ddContent d = "") →
  ddTokens d = a ++ t :: b → tkText t ∉ tkText <$> b → tkText t ∉ stop → has_keyword doc (tkText t) (tkLocs t).
Proof. intros Hr. exact (C48_locations_lem X stop o Hr id d doc a t b). Qed.
Print Assumptions C48_user_token_locations.
(** Mode 1: the user tokens of a document with text are ignored. *)
Theorem C48_mode_1_ignores_user_tokens X stop o id d doc k : valid_range X → segDoc X stop o id d = Some doc →
  Using o = 1 → ddContent d ≠ "" → PinYinOpt o = false → k ∈ Text <$> Keywords doc →
  k ∈ (modeSegment X (ddContent d)).*1 ∨ k ∈ ddLabels d.
Proof. intros Hr. exact (C48_mode1_lem X stop o Hr id d doc k). Qed.
Print Assumptions C48_mode_1_ignores_user_tokens.
(** Labels only add keywords without locations; everything else stays as it was. *)
Theorem C48_labels_only_add X stop o id d doc doc0 k ls : valid_range X → segDoc X stop o id d = Some doc →
  segDoc X stop o id (mkData (ddContent d) (ddAttri d) (ddTokens d) [] (ddFields d)) = Some doc0 →
  TokenLen doc = TokenLen doc0 ∧
  (has_keyword doc k ls ↔
    has_keyword doc0 k ls ∨
    (k ∉ Text <$> Keywords doc0 ∧ k ∈ ddLabels d ∧ (NotUseGse o = false → k ∉ stop) ∧ ls = [])).
Proof.
  intros Hr H H0. split; [exact (C48_labels_len X stop o id d doc doc0 H H0)|].
  exact (C48_labels_lem X stop o Hr id d doc doc0 k ls H H0).
Qed.
Print Assumptions C48_labels_only_add.
(** The token length that BM25 works with: segments and user tokens, stop words and
    repetitions included; no labels. *)
Theorem C48_token_length X stop o id d doc : segDoc X stop o id d = Some doc → PinYinOpt o = false →
  (ddContent d = "" ∨ Using o = 2 → TokenLen doc = f32_of_Z (zlen (ddTokens d))) ∧
  (ddContent d ≠ "" → Using o = 1 → TokenLen doc = f32_of_Z (zlen (modeSegment X (ddContent d)))) ∧
  (ddContent d ≠ "" → Using o = 0 → NotUseGse o = false →
    TokenLen doc = f32_of_Z (zlen (modeSegment X (ddContent d)) + zlen (ddTokens d))).
Proof. exact (C48_len_lem X stop o id d doc). Qed.
Print Assumptions C48_token_length.
Example C48_token_length_case :
  (TokenLen <$> segDoc exX {["a"]} (gse 0) "1" (data "a b a" [mkTok "b" [7]; mkTok "a" []] ["l"; "m"])) = Some (f32_of_Z 5).
Proof. by vm_compute. Qed.
(** Every entry is well formed: the id is kept, no keyword occurs twice (the
    assumption [good_doc] of the indexer theorems), and the frequencies are the
    numbers of locations. *)
Theorem C48_entry_well_formed X stop o id d : valid_range X → ∃ doc, segDoc X stop o id d = Some doc ∧
  DocId doc = id ∧ good_doc doc ∧ ∀ kw, kw ∈ Keywords doc → Frequency kw = f32_of_Z (zlen (Starts kw)).
Proof.
  intros Hr. destruct (segDoc_total X stop o id d) as [doc Hd]. exists doc. split; [done|].
  destruct (segDoc_map X stop o Hr _ _ _ Hd) as (m & _ & H1 & H2 & H3 & _). done.
Qed.
Print Assumptions C48_entry_well_formed.
(** With the pinyin option a transcription overwrites the locations of a word by its
    own number in the list of transcriptions. *)
Theorem C48_pinyin_overwrites_locations X stop o id d doc a w b : valid_range X → segDoc X stop o id d = Some doc →
  PinYinOpt o = true → PinYin X stop o (ddContent d) = a ++ w :: b → w ∉ b → w ∉ stop → has_keyword doc w [zlen a].
Proof. intros Hr. exact (C48_pinyin_lem X stop o Hr id d doc a w b). Qed.
Print Assumptions C48_pinyin_overwrites_locations.

Example C48_case :
  sameElems (keywordsOf (segDoc exX ∅ (gse 0) "1" (data "a b a" [mkTok "b" [7]; mkTok "u" []; mkTok "b" [8; 9]] ["a"; "new"])))
    [("a", [0; 4]); ("b", [8; 9]); ("u", []); ("new", [])] = true ∧
  sameElems (keywordsOf (segDoc exX ∅ (gse 1) "1" (data "a b a" [mkTok "u" [1]] ["l"]))) [("a", [0; 4]); ("b", [2]); ("l", [])] = true ∧
  sameElems (keywordsOf (segDoc exX ∅ (gse 1) "1" (data "" [mkTok "u" [1]] ["l"]))) [("u", [1]); ("l", [])] = true ∧
  sameElems (keywordsOf (segDoc exX ∅ (gse 3) "1" (data "ab" [mkTok "u" [1]] []))) [("ab", [4]); ("a", [1; 2]); ("b", [3]); ("u", [1])] = true ∧
  sameElems (keywordsOf (segDoc exX ∅ (gse 6) "1" (data "abc" [] [])))
    [("a", [1; 2]); ("b", [3; 5]); ("bc", [4]); ("ab", [6]); ("c", [7; 8]); ("abc", [9])] = true ∧
  sameElems (keywordsOf (segDoc exX ∅ (mkSegOpts false 0 true false) "1" (data "a b" [mkTok "a" [5]] [])))
    [("a", [6]); (" ", [2]); ("a ", [3]); ("b", [7]); ("a b", [5]); ("ni", [8]); ("n", [9]); ("nihao", [10]); ("nh", [11])] = true.
Proof. by vm_compute. Qed.

(** * C49: queries without the segmenter *)
Theorem C49_query_is_split_into_words X stop o text toks ws : NotUseGse o = true → text ≠ "" →
  words (toLower X text) ws → Tokens X stop o text toks = ws ++ toks.
Proof. intros Ho Ht Hw. rewrite Tokens_split by done. by rewrite (words_unique _ _ _ (splitSpace_words _) Hw). Qed.
Print Assumptions C49_query_is_split_into_words.
(** Every text has exactly one list of words. *)
Theorem C49_words_exist_and_are_unique s : ∃ ws, words s ws ∧ ∀ ws', words s ws' → ws' = ws.
Proof. exists (splitSpace s). split; [apply splitSpace_words|]. intros ws' H. by eapply words_unique, splitSpace_words. Qed.
Print Assumptions C49_words_exist_and_are_unique.
(** One of them is empty iff the text has a leading, trailing or doubled space. *)
Theorem C49_empty_word_iff_stray_space s ws : words s ws → s ≠ "" →
  let sp := Ascii.ascii_of_nat 32 in
  "" ∈ ws ↔ (∃ r, s = String sp r) ∨ (∃ r, s = String.append r (String sp "")) ∨
            (∃ a b, s = String.append a (String sp (String sp b))).
Proof.
  intros Hw Hne. cbn zeta. rewrite (words_unique _ _ _ Hw (splitSpace_words s)), empty_word. unfold space. naive_solver.
Qed.
Print Assumptions C49_empty_word_iff_stray_space.
(** Then the search finds nothing, whatever is indexed (unless somebody has given a
    document the empty word as a token or label). *)
Theorem C49_stray_space_finds_nothing X stop o sortDocs io ops s log2 text ws toks labels flt logic docs n :
  valid_range X → NotUseGse o = true → Using o = 0 → PinYinOpt o = false →
  reach sortDocs io ops s →
  (∀ doc, added doc ops → ∃ id d, segDoc X stop o id d = Some doc ∧ "" ∉ tkText <$> ddTokens d ∧ "" ∉ ddLabels d) →
  text ≠ "" → words (toLower X text) ws → "" ∈ ws → plain_logic logic →
  Lookup log2 s (Tokens X stop o text toks) labels flt false logic = Some (docs, n) → docs = [] ∧ n = 0.
Proof.
  intros Hr O1 O2 O3 HR Hd Ht Hw Hb. rewrite (words_unique _ _ _ Hw (splitSpace_words _)) in Hb.
  by eapply (C49_nothing_lem X stop o sortDocs io ops s log2 text toks).
Qed.
Print Assumptions C49_stray_space_finds_nothing.

Definition exDocs (o : SegOpts) (texts : list (string * string)) : list op :=
  omap (λ it, match segDoc exX ∅ o it.1 (data it.2 [] ["tag"]) with Some d => Some (OpAdd (Some d) true) | None => None end) texts.
Definition finds (text : string) (s : Indexer) : list string :=
  match Lookup (λ x, x) s (Tokens exX ∅ noGse text []) [] None false None with Some (docs, _) => ixDocId <$> docs | None => [] end.
Definition exTexts : list op := exDocs noGse [("1", "Hello  big world "); ("2", "hello moon")].
Example C49_case : ∃ s, reach stableSort (optsF 2) exTexts s ∧
  bool_decide (finds "hello" s = ["2"; "1"]) && bool_decide (finds "WORLD Hello" s = ["1"]) &&
  bool_decide (finds "hello  world" s = []) && bool_decide (finds " hello" s = []) && bool_decide (finds "hello " s = []) = true.
Proof. apply (check_reach _ _ (λ s, _)); [by apply good_opsb; vm_compute|by vm_compute]. Qed.

(** * C50: splitting *)
(** ForSplitData, on any list of pieces (mode 6: more combinations). *)
Theorem C50_split_is_exact stop o ws m n : ForSplitData stop o ws (zlen ws) = Some (m, n) →
  (∀ k, is_Some (m !! k) ↔ split_keyword (Using o = 6) ws k ∧ k ∉ stop) ∧
  (∀ k l, m !! k = Some l → l ≠ [] ∧ StronglySorted Z.lt l) ∧
  (∀ j, 1 <= j <= n ↔ ∃ k l, m !! k = Some l ∧ j ∈ l) ∧
  (∀ k1 k2 l1 l2 j, m !! k1 = Some l1 → m !! k2 = Some l2 → j ∈ l1 → j ∈ l2 → k1 = k2).
Proof. exact (ForSplitData_lem stop o ws m n). Qed.
Print Assumptions C50_split_is_exact.
Theorem C50_split_crashes_iff stop o ws num : ForSplitData stop o ws num = None ↔ zlen ws < num.
Proof. exact (ForSplitData_panics stop o ws num). Qed.
Print Assumptions C50_split_crashes_iff.
Theorem C50_every_word_is_indexed X stop o id d doc ws w : valid_range X → segDoc X stop o id d = Some doc →
  whole_words o → ddContent d ≠ "" →
  words (toLower X (ddContent d)) ws → w ∈ ws → w ≠ "" → w ∉ stop → w ∈ Text <$> Keywords doc.
Proof. intros Hr. exact (C50_words_lem X stop o Hr id d doc ws w). Qed.
Print Assumptions C50_every_word_is_indexed.
(** A document with text only: its keywords, its length and its locations. *)
Theorem C50_text_document X stop o id d doc ws : valid_range X → segDoc X stop o id d = Some doc →
  whole_words o → PinYinOpt o = false → ddContent d ≠ "" → ddTokens d = [] → ddLabels d = [] →
  words (toLower X (ddContent d)) ws →
  ∃ n : Z, 0 <= n ∧ TokenLen doc = f32_of_Z n ∧
  (∀ k, k ∈ Text <$> Keywords doc ↔ split_keyword False ws k ∧ k ∉ stop) ∧
  (∀ k l, has_keyword doc k l → l ≠ [] ∧ StronglySorted Z.lt l) ∧
  (∀ j, 1 <= j <= n ↔ ∃ k l, has_keyword doc k l ∧ j ∈ l) ∧
  (∀ k1 k2 l1 l2 j, has_keyword doc k1 l1 → has_keyword doc k2 l2 → j ∈ l1 → j ∈ l2 → k1 = k2).
Proof. intros Hr. exact (C50_exact_lem X stop o Hr id d doc ws). Qed.
Print Assumptions C50_text_document.

Example C50_case :
  words "to be  or to" ["to"; "be"; ""; "or"; "to"] ∧
  sameElems (keywordsOf (segDoc exX {["or"]} (gse 4) "1" (data "To be  or TO" [] [])))
    [("to", [1; 2; 6]); ("be", [3]); ("tobe", [4]); ("tobeor", [5]); ("tobeorto", [7])] = true.
Proof. split; [|by vm_compute]. split; [done|]. split; [done|]. repeat constructor; done. Qed.

(** * C61: from text to search result *)
(** No-segmenter mode.  A document is indexed by Index(id, d, true) among other forced
    calls, and is not indexed again on its shard or removed afterwards: every search
    on its shard whose words all occur in the text (and whose labels are labels of the
    document) finds it. *)
Theorem C61_indexed_text_is_found X stop o murmur sortDocs only n io i cs0 id d fo c cs1 s0 :
  valid_range X → NotUseGse o = true → Using o = 0 →
  valid_sort sortDocs → Init io = Some s0 → 1 <= n < 2^32 →
  indexCall X stop o id d fo = Some c →
  Forall good_call (cs0 ++ c :: cs1) → Forall forced_call (cs0 ++ c :: cs1) →
  u32 (murmur (String.append id (ddContent d))) `mod` n = i →
  Forall (λ c, sent_to murmur n i id c = false) cs1 →
  ∃ sh, shard_after murmur sortDocs io only n i (cs0 ++ c :: cs1) sh ∧
  ∀ log2 text qs ws labels flt logic docs k, plain_logic logic →
    text ≠ "" → ddContent d ≠ "" →
    words (toLower X text) qs → words (toLower X (ddContent d)) ws →
    Forall (λ q, q ≠ "" ∧ q ∈ ws ∧ q ∉ stop) qs → Forall (λ l, l ∈ ddLabels d) labels → passes flt id →
    Lookup log2 (shIx sh) (Tokens X stop o text []) labels flt false logic = Some (docs, k) →
    id ∈ ixDocId <$> docs.
Proof. exact (C61_lem X stop o murmur sortDocs only n io i cs0 id d fo c cs1 s0). Qed.
Print Assumptions C61_indexed_text_is_found.
(** C49_case above is an instance with two documents in one shard; here with two shards
    and labels. *)
Definition exHash2 (s : string) : Z := Z.of_nat (String.length s).
Definition exCalls : list ecall :=
  omap (λ it, indexCall exX ∅ noGse it.1 (data it.2 [] ["tag"]) true) [("1", "Hello big world"); ("2", "big"); ("33", "")].
Example C61_case :
  match st (optsF 2) (ixStream exHash2 2 0 exCalls), st (optsF 2) (ixStream exHash2 2 1 exCalls) with
  | Some s0, Some s1 =>
    bool_decide (finds "big" s0 = ["2"; "1"]) && bool_decide (finds "HELLO" s0 = ["1"]) && bool_decide (finds "big" s1 = []) &&
    negb (HasDoc s1 "1") && negb (HasDoc s0 "4")
  | _, _ => false
  end = true.
Proof. by vm_compute. Qed.

(** * C15, engine part *)
(** Whatever the clients call, one after the other or concurrently: no shard ever has a
    document "0", and no plain search returns it. *)
Theorem C15_zero_never_indexed murmur n sortDocs io i cs s log2 :
  reach sortDocs io (ixStream murmur n i cs) s → HasDoc s "0" = false ∧ not_found log2 s "0".
Proof. intros HR. eapply not_zero_hidden; [done|]. apply ixStream_not_zero. Qed.
Print Assumptions C15_zero_never_indexed.
Theorem C15_zero_never_indexed_concurrently murmur n only reqsFirst cap sortDocs io s0 nseg progs s i x log2 :
  valid_sort sortDocs → Forall (Forall good_call) progs → pipe_reach murmur n only reqsFirst cap nseg progs s →
  Init io = Some s0 → run sortDocs (ixCalls i (sLog s)) s0 = Some x →
  HasDoc x "0" = false ∧ not_found log2 x "0".
Proof. exact (C15_pipe_lem murmur n only reqsFirst cap sortDocs io s0 nseg progs s i x log2). Qed.
Print Assumptions C15_zero_never_indexed_concurrently.
Example C15_engine_case :
  match st (optsF 2) (ixStream exHash2 1 0 (omap (λ it, indexCall exX ∅ noGse it.1 (data it.2 [] []) true) [("0", "big"); ("1", "big")])) with
  | Some s => bool_decide (finds "big" s = ["1"]) | None => false end = true.
Proof. by vm_compute. Qed.
