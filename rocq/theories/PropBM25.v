(** C72: the default ranking. *)
From Coq Require Import Floats.SpecFloat.
From Verif Require Import ModelEngine SpecIndexer SpecSearch SpecLogic SpecTotal SpecRank SpecEngine SpecBM25
  ProofIxThms ProofEngine ProofBM25 ExampleTools ProofSortBy PropEngine PropTotal.

(** As long as the accumulated token length is a non-negative finite number, every score
    computed by a plain search is a number and not negative. *)
Theorem C72_scores_are_numbers sortDocs o ops s log2 : reach sortDocs o ops s →
  (∀ p, BM25Parameters (initOptions s) = Some p → usual p) → usual_log2 log2 →
  (∀ d, added d ops → usual_doc d) → from_0_to 127 (totalTokenLen s) →
  numDocs s < 2 ^ 63 → (∀ k n, row_count s k n → n < 2 ^ 63) →
  ∀ tokens labels flt logic docs n, plain_logic logic →
    Lookup log2 s tokens labels flt false logic = Some (docs, n) → Forall (λ r, a_score (BM25 r)) docs.
Proof. exact (scores_total_lem sortDocs o ops s log2). Qed.
Print Assumptions C72_scores_are_numbers.

(** This holds in particular when all lengths ever added sum up to less than 2^24. *)
Theorem C72_small_indexes sortDocs o ops s log2 zl : reach sortDocs o ops s →
  (∀ p, BM25Parameters (initOptions s) = Some p → usual p) → usual_log2 log2 →
  (∀ d, added d ops → usual_doc d) → 
  (∀ d, added d ops → TokenLen d = f32_of_Z (zl d) ∧ 0 <= zl d < 2 ^ 24) → added_len zl ops < 2 ^ 24 →
  numDocs s < 2 ^ 63 → (∀ k n, row_count s k n → n < 2 ^ 63) →
  ∀ tokens labels flt logic docs n, plain_logic logic →
    Lookup log2 s tokens labels flt false logic = Some (docs, n) → Forall (λ r, a_score (BM25 r)) docs.
Proof. exact (scores_small_lem sortDocs o ops s log2 zl). Qed.
Print Assumptions C72_small_indexes.

(** Then a search with the default criterion, RankByBM25 (types/scoring_criteria.go:31-34),
    is ordered by score, as C32 says. *)
Theorem C72_default_search log2 sortBy only toks labels logic ids rev off max orderless shards parts order :
  let req := mkReq toks labels logic ids (mkRankOpts (λ d _, [BM25 d]) rev off max) 0 false orderless in
  valid_sortBy sortBy → Forall2 (shard_view log2 only req) shards parts →
  Forall (λ p, Forall (λ r, a_score (BM25 r)) p.2) parts → orderless = false →
  0 <= off → 0 <= max → off + max < 2^63 → all_arrive (length shards) order →
  ∃ full out,
    full ≡ₚ all_hits only (λ d _, [BM25 d]) parts ∧ in_order rev full ∧
    Search log2 sortBy req shards order = Some (mkResp toks false (zlen full) (Some out)) ∧
    Forall2 same_scores out (page off max full) ∧ out ⊆+ full.
Proof. exact (default_search_lem log2 sortBy only toks labels logic ids rev off max orderless shards parts order). Qed.
Print Assumptions C72_default_search.

(** Beyond 2^24 the rounded total can become negative; with the default parameters
    scores are then negative or infinite. *)
Definition optsDef : IndexerOpts :=
  mkOpts FrequenciesIndex 9 (Some (mkBM25 (f32_of_Z 2) (f32_div (f32_of_Z 3) (f32_of_Z 4)))).
Definition unitDoc (id : string) : DocIndex := mkDoc id (f32_of_Z 1) [mkKw "x" (f32_of_Z 1) []].
Definition driftOps : list op :=
  [OpAdd (Some (mkDoc "big" (f32_of_Z (2 ^ 24)) [])) true; OpAdd (Some (unitDoc "a")) true; OpAdd (Some (unitDoc "b")) true;
   OpAdd (Some (unitDoc "c")) true; OpAdd (Some (unitDoc "d")) true; OpRemove "big" true; OpRemove "a" true].
(** the search for x finds exactly these documents with these scores, in this order *)
Definition scores_are (s : Indexer) (log2 : F → F) (l : list (string * F)) : bool :=
  match Lookup log2 s ["x"] [] None false None with
  | Some (docs, _) =>
      (length docs =? length l)%nat && forallb (λ p, seqb (ixDocId p.1) p.2.1 && f_eqb (BM25 p.1) p.2.2) (zip docs l)
  | None => false
  end.
(** math.Log2 is only used at 2 here *)
Definition log2c (x : F) : F := f64_of_Z 1.
Lemma log2c_usual : usual_log2 log2c.
Proof. intros N df _ _. change (log2c _) with (S754_finite false 4503599627370496 (-52)). by vm_compute. Qed.
Theorem C72_scores_are_scores_refuted :
  usual_log2 log2c ∧ log2c (f64_of_Z 2) = f64_of_Z 1 ∧
  (∃ s, reach stableSort optsDef driftOps s ∧
     scores_are s log2c [("d", f32_of_Z (-1)); ("c", f32_of_Z (-1)); ("b", f32_of_Z (-1))] = true) ∧
  (∃ s, reach stableSort optsDef (driftOps ++ [OpRemove "b" true]) s ∧
     scores_are s log2c [("d", S754_infinity false); ("c", S754_infinity false)] = true).
Proof.
  split; [exact log2c_usual|]. split; [by vm_compute|].
  split; (apply (check_reach _ _ (λ s, scores_are s log2c _)); [by apply good_opsb|by vm_compute]).
Qed.
Print Assumptions C72_scores_are_scores_refuted.

(** Four documents, two of them gone again; one word in both, one in one. *)
Definition optsU : IndexerOpts := mkOpts FrequenciesIndex 2 (Some (mkBM25 (f32_of_Z 2) (f32_div (f32_of_Z 3) (f32_of_Z 4)))).
Definition docU (id : string) (n : Z) (ks : list (string * Z)) : DocIndex :=
  mkDoc id (f32_of_Z n) ((λ k, mkKw k.1 (f32_of_Z k.2) []) <$> ks).
Definition histU : list op :=
  [OpAdd (Some (docU "a" 3 [("x", 2); ("y", 1)])) true; OpAdd (Some (docU "b" 9 [("x", 1)])) false;
   OpAdd (Some (docU "c" 5 [("y", 5)])) true; OpRemove "b" true; OpAdd (Some (docU "d" 0 [("x", 0)])) true; OpRemove "a" false].
Definition docsU : list DocIndex :=
  [docU "a" 3 [("x", 2); ("y", 1)]; docU "b" 9 [("x", 1)]; docU "c" 5 [("y", 5)]; docU "d" 0 [("x", 0)]].
Definition fromb (k : Z) (x : F) : bool := valid_binary 24 128 x && negb (f_ltb x f_zero) && f_ltb x (pow2 k).
Definition zlU (d : DocIndex) : Z := if seqb (DocId d) "a" then 3 else if seqb (DocId d) "b" then 9 else if seqb (DocId d) "c" then 5 else 0.
Example C72_case :
  usual_log2 log2c ∧ usual (mkBM25 (f32_of_Z 2) (f32_div (f32_of_Z 3) (f32_of_Z 4))) ∧
  (∀ d, added d histU → usual_doc d) ∧ (∀ d, added d histU → TokenLen d = f32_of_Z (zlU d) ∧ 0 <= zlU d < 2 ^ 24) ∧
  added_len zlU histU < 2 ^ 24 ∧
  ∃ s, reach stableSort optsU histU s ∧
    fromb 127 (totalTokenLen s) && (numDocs s =? 2) &&
    match Lookup log2c s ["y"] [] None false None with
    | Some ([r], 1) => seqb (ixDocId r) "c" && f_gtb (BM25 r) f_zero
    | _ => false
    end = true.
Proof.
  split; [exact log2c_usual|]. split; [by vm_compute|].
  assert (Hin : ∀ d, added d histU → d ∈ docsU).
  { intros d [f Hf]. unfold histU in Hf. rewrite !elem_of_cons in Hf.
    destruct Hf as [Hf|[Hf|[Hf|[Hf|[Hf|[Hf|Hf]]]]]]; [..|by apply elem_of_nil in Hf]; try done; injection Hf as -> _;
      unfold docsU; rewrite !elem_of_cons; tauto. }
  split.
  { intros d Hd. apply Hin in Hd. revert d Hd. apply Forall_forall. repeat constructor. }
  split.
  { intros d Hd. apply Hin in Hd. revert d Hd. apply Forall_forall. repeat constructor; by vm_compute. }
  split; [by vm_compute|]. apply (check_reach _ _ (λ s, _)); [by apply good_opsb|by vm_compute].
Qed.
