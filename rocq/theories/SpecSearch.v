(** Specification of plain search results. *)
From Verif Require Import ModelLookup SpecIndexer SpecProx.

(** The request carries no logic part (types/search_request.go:72-99); the list of
    excluded words alone does not make a logic search (see C24). *)
Definition plain_logic (logic : option Logic) : Prop :=
  match logic with
  | None => True
  | Some lg => lMust lg = false ∧ lShould lg = false ∧ lNotIn lg = false ∧ eMust lg = [] ∧ eShould lg = []
  end.

(** The keywords of [d] named by the tokens, in the order of the tokens. *)
Definition hit_kws (d : DocIndex) (tokens : list string) (kws : list KeywordIndex) : Prop :=
  Forall2 (λ t kw, kw ∈ Keywords d ∧ Text kw = t) tokens kws.

(** Number of indexed documents carrying the word [k] (documents waiting for
    deletion are still counted). *)
Definition row_count (s : Indexer) (k : string) (n : Z) : Prop :=
  ∃ L : list string, NoDup L ∧ (∀ id, id ∈ L ↔ in_row s k id) ∧ n = zlen L.

(** The documented BM25 formula, in float32:
    sum of idf * tf * (k1+1) / (tf + k1 * (1 - b + b * len/avg)),
    idf = log2 (N/df + 1).  Terms with tf <= 0 are left out, and so are all terms when
    the average length is 0. *)
Definition bm25_term (log2 : F → F) (p : BM25Params) (N df : Z) (tf len avg : F) : F :=
  let one := f32_of_Z 1 in
  let idf := f32_of_f64 (log2 (f64_add (f64_div (f64_of_Z N) (f64_of_Z df)) (f64_of_Z 1))) in
  let num := f32_mul (f32_mul idf tf) (f32_add (K1 p) one) in
  let norm := f32_add (f32_sub one (B p)) (f32_div (f32_mul (B p) len) avg) in
  f32_div num (f32_add tf (f32_mul (K1 p) norm)).
Definition bm25_value (log2 : F → F) (par : option BM25Params) (N : Z) (avg len : F)
    (terms : list (Z * F)) : F :=
  match par with
  | None => f_zero
  | Some p =>
    if f_eqb avg f_zero then f_zero
    else foldl f32_add f_zero
           ((λ t, bm25_term log2 p N (fst t) (snd t) len avg) <$>
            filter (λ t, f_gtb (snd t) f_zero = true) terms)
  end.

(** Term frequency of a keyword of the hit. *)
Definition tf (ity : Z) (kw : KeywordIndex) : F :=
  if ity =? LocsIndex then f32_of_Z (zlen (Starts kw)) else Frequency kw.

(** Token length of the document as the formula sees it (a zero of either sign is
    not stored and read back as +0). *)
Definition doc_len (d : DocIndex) : F := if f_eqb (TokenLen d) f_zero then f_zero else TokenLen d.

(** The scores and locations of the answer [r] are those of the document [d]. *)
Definition fields_of (log2 : F → F) (s : Indexer) (tokens : list string) (d : DocIndex)
    (kws : list KeywordIndex) (r : IndexedDoc) : Prop :=
  let ity := IndexType (initOptions s) in
  let bm := ∃ dfs, Forall2 (row_count s) tokens dfs ∧
    BM25 r = bm25_value log2 (BM25Parameters (initOptions s)) (numDocs s)
               (f32_div (totalTokenLen s) (f32_of_Z (numDocs s))) (doc_len d)
               (zip dfs (tf ity <$> kws)) in
  ixDocId r = DocId d ∧
  (ity ≠ LocsIndex → TokenProximity r = 0 ∧ TokenSnippetLocs r = [] ∧ TokenLocs r = []) ∧
  (ity ≠ LocsIndex → ity ≠ FrequenciesIndex → BM25 r = f_zero) ∧
  (ity = FrequenciesIndex → bm) ∧
  (ity = LocsIndex → Exists (λ kw, Starts kw = []) kws → r = emptyIDoc (DocId d)) ∧
  (ity = LocsIndex → Forall (λ kw, Starts kw ≠ []) kws →
     bm ∧ TokenLocs r = (Starts <$> kws) ∧
     is_choice (Starts <$> kws) (TokenSnippetLocs r) ∧
     (small_inputs (Starts <$> kws) tokens →
        TokenProximity r = int32 (prox_cost (strlen <$> tokens) (TokenSnippetLocs r)))).

(** No plain search returns [id]. *)
Definition not_found (log2 : F → F) (s : Indexer) (id : string) : Prop :=
  ∀ tokens labels flt logic docs n, plain_logic logic →
    Lookup log2 s tokens labels flt false logic = Some (docs, n) → id ∉ ixDocId <$> docs.
