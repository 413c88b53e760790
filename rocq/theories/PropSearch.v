(** Theorems about plain search (core/indexer.go Lookup, internalLookup,
    computeTokenProximity). *)
From Verif Require Import ModelLookup SpecIndexer SpecProx SpecSearch ProofIxThms ProofSearchThms ProofIxSearch
  ProofProx2 ExampleTools.

(** * C03 *)
Theorem C03_search_sound_complete sortDocs o ops s log2 :
  reach sortDocs o ops s →
  ∃ M, shows s M ∧ (∀ id d, M !! id = Some d → added d ops) ∧
  ∀ tokens labels flt logic docs n, plain_logic logic →
    Lookup log2 s tokens labels flt false logic = Some (docs, n) →
    ∀ id, id ∈ ixDocId <$> docs ↔ matches M (tokens ++ labels) flt id.
Proof. exact (C03_lem sortDocs o ops s log2). Qed.
Print Assumptions C03_search_sound_complete.

(** Two live documents, one pending removal; searches with repetitions, an unknown
    word, and a filter. *)
Definition found (s : Indexer) (tokens labels : list string) (flt : option (gset string)) : option (list string * Z) :=
  match Lookup (λ x, x) s tokens labels flt false (Some noLogic) with
  | Some (docs, n) => Some (ixDocId <$> docs, n)
  | None => None
  end.
Example C03_case : ∃ s, reach stableSort (optsL 2) (hist ++ [OpAdd (Some docC) false]) s ∧
  bool_decide (found s ["x"] [] None = Some (["c"], 1)) &&
  bool_decide (found s ["y"; "z"; "y"] ["z"] None = Some (["a"], 1)) &&
  bool_decide (found s ["z"] [] (Some {["b"; "c"]}) = Some ([], 0)) &&
  bool_decide (found s ["z"; "unknown"] [] None = Some ([], 0)) = true.
Proof. apply (check_reach _ _ (λ s, _)); [by apply good_opsb|by vm_compute]. Qed.

(** * C04 *)
Theorem C04_results_sorted_and_counted sortDocs o ops s log2 tokens labels flt logic docs n :
  reach sortDocs o ops s → plain_logic logic →
  Lookup log2 s tokens labels flt false logic = Some (docs, n) →
  StronglySorted (flip slt) (ixDocId <$> docs) ∧ NoDup (ixDocId <$> docs) ∧ n = zlen docs ∧
  Lookup log2 s tokens labels flt true logic = Some ([], n).
Proof. exact (C04_lem sortDocs o ops s log2 tokens labels flt logic docs n). Qed.
Print Assumptions C04_results_sorted_and_counted.

Example C04_case : ∃ s, reach stableSort (optsF 2) [OpAdd (Some docA) true; OpAdd (Some docB) true; OpAdd (Some docC) true] s ∧
  bool_decide (found s ["x"] [] None = Some (["c"; "b"; "a"], 3)) = true.
Proof. apply (check_reach _ _ (λ s, _)); [by apply good_opsb|by vm_compute]. Qed.

(** * C07 *)
Theorem C07_removed_invisible_at_once sortDocs o ops s log2 id force s' b :
  reach sortDocs o ops s → id ≠ "0" → RemoveDocToCache id force s = Some (s', b) →
  HasDoc s' id = false ∧ not_found log2 s' id.
Proof. exact (remove_hides sortDocs o ops s log2 id force s' b). Qed.
Print Assumptions C07_removed_invisible_at_once.

Theorem C07_removed_stays_invisible sortDocs o ops s log2 id force s' b ops2 s'' :
  reach sortDocs o ops s → id ≠ "0" → ¬ waits s id →
  RemoveDocToCache id force s = Some (s', b) →
  Forall good_op ops2 → Forall (λ o, ¬ adds_id id o) ops2 → run sortDocs ops2 s' = Some s'' →
  HasDoc s'' id = false ∧ not_found log2 s'' id.
Proof. exact (remove_hides_for_good sortDocs o ops s log2 id force s' b ops2 s''). Qed.
Print Assumptions C07_removed_stays_invisible.

(** Without the condition on the add cache a waiting version comes back. *)
Theorem C07_waiting_version_returns_refuted :
  ∃ s, reach stableSort (optsL 3)
         [OpAdd (Some docA) true; OpAdd (Some docA2) false; OpRemove "a" false; OpAdd None true] s ∧
    HasDoc s "a" = true.
Proof. apply check_reach; [by apply good_opsb|by vm_compute]. Qed.
Print Assumptions C07_waiting_version_returns_refuted.

Example C07_case : ∃ s, reach stableSort (optsL 3) [OpAdd (Some docA) true; OpAdd (Some docB) false] s ∧
  HasDoc s "a" && bool_decide (¬ waits s "a") &&
  match RemoveDocToCache "a" false s ≫= λ p, run stableSort [OpAdd (Some docC) true; OpRemove "b" true] p.1 with
  | Some _ => true | None => false end = true.
Proof. apply (check_reach _ _ (λ s, _)); [by apply good_opsb|by vm_compute]. Qed.

(** * C09 *)
Theorem C09_reindexing_replaces sortDocs o ops s d s' log2 :
  reach sortDocs o ops s → good_doc d → ¬ waits s (DocId d) →
  AddDocToCache sortDocs (Some d) true s = Some s' →
  (∀ k, in_row s' k (DocId d) ↔ k ∈ Text <$> Keywords d) ∧
  (∀ kw, kw ∈ Keywords d → entry_at s' (DocId d) kw) ∧
  ∀ tokens labels flt logic docs n, plain_logic logic →
    Lookup log2 s' tokens labels flt false logic = Some (docs, n) →
    DocId d ∈ ixDocId <$> docs ↔
      tokens ++ labels ≠ [] ∧ passes flt (DocId d) ∧ ∀ k, k ∈ tokens ++ labels → k ∈ Text <$> Keywords d.
Proof. exact (reindex_searched sortDocs o ops s d s' log2). Qed.
Print Assumptions C09_reindexing_replaces.

Example C09_case : ∃ s, reach stableSort (optsL 3) [OpAdd (Some docA) true; OpAdd (Some docB) false] s ∧
  HasDoc s "a" && bool_decide (¬ waits s "a") &&
  match AddDocToCache stableSort (Some docA2) true s with
  | Some s' => bool_decide (found s' ["x"] [] None = Some (["b"], 1)) &&
               bool_decide (found s' ["z"; "y"] [] None = Some (["a"], 1))
  | None => false end = true.
Proof. apply (check_reach _ _ (λ s, _)); [by apply good_opsb|by vm_compute]. Qed.

(** * C16 *)
Theorem C16_which_searches_crash sortDocs o ops s log2 :
  reach sortDocs o ops s →
  ∃ M, shows s M ∧
  ∀ tokens labels flt countOnly logic, plain_logic logic →
    Lookup log2 s tokens labels flt countOnly logic = None ↔
    IndexType o = LocsIndex ∧ tokens = [] ∧ ∃ id, matches M labels flt id.
Proof. exact (C16_lem sortDocs o ops s log2). Qed.
Print Assumptions C16_which_searches_crash.

Example C16_case : ∃ s, reach stableSort (optsL 2) hist s ∧
  match Lookup (λ x, x) s [] ["x"] None true None with None => true | Some _ => false end &&
  match Lookup (λ x, x) s ["x"] ["x"] None true None with None => false | Some _ => true end = true.
Proof. apply (check_reach _ _ (λ s, _)); [apply hist_good|by vm_compute]. Qed.

(** * C17 *)
Theorem C17_proximity_realisable locs tokens :
  locs ≠ [] → Forall (λ l, l ≠ []) locs → length tokens = length locs → small_inputs locs tokens →
  ∃ best tl, computeTokenProximity locs tokens = Some (best, tl) ∧
    0 <= best ∧ is_choice locs tl ∧ best = prox_cost (strlen <$> tokens) tl.
Proof. exact (proximity_realised locs tokens). Qed.
Print Assumptions C17_proximity_realisable.

(** Beyond the size bound the chosen locations are still locations of the tokens. *)
Theorem C17_snippets_are_locations locs tokens :
  locs ≠ [] → Forall (λ l, l ≠ []) locs → length tokens = length locs →
  ∃ best tl, computeTokenProximity locs tokens = Some (best, tl) ∧ is_choice locs tl.
Proof. exact (proximity_total locs tokens). Qed.
Print Assumptions C17_snippets_are_locations.

Example C17_case : small_inputs [[10; 0]; [3; 14]; [25; 7]] ["ab"; "cde"; "f"] ∧
  computeTokenProximity [[10; 0]; [3; 14]; [25; 7]] ["ab"; "cde"; "f"] = Some (2, [0; 3; 7]).
Proof.
  split; [|by vm_compute]. split; [repeat constructor; lia|]. split; [repeat constructor|vm_compute; done].
Qed.

(** * C18 *)
Theorem C18_proximity_minimal locs tokens best tl :
  locs ≠ [] → Forall (λ l, l ≠ []) locs → length tokens = length locs → small_inputs locs tokens →
  Forall (StronglySorted Z.le) locs → no_overlap (strlen <$> tokens) locs →
  computeTokenProximity locs tokens = Some (best, tl) →
  is_choice locs tl ∧ best = prox_cost (strlen <$> tokens) tl ∧
  ∀ qs, is_choice locs qs → best <= prox_cost (strlen <$> tokens) qs.
Proof. exact (proximity_minimal locs tokens best tl). Qed.
Print Assumptions C18_proximity_minimal.

Theorem C18_overlap_refuted :
  ∃ locs tokens best tl qs,
    Forall (StronglySorted Z.le) locs ∧ small_inputs locs tokens ∧
    computeTokenProximity locs tokens = Some (best, tl) ∧
    is_choice locs qs ∧ prox_cost (strlen <$> tokens) qs < best ∧
    locs = [[0]; [1; 2; 6]] ∧ tokens = ["abcdef"; "z"] ∧ best = 4 ∧ qs = [0; 6].
Proof. exact overlap_not_minimal. Qed.
Print Assumptions C18_overlap_refuted.

Example C18_case : Forall (StronglySorted Z.le) [[0; 10]; [2; 14]; [7; 25]] ∧
  no_overlap (strlen <$> ["ab"; "cde"; "f"]) [[0; 10]; [2; 14]; [7; 25]] ∧
  computeTokenProximity [[0; 10]; [2; 14]; [7; 25]] ["ab"; "cde"; "f"] = Some (2, [0; 2; 7]).
Proof.
  split; [repeat constructor; lia|]. split; [|by vm_compute].
  vm_compute fmap. cbn [no_overlap]. repeat split; intros c x Hc Hx; set_unfold; lia.
Qed.

(** * C19 *)
Theorem C19_fields_of_the_hit sortDocs o ops s log2 :
  reach sortDocs o ops s →
  ∃ M, shows s M ∧
  ∀ tokens labels flt logic docs n, plain_logic logic →
    Lookup log2 s tokens labels flt false logic = Some (docs, n) →
    ∀ r, r ∈ docs → ∃ d kws, M !! ixDocId r = Some d ∧ hit_kws d tokens kws ∧
      fields_of log2 s tokens d kws r.
Proof. exact (C19_lem sortDocs o ops s log2). Qed.
Print Assumptions C19_fields_of_the_hit.

(** docA on its own: x occurs twice, y once, N = df = 1, log2 replaced by the
    identity (idf = 2), k1 = 2, b = 1, length = average: 2*2*3/(2+2) + 2*1*3/(1+2) = 5. *)
Example C19_case : ∃ s, reach stableSort (optsL 2) [OpAdd (Some docA) true] s ∧
  match Lookup (λ x, x) s ["x"; "y"] [] None false None with
  | Some ([r], n) => f_eqb (BM25 r) (f32_of_Z 5) && bool_decide (TokenLocs r = [[0; 4]; [2]]) &&
      bool_decide (TokenSnippetLocs r = [0; 2]) && (TokenProximity r =? 1) && (n =? 1)
  | _ => false
  end = true.
Proof. apply (check_reach _ _ (λ s, _)); [by apply good_opsb|by vm_compute]. Qed.
