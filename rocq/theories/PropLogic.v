(** Theorems about logic search (core/indexer.go Lookup, LogicLookup and helpers). *)
From Verif Require Import ModelLookup SpecIndexer SpecSearch SpecLogic ProofIxThms ProofLogicThms ExampleTools.

(** What a request answers: the ids and the count. *)
Definition logicFound (s : Indexer) (tokens : list string) (flt : option (gset string)) (lg : Logic)
    : option (list string * Z) :=
  match Lookup (λ x, x) s tokens [] flt false (Some lg) with
  | Some (docs, n) => Some (ixDocId <$> docs, n)
  | None => None
  end.

(** * C21 *)
Theorem C21_must_search_exact sortDocs o ops s log2 : reach sortDocs o ops s → removeCache s = [] →
  ∃ M, shows s M ∧
  ∀ tokens labels flt lg ws, is_logic (tokens ++ labels) lg →
    qMust (query_of (tokens ++ labels) lg) = Some ws → ws ≠ [] →
    ∃ ids, answers log2 s tokens labels flt lg ids ∧ StronglySorted (flip slt) ids ∧
      ∀ id, id ∈ ids ↔ passes flt id ∧ satisfies M (query_of (tokens ++ labels) lg) id.
Proof. exact (C21_lem sortDocs o ops s log2). Qed.
Print Assumptions C21_must_search_exact.

(** Live: a (y, z), b (x, z), c (x); must x, should z or y, not y. *)
Definition abc : list op :=
  [OpAdd (Some docA2) true; OpAdd (Some docB) true; OpAdd (Some docC) true].
Example C21_case : ∃ s, reach stableSort (optsL 2) abc s ∧
  bool_decide (removeCache s = []) &&
  bool_decide (logicFound s ["w"] None (mkLogic false false false ["x"] ["z"; "y"] ["y"]) = Some (["b"], 1)) &&
  bool_decide (logicFound s ["z"] None (mkLogic true false false [] [] []) = Some (["b"; "a"], 2)) &&
  bool_decide (logicFound s ["z"] (Some {["a"]}) (mkLogic true false false [] [] []) = Some (["a"], 1)) = true.
Proof. apply (check_reach _ _ (λ s, _)); [by apply good_opsb|by vm_compute]. Qed.

(** * C22 *)
Theorem C22_should_search sortDocs o ops s log2 : reach sortDocs o ops s → removeCache s = [] →
  ∃ M, shows s M ∧
  ∀ tokens labels lg ws, is_logic (tokens ++ labels) lg →
    qMust (query_of (tokens ++ labels) lg) = None → qShould (query_of (tokens ++ labels) lg) = Some ws →
    ∃ ids, (∀ flt, answers log2 s tokens labels flt lg ids) ∧ NoDup ids ∧
      ∀ id, id ∈ ids ↔ satisfies M (query_of (tokens ++ labels) lg) id.
Proof. exact (C22_lem sortDocs o ops s log2). Qed.
Print Assumptions C22_should_search.

(** The filter is not applied: a is returned although only b is asked for. *)
Theorem C22_filter_respected_refuted : ∃ s, reach stableSort (optsL 2) abc s ∧
  bool_decide (logicFound s ["z"] (Some {["b"]}) (mkLogic false true false [] [] ["x"]) = Some (["a"], 1)) &&
  bool_decide (logicFound s [] None (mkLogic false false false [] ["x"; "y"; "w"] []) = Some (["b"; "c"; "a"], 3)) = true.
Proof. apply (check_reach _ _ (λ s, _)); [by apply good_opsb|by vm_compute]. Qed.
Print Assumptions C22_filter_respected_refuted.

(** * C23 *)
Theorem C23_not_only_returns_the_excluded sortDocs o ops s log2 : reach sortDocs o ops s → awake s →
  ∃ M D, content s M D ∧ (removeCache s = [] → D = M) ∧
  ∀ tokens labels lg ws, is_logic (tokens ++ labels) lg →
    query_of (tokens ++ labels) lg = mkQuery None None (Some ws) →
    ∃ ids, (∀ flt, answers log2 s tokens labels flt lg ids) ∧
      (∀ id d, D !! id = Some d → occurrences id ids = word_hits d ws) ∧
      (∀ id, id ∈ ids ↔ ∃ k, k ∈ ws ∧ carries D k id).
Proof. exact (C23_lem sortDocs o ops s log2). Qed.
Print Assumptions C23_not_only_returns_the_excluded.

(** "not y, not z" returns a twice, b once, and never c, the only answer wanted. *)
Example C23_case : ∃ s, reach stableSort (optsL 2) abc s ∧
  HasDoc s "a" &&
  bool_decide (logicFound s ["x"] None (mkLogic false false true [] [] ["y"; "z"]) = Some (["a"; "a"; "b"], 3)) = true.
Proof. apply (check_reach _ _ (λ s, _)); [by apply good_opsb|by vm_compute]. Qed.

(** * C24 *)
Theorem C24_only_the_parts_matter log2 s t1 l1 t2 l2 flt c lg1 lg2 :
  is_logic (t1 ++ l1) lg1 → is_logic (t2 ++ l2) lg2 →
  query_of (t1 ++ l1) lg1 = query_of (t2 ++ l2) lg2 →
  Lookup log2 s t1 l1 flt c (Some lg1) = Lookup log2 s t2 l2 flt c (Some lg2).
Proof. exact (only_parts log2 s t1 l1 t2 l2 flt c lg1 lg2). Qed.
Print Assumptions C24_only_the_parts_matter.

(** Expr.Must present: the query words have no influence. *)
Theorem C24_query_words_ignored log2 s t1 l1 t2 l2 flt c lg : eMust lg ≠ [] →
  Lookup log2 s t1 l1 flt c (Some lg) = Lookup log2 s t2 l2 flt c (Some lg).
Proof. exact (words_ignored log2 s t1 l1 t2 l2 flt c lg). Qed.
Print Assumptions C24_query_words_ignored.

(** Any other request is a plain search; Expr.NotIn then excludes nothing. *)
Theorem C24_otherwise_plain log2 s tokens labels flt c lg : ¬ is_logic (tokens ++ labels) lg →
  Lookup log2 s tokens labels flt c (Some lg) = Lookup log2 s tokens labels flt c None.
Proof. exact (lookup_plain log2 s tokens labels flt c lg). Qed.
Print Assumptions C24_otherwise_plain.

Example C24_case :
  is_logic ["w"] (mkLogic false true false ["x"] [] []) ∧
  query_of ["w"] (mkLogic false true false ["x"] [] []) = mkQuery (Some ["x"]) (Some ["x"]) None ∧
  query_of ["w"] (mkLogic true false true [] ["s"] []) = mkQuery (Some ["w"]) (Some ["s"]) (Some ["s"]) ∧
  ¬ is_logic ["w"] (mkLogic false false false [] [] ["x"]).
Proof.
  split; [right; by left|]. split; [done|]. split; [done|].
  intros [[_ [|[|]]]|[|]]; done.
Qed.

(** * C25 *)
Theorem C25_which_logic_searches_crash sortDocs o ops s log2 tokens labels flt c lg :
  reach sortDocs o ops s → is_logic (tokens ++ labels) lg →
  Lookup log2 s tokens labels flt c (Some lg) = None ↔
  awake s ∧ lMust lg = true ∧ tokens = [] ∧ labels = [] ∧ eMust lg = [] ∧
  ∃ k id, k ∈ eShould lg ∧ in_row s k id.
Proof. exact (C25_lem sortDocs o ops s log2 tokens labels flt c lg). Qed.
Print Assumptions C25_which_logic_searches_crash.

Example C25_case : is_logic [] (mkLogic true false false [] ["x"] []) ∧
  ∃ s, reach stableSort (optsL 2) abc s ∧
  match logicFound s [] None (mkLogic true false false [] ["x"] []) with None => true | Some _ => false end &&
  match logicFound s [] None (mkLogic true false false [] ["w"] []) with None => false | Some _ => true end = true.
Proof.
  split; [right; by right|]. apply (check_reach _ _ (λ s, _)); [by apply good_opsb|by vm_compute].
Qed.

(** * C26 *)
(** Must searches in any state: answered from the live documents together with
    those waiting for deletion. *)
Theorem C26_must_search_sees_pending sortDocs o ops s log2 : reach sortDocs o ops s →
  ∃ M D, content s M D ∧ (removeCache s = [] → D = M) ∧
  ∀ tokens labels flt lg ws, is_logic (tokens ++ labels) lg →
    qMust (query_of (tokens ++ labels) lg) = Some ws → ws ≠ [] →
    ∃ ids, answers log2 s tokens labels flt lg ids ∧ StronglySorted (flip slt) ids ∧
      ∀ id, id ∈ ids ↔ awake s ∧ passes flt id ∧ satisfies D (query_of (tokens ++ labels) lg) id.
Proof. exact (must_thm sortDocs o ops s log2). Qed.
Print Assumptions C26_must_search_sees_pending.

Theorem C26_should_search_sees_pending sortDocs o ops s log2 : reach sortDocs o ops s →
  ∃ M D, content s M D ∧ (removeCache s = [] → D = M) ∧
  ∀ tokens labels lg ws, is_logic (tokens ++ labels) lg →
    qMust (query_of (tokens ++ labels) lg) = None → qShould (query_of (tokens ++ labels) lg) = Some ws →
    ∃ ids, (∀ flt, answers log2 s tokens labels flt lg ids) ∧ NoDup ids ∧
      ∀ id, id ∈ ids ↔ awake s ∧ satisfies D (query_of (tokens ++ labels) lg) id.
Proof. exact (should_thm sortDocs o ops s log2). Qed.
Print Assumptions C26_should_search_sees_pending.

(** A removal that has not been flushed changes no logic search answer at all. *)
Theorem C26_removal_unnoticed sortDocs o ops s log2 id force s' tokens labels flt c lg :
  reach sortDocs o ops s → RemoveDocToCache id force s = Some (s', false) →
  awake s → awake s' → is_logic (tokens ++ labels) lg →
  Lookup log2 s' tokens labels flt c (Some lg) = Lookup log2 s tokens labels flt c (Some lg).
Proof. exact (pending_same sortDocs o ops s log2 id force s' tokens labels flt c lg). Qed.
Print Assumptions C26_removal_unnoticed.

(** With no removal pending, the "all words" logic search and the plain search agree. *)
Theorem C26_flushed_agrees sortDocs o ops s log2 tokens labels flt : reach sortDocs o ops s → removeCache s = [] →
  tokens ++ labels ≠ [] →
  ∀ docs n, Lookup log2 s tokens labels flt false None = Some (docs, n) →
  answers log2 s tokens labels flt allOf (ixDocId <$> docs).
Proof. exact (flushed_agree sortDocs o ops s log2 tokens labels flt). Qed.
Print Assumptions C26_flushed_agrees.

(** b is removed but not flushed: HasDoc and plain search say no, logic search yes;
    after a flush all agree. *)
Example C26_case : ∃ s, reach stableSort (optsL 5) (abc ++ [OpRemove "b" false]) s ∧
  negb (HasDoc s "b") && HasDoc s "a" &&
  bool_decide (logicFound s ["x"] None noLogic = Some (["c"], 1)) &&
  bool_decide (logicFound s ["x"] None allOf = Some (["c"; "b"], 2)) &&
  match RemoveDocToCache "" true s with
  | Some (s', _) => bool_decide (removeCache s' = []) &&
                    bool_decide (logicFound s' ["x"] None noLogic = Some (["c"], 1)) &&
                    bool_decide (logicFound s' ["x"] None allOf = Some (["c"], 1))
  | None => false end = true.
Proof. apply (check_reach _ _ (λ s, _)); [by apply good_opsb|by vm_compute]. Qed.
