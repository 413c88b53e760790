(** Theorems about the write side of the indexer (core/indexer.go). *)
From Verif Require Import ModelLookup SpecIndexer ProofIxThms ProofIxMap ProofIxMore ExampleTools.

(** * C01 *)
Theorem C01_rows_well_formed sortDocs o ops s k r :
  reach sortDocs o ops s → table s !! k = Some r → row_wf (IndexType o) r.
Proof. exact (rows_wf sortDocs o ops s k r). Qed.
Print Assumptions C01_rows_well_formed.

Example C01_case : ∃ s, reach stableSort (optsL 2) hist s ∧
  bool_decide (docIds <$> table s !! "z" = Some ["a"; "b"]) &&
  bool_decide (locations <$> table s !! "z" = Some [[2]; [2]]) = true.
Proof. apply check_reach; [apply hist_good|by vm_compute]. Qed.

(** * C02 *)
Theorem C02_position_search ids start end_ id :
  StronglySorted slt ids → 0 <= start → start <= end_ → end_ < zlen ids →
  ∃ p b, searchIndex ids start end_ id = Some (p, b) ∧
    start <= p <= end_ + 1 ∧
    (b = true ↔ ∃ i, start <= i <= end_ ∧ zget ids i = Some id) ∧
    (b = true → zget ids p = Some id) ∧
    (b = false → (∀ i x, start <= i < p → zget ids i = Some x → slt x id) ∧
                 (∀ i x, p <= i <= end_ → zget ids i = Some x → slt id x)).
Proof. exact (searchIndex_exact ids start end_ id). Qed.
Print Assumptions C02_position_search.

Example C02_case :
  StronglySorted slt ["a"; "c"; "e"; "g"; "i"] ∧
  searchIndex ["a"; "c"; "e"; "g"; "i"] 1 3 "f" = Some (3, false) ∧
  searchIndex ["a"; "c"; "e"; "g"; "i"] 0 4 "g" = Some (3, true).
Proof.
  split; [|by vm_compute]. repeat (constructor; [|repeat (constructor; [by vm_compute|]); constructor]).
  constructor.
Qed.

(** * C05 *)
Theorem C05_forced_calls_are_a_map sortDocs o s0 ops :
  valid_sort sortDocs → Init o = Some s0 → Forall good_op ops → Forall forced ops →
  ∃ s, run sortDocs ops s0 = Some s ∧ shows s (mapOf ops) ∧ clean s (mapOf ops) ∧
    addCache s = [] ∧ removeCache s = [].
Proof. exact (forced_is_map sortDocs o s0 ops). Qed.
Print Assumptions C05_forced_calls_are_a_map.

Definition histForced : list op :=
  [OpAdd (Some docA) true; OpAdd (Some docB) true; OpAdd (Some docA2) true; OpRemove "b" true;
   OpRemove "q" true; OpAdd None true; OpAdd (Some docC) true].
Example C05_case : is_Some (Init (optsL 1)) ∧ Forall good_op histForced ∧ Forall forced histForced ∧
  mapOf histForced !! "a" = Some docA2 ∧ mapOf histForced !! "b" = None ∧ mapOf histForced !! "c" = Some docC.
Proof.
  split; [by apply Init_Some|]. split; [by apply good_opsb|].
  split; [repeat constructor; done|]. by vm_compute.
Qed.

(** * C06 *)
Theorem C06_batching_is_transparent sortDocs o s0 ops :
  valid_sort sortDocs → Init o = Some s0 → Forall good_op ops → no_conflict sortDocs ops s0 →
  ∃ s, run sortDocs (ops ++ [OpAdd None true]) s0 = Some s ∧
    shows s (mapOf ops) ∧ clean s (mapOf ops) ∧ addCache s = [] ∧ removeCache s = [].
Proof. exact (batching_transparent sortDocs o s0 ops). Qed.
Print Assumptions C06_batching_is_transparent.

(** The hypothesis of C06 holds whenever no id is named twice. *)
Theorem C06_distinct_ids sortDocs o s0 ops :
  valid_sort sortDocs → Init o = Some s0 → Forall good_op ops →
  NoDup (omap op_id ops) → "0" ∉ omap op_id ops → no_conflict sortDocs ops s0.
Proof. exact (batching_distinct sortDocs o s0 ops). Qed.
Print Assumptions C06_distinct_ids.

Example C06_case :
  (let ops := [OpAdd (Some docA) false; OpAdd (Some docB) false; OpAdd (Some docC) false; OpRemove "q" false] in
   Forall good_op ops ∧ NoDup (omap op_id ops) ∧ "0" ∉ omap op_id ops) ∧
  (** updates and removals of flushed documents are allowed too *)
  (let ops := [OpAdd (Some docA) true; OpAdd (Some docA2) false; OpAdd (Some docB) false;
       OpAdd None true; OpRemove "b" false] in
   Forall good_op ops ∧ ∃ s0, Init (optsL 3) = Some s0 ∧ no_conflict stableSort ops s0).
Proof.
  cbv zeta. split.
  - split; [by apply good_opsb|]. split; [by apply (bool_decide_unpack _); vm_compute|].
    by apply (bool_decide_unpack _); vm_compute.
  - split; [by apply good_opsb|].
    destruct (initCheck_ok (optsL 3) (no_conflictb stableSort [OpAdd (Some docA) true; OpAdd (Some docA2) false;
      OpAdd (Some docB) false; OpAdd None true; OpRemove "b" false])) as (s0 & Hi & H); [by vm_compute|].
    exists s0. split; [done|]. by apply no_conflictb_ok.
Qed.

(** * C08 *)
Theorem C08_removal_is_local docs s :
  StronglySorted sle docs →
  (∀ k r, table s !! k = Some r → row_wf (IndexType (initOptions s)) r) →
  ∃ s', RemoveDocs docs s = Some s' ∧
    ∀ k, table s' !! k = table s !! k ≫= row_after docs.
Proof. exact (RemoveDocs_rows docs s). Qed.
Print Assumptions C08_removal_is_local.

Example C08_case :
  row_after ["b"; "b"; "d"] (mkRow ["a"; "b"; "c"; "d"] [] [[1]; [2]; [3]; [4]]) =
    Some (mkRow ["a"; "c"] [] [[1]; [3]]) ∧
  row_after ["b"; "d"] (mkRow ["b"] [f32_of_Z 1] []) = None ∧
  StronglySorted sle ["b"; "b"; "d"].
Proof.
  split; [done|]. split; [done|]. repeat (constructor; [|repeat (constructor; [by vm_compute|]); constructor]).
  constructor.
Qed.

(** * C10 *)
Theorem C10_live_counter sortDocs o ops s : reach sortDocs o ops s → live_count s (numDocs s).
Proof. exact (numDocs_count sortDocs o ops s). Qed.
Print Assumptions C10_live_counter.

Example C10_case : ∃ s, reach stableSort (optsL 2) hist s ∧
  (numDocs s =? 2) && HasDoc s "a" && negb (HasDoc s "b") && HasDoc s "c" = true.
Proof. apply (check_reach _ _ (λ s, _)); [apply hist_good|by vm_compute]. Qed.

(** * C11 *)
Theorem C11_remove_never_crashes sortDocs o ops s id force :
  reach sortDocs o ops s → is_Some (RemoveDocToCache id force s).
Proof. exact (remove_never_crashes sortDocs o ops s id force). Qed.
Print Assumptions C11_remove_never_crashes.

Theorem C11_no_readd_no_crash sortDocs o s0 ops :
  valid_sort sortDocs → Init o = Some s0 → Forall good_op ops → no_readd sortDocs ops s0 →
  is_Some (run sortDocs ops s0).
Proof. exact (no_readd_no_crash sortDocs o s0 ops). Qed.
Print Assumptions C11_no_readd_no_crash.

Example C11_case : ∃ s0, Init (optsL 1) = Some s0 ∧
  no_readd stableSort [OpAdd (Some docA) false; OpAdd (Some docA2) false; OpRemove "a" false;
       OpAdd (Some docA) false] s0.
Proof.
  destruct (initCheck_ok (optsL 1) (no_readdb stableSort [OpAdd (Some docA) false; OpAdd (Some docA2) false;
      OpRemove "a" false; OpAdd (Some docA) false])) as (s0 & Hi & H); [by vm_compute|].
  exists s0. split; [done|]. by apply no_readdb_ok.
Qed.

(** * C12 *)
Theorem C12_add_crashes_iff_full sortDocs o ops s doc force :
  reach sortDocs o ops s →
  (match doc with Some d => good_doc d | None => True end) →
  AddDocToCache sortDocs doc force s = None ↔
  (∃ d, doc = Some d) ∧ zlen (addCache s) = DocCacheSize (initOptions s).
Proof. exact (add_crashes_iff sortDocs o ops s doc force). Qed.
Print Assumptions C12_add_crashes_iff_full.

Theorem C12_crash_reachable sortDocs o n x y force :
  valid_sort sortDocs → DocCacheSize o = n → 2 <= n → good_doc x → good_doc y →
  ∃ s0 s, Init o = Some s0 ∧
    run sortDocs (OpAdd (Some x) true :: replicate (Z.to_nat n) (OpAdd (Some x) false)) s0 = Some s ∧
    AddDocToCache sortDocs (Some y) force s = None.
Proof. exact (λ H, crash_reachable sortDocs H o n x y force). Qed.
Print Assumptions C12_crash_reachable.

Example C12_case : DocCacheSize (optsL 4) = 4 ∧ good_doc docA ∧ good_doc docB ∧
  st (optsL 4) (OpAdd (Some docA) true :: replicate 4 (OpAdd (Some docA) false) ++ [OpAdd (Some docB) false]) = None.
Proof.
  split; [done|]. split; [by apply (bool_decide_unpack _); vm_compute|].
  split; [by apply (bool_decide_unpack _); vm_compute|]. by vm_compute.
Qed.

(** * C13 *)
Theorem C13_one_version_survives sortDocs o ops s doc force s' :
  reach sortDocs o ops s →
  (match doc with Some d => good_doc d | None => True end) →
  AddDocToCache sortDocs doc force s = Some s' →
  let W := addCache s ++ match doc with Some d => [d] | None => [] end in
  ∃ M', shows s' M' ∧
    ∀ d, d ∈ W →
      (d ∈ addCache s') ∨
      (¬ waits s' (DocId d) ∧ ∃ d', d' ∈ W ∧ DocId d' = DocId d ∧ M' !! DocId d = Some d').
Proof. exact (one_version_survives sortDocs o ops s doc force s'). Qed.
Print Assumptions C13_one_version_survives.

(** The older version wins: a(v1), a(v2), then an update of a live document. *)
Theorem C13_last_wins_refuted :
  ∃ ops s, reach stableSort (optsL 3) ops s ∧
    ops = [OpAdd (Some docC) true; OpAdd (Some docA) false; OpAdd (Some docA2) false; OpAdd (Some docC) true] ∧
    addCache s = [] ∧ HasDoc s "a" = true ∧ in_row s "x" "a" ∧ ¬ in_row s "z" "a" ∧
    "x" ∉ Text <$> Keywords docA2 ∧ "z" ∈ Text <$> Keywords docA2.
Proof. exact last_wins_refuted. Qed.
Print Assumptions C13_last_wins_refuted.

(** The sort used there is stable, so it is not the sort that loses the order. *)
Theorem C13_sort_is_stable id l :
  filter (λ d, DocId d = id) (stableSort l) = filter (λ d, DocId d = id) l.
Proof. exact (stableSort_stable id l). Qed.
Print Assumptions C13_sort_is_stable.

Example C13_case : ∃ s, reach stableSort (optsL 4) [OpAdd (Some docA) false; OpAdd (Some docB) false] s ∧
  match AddDocToCache stableSort (Some docA2) true s with Some _ => true | None => false end = true.
Proof. apply (check_reach _ _ (λ s, _)); [by apply good_opsb|by vm_compute]. Qed.

(** * C14 *)
Theorem C14_remove_of_waiting_is_noop sortDocs o ops s id force :
  reach sortDocs o ops s → HasDoc s id = false → id ∉ removeCache s →
  RemoveDocToCache id force s = RemoveDocToCache "0" force s.
Proof. exact (remove_unknown_noop sortDocs o ops s id force). Qed.
Print Assumptions C14_remove_of_waiting_is_noop.

Theorem C14_index_remove_flush_refuted sortDocs o d f :
  valid_sort sortDocs → 2 <= DocCacheSize o → good_doc d →
  ∃ s0 s, Init o = Some s0 ∧
    run sortDocs [OpAdd (Some d) false; OpRemove (DocId d) f; OpAdd None true] s0 = Some s ∧
    HasDoc s (DocId d) = true.
Proof. exact (remove_of_waiting_fails sortDocs o d f). Qed.
Print Assumptions C14_index_remove_flush_refuted.

Example C14_case : ∃ s, reach stableSort (optsL 4) [OpAdd (Some docA) true; OpAdd (Some docB) false] s ∧
  negb (HasDoc s "b") && bool_decide ("b" ∉ removeCache s) && bool_decide (waits s "b") = true.
Proof. apply (check_reach _ _ (λ s, _)); [by apply good_opsb|by vm_compute]. Qed.

(** * C15, indexer part *)
Theorem C15_zero_not_removable sortDocs o ops s rms s' :
  reach sortDocs o ops s →
  Forall (λ o, match o with OpRemove _ _ => True | _ => False end) rms →
  run sortDocs rms s = Some s' →
  ∃ M M', shows s M ∧ shows s' M' ∧ M' !! "0" = M !! "0".
Proof. exact (zero_not_removable sortDocs o ops s rms s'). Qed.
Print Assumptions C15_zero_not_removable.

Example C15_case : ∃ s, reach stableSort (optsL 1) [OpAdd (Some (mkDoc "0" (f32_of_Z 1) [kw "x" [0]])) true] s ∧
  match run stableSort [OpRemove "0" true; OpRemove "0" false] s with Some s' => HasDoc s' "0" | None => false end = true.
Proof. apply (check_reach _ _ (λ s, _)); [by apply good_opsb|by vm_compute]. Qed.
