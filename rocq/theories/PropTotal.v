(** C20: the accumulated token length. *)
From Verif Require Import ModelLookup SpecIndexer SpecSearch SpecLogic SpecTotal ProofIxThms ExampleTools ProofTotal.

(** [D]: the live documents and those whose removal is still queued. *)
Theorem C20_total_is_the_sum sortDocs o zl ops s : reach sortDocs o ops s →
  (∀ d, added d ops → TokenLen d = f32_of_Z (zl d) ∧ 0 <= zl d < 2 ^ 24) →
  (∀ ops1 s1 M D, ops1 `prefix_of` ops → reach sortDocs o ops1 s1 →
    content s1 M D → drawn ops1 D → measures zl s1 D → sum_len zl D < 2 ^ 24) →
  ∃ M D, content s M D ∧ drawn ops D ∧ totalTokenLen s = f32_of_Z (sum_len zl D).
Proof. exact (C20_lem sortDocs o zl ops s). Qed.
Print Assumptions C20_total_is_the_sum.

(** The bound holds in particular when all additions together stay below it. *)
Theorem C20_small_additions sortDocs o zl ops s : reach sortDocs o ops s →
  (∀ d, added d ops → TokenLen d = f32_of_Z (zl d) ∧ 0 <= zl d < 2 ^ 24) →
  added_len zl ops < 2 ^ 24 →
  ∃ M D, content s M D ∧ drawn ops D ∧ totalTokenLen s = f32_of_Z (sum_len zl D).
Proof. exact (C20_additions_lem sortDocs o zl ops s). Qed.
Print Assumptions C20_small_additions.

(** With forced calls nothing waits and the sum is over the map the history denotes. *)
Theorem C20_forced_histories sortDocs o s0 zl ops :
  valid_sort sortDocs → Init o = Some s0 → Forall good_op ops → Forall forced ops →
  (∀ d, added d ops → TokenLen d = f32_of_Z (zl d) ∧ 0 <= zl d < 2 ^ 24) →
  (∀ ops1, ops1 `prefix_of` ops → sum_len zl (mapOf ops1) < 2 ^ 24) →
  ∃ s, run sortDocs ops s0 = Some s ∧ shows s (mapOf ops) ∧ totalTokenLen s = f32_of_Z (sum_len zl (mapOf ops)).
Proof. exact (C20_forced_lem sortDocs o s0 zl ops). Qed.
Print Assumptions C20_forced_histories.

(** Beyond the bound: lengths 2^24 and 1, the first removed again. *)
Definition docBig : DocIndex := mkDoc "big" (f32_of_Z (2 ^ 24)) [kw "x" [0]].
Theorem C20_drift_refuted :
  ∃ s, reach stableSort (optsL 3) [OpAdd (Some docBig) true; OpAdd (Some docC) true; OpRemove "big" true] s ∧
    TokenLen docC = f32_of_Z 1 ∧ HasDoc s "c" = true ∧ HasDoc s "big" = false ∧ totalTokenLen s = f_zero ∧
    ∀ log2, ∃ r, Lookup log2 s ["x"] [] None false None = Some ([r], 1) ∧ ixDocId r = "c" ∧ BM25 r = f_zero.
Proof.
  eexists. split; [apply st_reach; [by apply good_opsb|]; vm_compute; reflexivity|].
  split; [done|]. split; [by vm_compute|]. split; [by vm_compute|]. split; [by vm_compute|].
  intros log2. eexists. split; [vm_compute; reflexivity|]. split; reflexivity.
Qed.
Print Assumptions C20_drift_refuted.

(** The histories of the first two theorems: an automatic flush, an update, a pending removal. *)
Definition zlEx (d : DocIndex) : Z := if decide (d = docA) then 3 else if decide (d = docC) then 1 else 2.
Example C20_case :
  (∀ d, added d hist → TokenLen d = f32_of_Z (zlEx d) ∧ 0 <= zlEx d < 2 ^ 24) ∧ added_len zlEx hist < 2 ^ 24 ∧
  ∃ s, reach stableSort (optsL 2) hist s ∧
    f_eqb (totalTokenLen s) (f32_of_Z 5) && bool_decide (removeCache s = ["b"]) && (numDocs s =? 2) = true.
Proof.
  split; [|split; [by vm_compute|apply (check_reach _ _ (λ s, _)); [apply hist_good|by vm_compute]]].
  intros d [f Hf]. unfold hist in Hf. rewrite !elem_of_cons in Hf.
  destruct Hf as [Hf|[Hf|[Hf|[Hf|[Hf|Hf]]]]]; [..|by apply elem_of_nil in Hf]; try done; injection Hf as -> _;
    (split; [by vm_compute|]); vm_compute; split; congruence.
Qed.

Definition histF : list op := [OpAdd (Some docA) true; OpAdd (Some docB) true; OpAdd (Some docA2) true; OpRemove "b" true].
Example C20_forced_case : Forall forced histF ∧ (∀ ops1, ops1 `prefix_of` histF → sum_len zlEx (mapOf ops1) < 2 ^ 24) ∧
  sum_len zlEx (mapOf histF) = 2 ∧
  ∃ s, reach stableSort (optsL 2) histF s ∧ f_eqb (totalTokenLen s) (f32_of_Z 2) = true.
Proof.
  split; [repeat constructor; done|]. split.
  - intros ops1 Hp. assert (ops1 = take (length ops1) histF) as -> by (destruct Hp as [l ->]; by rewrite take_app).
    destruct (Nat.le_gt_cases 4 (length ops1)) as [H4|H4].
    { rewrite take_ge by (simpl; lia). by vm_compute. }
    destruct (length ops1) as [|[|[|[|n]]]]; [by vm_compute..|lia].
  - split; [by vm_compute|]. apply (check_reach _ _ (λ s, _)); [by apply good_opsb|by vm_compute].
Qed.
