(** C51: the uint64 sorting functions of core/uint64.go. *)
From Verif Require Import GoBase ModelSort ProofSortThms.
From stdpp Require Import sorting.
Open Scope Z_scope.

(** Each sorting function ends normally ([Some]: no index out of range) and
    leaves an ordered permutation of its input. *)
Theorem C51_asc :
  ∀ d, ∃ d', Asc d = Some d' ∧ d' ≡ₚ d ∧ StronglySorted Z.le d'.
Proof. exact asc_lem. Qed.
Print Assumptions C51_asc.

Theorem C51_desc :
  ∀ d, ∃ d', Desc d = Some d' ∧ d' ≡ₚ d ∧ StronglySorted Z.ge d'.
Proof. exact desc_lem. Qed.
Print Assumptions C51_desc.

Theorem C51_stable_asc :
  ∀ d, ∃ d', StableAsc d = Some d' ∧ d' ≡ₚ d ∧ StronglySorted Z.le d'.
Proof. exact stableAsc_lem. Qed.
Print Assumptions C51_stable_asc.

Theorem C51_stable_desc :
  ∀ d, ∃ d', StableDesc d = Some d' ∧ d' ≡ₚ d ∧ StronglySorted Z.ge d'.
Proof. exact stableDesc_lem. Qed.
Print Assumptions C51_stable_desc.

(** The predicates recognise exactly the ordered slices. *)
Theorem C51_is_sorted_asc :
  ∀ d, ∃ r, IsSortedAsc d = Some r ∧ (r = true ↔ StronglySorted Z.le d).
Proof. exact isAsc_lem. Qed.
Print Assumptions C51_is_sorted_asc.

Theorem C51_is_sorted_desc :
  ∀ d, ∃ r, IsSortedDesc d = Some r ∧ (r = true ↔ StronglySorted Z.ge d).
Proof. exact isDesc_lem. Qed.
Print Assumptions C51_is_sorted_desc.

(** The stable and the unstable functions agree, and the descending order is
    the reverse of the ascending one. *)
Theorem C51_stable_agrees :
  ∀ d, Asc d = StableAsc d ∧ Desc d = StableDesc d.
Proof. exact agree_lem. Qed.
Print Assumptions C51_stable_agrees.

Theorem C51_desc_is_reverse :
  ∀ d, ∃ d', Asc d = Some d' ∧ Desc d = Some (reverse d').
Proof. exact desc_rev_lem. Qed.
Print Assumptions C51_desc_is_reverse.

(** 60 scrambled values with repetitions: quicksort with its ninther pivot, and
    block merging *)
Definition scrambled : list Z := (λ i, (Z.of_nat i * 37 + 11) mod 53) <$> seq 0 60.
Example C51_example :
  Asc scrambled = Some (merge_sort Z.le scrambled) ∧
  StableDesc scrambled = Some (reverse (merge_sort Z.le scrambled)) ∧
  IsSortedAsc scrambled = Some false ∧ IsSortedDesc [3; 3; 1] = Some true.
Proof. by vm_compute. Qed.
