(** Specification vocabulary: two documents compared by BM25. *)
From Coq Require Import Reals Floats.SpecFloat.
From Verif Require Import ModelLookup SpecSearch SpecAccuracy.

(** The same tokens with the same numbers of carriers, each at least as frequent *)
Definition at_least_as_frequent (ts1 ts2 : list (Z * R)) : Prop :=
  Forall2 (λ t1 t2, fst t1 = fst t2 ∧ (0 <= snd t2 <= snd t1)%R) ts1 ts2.
(** The same frequencies, each token carried by at most as many documents *)
Definition at_least_as_rare (ts1 ts2 : list (Z * R)) : Prop :=
  Forall2 (λ t1 t2, 0 < fst t1 <= fst t2 ∧ snd t1 = snd t2 ∧ (0 <= snd t1)%R) ts1 ts2.
(** What the formula needs to make sense: positive K1, B from 0 to 1, positive numbers *)
Definition sensible (p : BM25Params) (N : Z) (avg : R) : Prop :=
  (0 < value (K1 p))%R ∧ (0 <= value (B p) <= 1)%R ∧ 0 < N ∧ (0 < avg)%R.
