(** Specification of token proximity (core/indexer.go:725-730, the comment of
    computeTokenProximity): the cost of choosing one location per token. *)
From Verif Require Import GoBase.

(** Sum of |P(i+1) - P(i) - L(i)|. *)
Fixpoint prox_cost (lens : list Z) (ps : list Z) : Z :=
  match lens, ps with
  | l :: lens', p :: ((q :: _) as ps') => Z.abs (q - p - l) + prox_cost lens' ps'
  | _, _ => 0
  end.

(** One location per token. *)
Definition is_choice (locs : list (list Z)) (ps : list Z) : Prop := Forall2 (λ p l, p ∈ l) ps locs.

(** Sizes for which 64-bit arithmetic cannot wrap: locations and token lengths
    below 2^31, at most 2^30 tokens. *)
Definition small_inputs (locs : list (list Z)) (tokens : list string) : Prop :=
  Forall (Forall (λ x, 0 <= x < 2^31)) locs ∧
  Forall (λ t, strlen t < 2^31) tokens ∧ zlen tokens < 2^30.

(** No occurrence of a token starts at or inside an occurrence of its predecessor. *)
Fixpoint no_overlap (lens : list Z) (locs : list (list Z)) : Prop :=
  match lens, locs with
  | l :: lens', cur :: ((next :: _) as locs') =>
    (∀ c x, c ∈ cur → x ∈ next → ¬ (c <= x < c + l)) ∧ no_overlap lens' locs'
  | _, _ => True
  end.
