(** Specification of logic search (must / should / not-in). *)
From Verif Require Import ModelLookup SpecIndexer.

(** Document [id] of [D] lists the word [k]. *)
Definition carries (D : docmap) (k id : string) : Prop :=
  ∃ d, D !! id = Some d ∧ k ∈ Text <$> Keywords d.

(** [D] is the content of the inverted index, including documents whose removal
    has not been flushed yet. *)
Definition indexes (s : Indexer) (D : docmap) : Prop :=
  ∀ k id, in_row s k id ↔ carries D k id.

(** The first list that is not empty. *)
Fixpoint first_given (ls : list (list string)) : list string :=
  match ls with [] => [] | [] :: ls' => first_given ls' | l :: _ => l end.

(** The three parts a logic request is evaluated with; [None]: part absent. *)
Record query := mkQuery {
  qMust : option (list string); qShould : option (list string); qNot : option (list string) }.
Definition part (flag : bool) (own : list string) (fallbacks : list (list string)) : option (list string) :=
  match flag, own with
  | false, [] => None
  | _, _ => Some (first_given (own :: fallbacks))
  end.
Definition query_of (keywords : list string) (lg : Logic) : query :=
  mkQuery (part (lMust lg) (eMust lg) [keywords])
          (part (lShould lg) (eShould lg) [eMust lg; keywords])
          (part (lNotIn lg) (eNotIn lg) [eShould lg; eMust lg; keywords]).

(** When a request is a logic request. *)
Definition is_logic (keywords : list string) (lg : Logic) : Prop :=
  (keywords ≠ [] ∧ (lMust lg = true ∨ lShould lg = true ∨ lNotIn lg = true)) ∨
  eMust lg ≠ [] ∨ eShould lg ≠ [].

Definition has_all (D : docmap) (ws : option (list string)) (id : string) : Prop :=
  match ws with Some ws => ∀ k, k ∈ ws → carries D k id | None => True end.
Definition has_one (D : docmap) (ws : option (list string)) (id : string) : Prop :=
  match ws with Some ws => ∃ k, k ∈ ws ∧ carries D k id | None => True end.
Definition has_none (D : docmap) (ws : option (list string)) (id : string) : Prop :=
  match ws with Some ws => ∀ k, k ∈ ws → ¬ carries D k id | None => True end.
Definition satisfies (D : docmap) (q : query) (id : string) : Prop :=
  has_all D (qMust q) id ∧ has_one D (qShould q) id ∧ has_none D (qNot q) id.

(** A search answers exactly the ids [ids], in this order, without scores, and the
    count-only search counts them. *)
Definition answers (log2 : F → F) (s : Indexer) (tokens labels : list string) (flt : option (gset string))
    (lg : Logic) (ids : list string) : Prop :=
  Lookup log2 s tokens labels flt false (Some lg) = Some (emptyIDoc <$> ids, zlen ids) ∧
  Lookup log2 s tokens labels flt true (Some lg) = Some ([], zlen ids).

(** Number of words of [ws] (with repetitions) that are words of [d]. *)
Definition word_hits (d : DocIndex) (ws : list string) : nat :=
  length (filter (λ k, k ∈ Text <$> Keywords d) ws).
Definition occurrences (id : string) (ids : list string) : nat := length (filter (λ x, x = id) ids).

(** [M]: the live documents; [D]: these and the documents waiting for deletion. *)
Definition content (s : Indexer) (M D : docmap) : Prop :=
  shows s M ∧ M ⊆ D ∧ indexes s D ∧ (∀ id, is_Some (D !! id) ↔ HasDoc s id = true ∨ id ∈ removeCache s).

(** Whether the index answers at all: some document is live. *)
Definition awake (s : Indexer) : Prop := ∃ id, HasDoc s id = true.

(** The request "all query words", as a logic request. *)
Definition allOf : Logic := mkLogic true false false [] [] [].
