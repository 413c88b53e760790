(** Theorems about ranking and paging (core/ranker.go, types/search_response.go). *)
From Coq Require Import Floats.SpecFloat.
From Verif Require Import ModelRanker SpecRank ProofScore ProofRanker ProofSortBy.

(** * C27 *)
Theorem C27_last_write_wins only ops : Forall (engine_call only) ops →
  ∃ r, rrun ops (RankerInit [only]) = Some r ∧ idOnly r = only ∧
  ∀ id, match last_call id ops with
        | Some (ROAdd _ f c) =>
          ranker_holds r id (Some f) (if only then None else given_content c)
            (if only then None else given_attri c)
        | _ => ranker_holds r id None None None
        end.
Proof. exact (C27_lem only ops). Qed.
Print Assumptions C27_last_write_wins.

(** Calls that leave out content or attributes (AddDoc is variadic): the fields are
    those of the last add, content and attributes those of the last add since the
    last removal that gave them. *)
Theorem C27_with_optional_content only ops : (only = false → Forall string_content ops) →
  ∃ r, rrun ops (RankerInit [only]) = Some r ∧ idOnly r = only ∧
  ∀ id, ranker_holds r id (fst <$> head (adds_since id ops))
    (if only then None else head (omap given_content (snd <$> adds_since id ops)))
    (if only then None else head (omap given_attri (snd <$> adds_since id ops))).
Proof. exact (C27_general_lem only ops). Qed.
Print Assumptions C27_with_optional_content.

(** Hence a re-added document can keep the content of its older version. *)
Theorem C27_stale_content_refuted :
  ∃ ops r, ops = [ROAdd "a" (IOther 1) [IStr "old"; IOther 7]; ROAdd "a" (IOther 2) []] ∧
    rrun ops (RankerInit []) = Some r ∧
    last_call "a" ops = Some (ROAdd "a" (IOther 2) []) ∧
    rContent r !! "a" = Some "old" ∧ rAttri r !! "a" = Some (IOther 7).
Proof. eexists _, _. split; [done|]. split; [by vm_compute|]. by vm_compute. Qed.
Print Assumptions C27_stale_content_refuted.

Definition rcalls : list rop :=
  [ROAdd "a" (IOther 1) [IStr "ca"; INil]; ROAdd "b" (IOther 2) [IStr "cb"; IOther 9];
   RORemove "a"; ROAdd "c" INil [IStr "cc"; INil]; ROAdd "b" (IOther 3) [IStr "cb2"; IOther 8];
   ROAdd "d" (IOther 5) [IStr "cd"; INil]].
Lemma rcalls_ok : Forall (engine_call false) rcalls.
Proof. repeat (constructor; [cbn; try done; by eexists _, _|]). constructor. Qed.
Example C27_case : Forall (engine_call false) rcalls ∧
  last_call "a" rcalls = Some (RORemove "a") ∧
  last_call "b" rcalls = Some (ROAdd "b" (IOther 3) [IStr "cb2"; IOther 8]) ∧ last_call "z" rcalls = None.
Proof. split; [exact rcalls_ok|]. by vm_compute. Qed.

(** * C28 *)
Theorem C28_ranking_exact sortBy only score rev ops r docs : valid_sortBy sortBy →
  Forall (engine_call only) ops → rrun ops (RankerInit [only]) = Some r →
  let found := omap (λ d, expected only score (known only ops (ixDocId d)) d) docs in
  no_nan found →
  (∃ out, Rank sortBy r docs (mkRankOpts score rev 0 0) false = Some (out, zlen found) ∧
     out ≡ₚ found ∧ in_order rev out) ∧
  Rank sortBy r docs (mkRankOpts score rev 0 0) true = Some ([], zlen found).
Proof. exact (C28_lem sortBy only score rev ops r docs). Qed.
Print Assumptions C28_ranking_exact.

(** A scorer that needs numeric fields: 2 from 3 on, else 1; ties are broken by the
    presence of a location. *)
Definition fieldScore (d : IndexedDoc) (f : Iface) : list F :=
  match f with
  | IOther n => (if 3 <=? n then two else one) :: (match TokenLocs d with [] => [] | _ => [one] end)
  | _ => []
  end.
Lemma fieldScore_num : ∀ d f, nan_free (fieldScore d f).
Proof.
  intros d [|s|n]; [constructor|constructor|]. cbn. constructor; [by destruct (3 <=? n)|].
  destruct (TokenLocs d); by repeat constructor.
Qed.
Definition cand (id : string) (locs : list (list Z)) : IndexedDoc := mkIDoc id f_zero 0 [] locs.
Definition cands : list IndexedDoc :=
  [cand "z" []; cand "e" []; cand "d" []; cand "c" []; cand "b" [[1]]; cand "a" []].
Definition rcalls2 : list rop := rcalls ++ [ROAdd "e" (IOther 1) [IStr "ce"; INil]].
Lemma rcalls2_ok : Forall (engine_call false) rcalls2.
Proof. apply Forall_app. split; [exact rcalls_ok|]. repeat constructor. by eexists _, _. Qed.
Definition ranked_ids (off lim : Z) (rev : bool) : option (list string * Z) :=
  match rrun rcalls2 (RankerInit [false]) with
  | Some r =>
    match Rank insSortBy r cands (mkRankOpts fieldScore rev off lim) false with
    | Some (out, n) => Some (sdDocId <$> out, n)
    | None => None
    end
  | None => None
  end.
(** z and a are unknown, c has no score; b beats d by its second score. *)
Example C28_case : valid_sortBy (@insSortBy ScoredDoc) ∧ Forall (engine_call false) rcalls2 ∧
  no_nan (omap (λ d, expected false fieldScore (known false rcalls2 (ixDocId d)) d) cands) ∧
  ranked_ids 0 0 false = Some (["b"; "d"; "e"], 3) ∧ ranked_ids 0 0 true = Some (["e"; "d"; "b"], 3).
Proof.
  split; [exact insSortBy_valid|]. split; [exact rcalls2_ok|]. split; [by apply expected_no_nan, fieldScore_num|]. by vm_compute.
Qed.

(** * C29 *)
Theorem C29_paging_is_slicing sortBy r docs score rev full total off lim :
  Rank sortBy r docs (mkRankOpts score rev 0 0) false = Some (full, total) →
  0 <= off → 0 <= lim → off + lim < 2^63 →
  Rank sortBy r docs (mkRankOpts score rev off lim) false = Some (page off lim full, total).
Proof. exact (C29_lem sortBy r docs score rev full total off lim). Qed.
Print Assumptions C29_paging_is_slicing.

Theorem C29_pages_tile sortBy r docs score rev full total k (n : nat) :
  Rank sortBy r docs (mkRankOpts score rev 0 0) false = Some (full, total) →
  0 < k → zlen full <= Z.of_nat n * k → (Z.of_nat n + 1) * k < 2^63 →
  ∃ pages,
    mapM (λ j : nat, Rank sortBy r docs (mkRankOpts score rev (Z.of_nat j * k) k) false) (seq 0 n)
      = Some ((λ p, (p, total)) <$> pages) ∧
    mjoin pages = full.
Proof. exact (C29_tile_lem sortBy r docs score rev full total k n). Qed.
Print Assumptions C29_pages_tile.

Example C29_case : ranked_ids 1 1 false = Some (["d"], 3) ∧ ranked_ids 2 5 false = Some (["e"], 3) ∧
  ranked_ids 7 2 false = Some ([], 3) ∧ ranked_ids 1 0 false = Some (["d"; "e"], 3).
Proof. by vm_compute. Qed.

(** * C30, ranker *)
Theorem C30_ranker_paging_crashes sortBy r docs score rev full total off lim : valid_sortBy sortBy →
  Rank sortBy r docs (mkRankOpts score rev 0 0) false = Some (full, total) →
  Rank sortBy r docs (mkRankOpts score rev off lim) false = None ↔
  off < 0 ∨ lim ≠ 0 ∧ int64 (off + lim) < Z.min off (zlen full).
Proof. exact (C30_lem sortBy r docs score rev full total off lim). Qed.
Print Assumptions C30_ranker_paging_crashes.

(** A negative limit does no harm as long as the end is not before the start. *)
Example C30_ranker_case : ranked_ids (-1) 2 false = None ∧ ranked_ids 2 (-1) false = None ∧
  ranked_ids 1 (2^63 - 1) false = None ∧ ranked_ids 9 (-1) false = Some ([], 3) ∧
  ranked_ids 0 (2^63 - 1) false = Some (["b"; "d"; "e"], 3).
Proof. by vm_compute. Qed.

(** * C31 *)
Theorem C31_strict_weak_order a b c : nan_free a → nan_free b → nan_free c →
  scoresLess a a = false ∧
  (scoresLess a b = true → scoresLess b c = true → scoresLess a c = true) ∧
  (scoresLess a b = true ↔ ranks_above a b) ∧
  (scoresLess a b = false ∧ scoresLess b a = false ↔ score_eq a b) ∧
  (score_eq a b → score_eq b c → score_eq a c).
Proof. exact (C31_lem a b c). Qed.
Print Assumptions C31_strict_weak_order.

(** With NaN, 1 and 2 are both incomparable to NaN although 2 is above 1. *)
Theorem C31_nan_breaks_the_order :
  scoresLess [one] [S754_nan] = false ∧ scoresLess [S754_nan] [one] = false ∧
  scoresLess [S754_nan] [two] = false ∧ scoresLess [two] [S754_nan] = false ∧
  scoresLess [two] [one] = true.
Proof. exact C31_nan_lem. Qed.
Print Assumptions C31_nan_breaks_the_order.

Example C31_case : nan_free [one; f_zero] ∧ nan_free [one] ∧ nan_free [one; S754_zero true] ∧
  scoresLess [one; f_zero] [one] = true ∧ scoresLess [two] [one; f_zero] = true ∧
  score_eq [one; f_zero] [one; S754_zero true].
Proof. repeat split; by repeat constructor. Qed.
