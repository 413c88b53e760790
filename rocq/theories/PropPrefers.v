(** Theorems about what BM25 prefers. *)
From Coq Require Import Reals Lra Floats.SpecFloat.
From Verif Require Import ModelLookup SpecSearch SpecAccuracy SpecPrefers ProofAccuracy ProofPrefers.

(** * C115: BM25 prefers shorter documents, more occurrences and rarer words *)

(** The formula over the real numbers *)
Theorem C115_more_occurrences p N avg len ts1 ts2 : sensible p N avg → (0 <= len)%R → Forall (λ t, 0 < fst t) ts1 →
  at_least_as_frequent ts1 ts2 → (exact_bm25 p N avg len ts2 <= exact_bm25 p N avg len ts1)%R.
Proof. exact (exact_frequent p N avg len ts1 ts2). Qed.
Print Assumptions C115_more_occurrences.
Theorem C115_rarer_words p N avg len ts1 ts2 : sensible p N avg → (0 <= len)%R →
  at_least_as_rare ts1 ts2 → (exact_bm25 p N avg len ts2 <= exact_bm25 p N avg len ts1)%R.
Proof. exact (exact_rare p N avg len ts1 ts2). Qed.
Print Assumptions C115_rarer_words.
Theorem C115_shorter_documents p N avg len1 len2 ts : sensible p N avg → (0 <= len1 <= len2)%R →
  Forall (λ t, 0 < fst t ∧ (0 <= snd t)%R) ts → (exact_bm25 p N avg len2 ts <= exact_bm25 p N avg len1 ts)%R.
Proof. exact (exact_short p N avg len1 len2 ts). Qed.
Print Assumptions C115_shorter_documents.

(** The float32 scores: a longer document never gets a larger score, without any exception for
    rounding. *)
Theorem C115_longer_is_never_better log2 p N L len1 len2 terms : accurate_log2 log2 → modest p →
  0 < N < 2 ^ 24 → 0 < L < 2 ^ 24 → 0 <= len1 <= len2 → len2 < 2 ^ 24 →
  Forall (λ t, 1 <= fst t <= N ∧ modest_freq (snd t)) terms → zlen terms <= 2 ^ 20 →
  f_ltb (bm25_value log2 (Some p) N (f32_div (f32_of_Z L) (f32_of_Z N)) (f32_of_Z len1) terms)
        (bm25_value log2 (Some p) N (f32_div (f32_of_Z L) (f32_of_Z N)) (f32_of_Z len2) terms) = false.
Proof. intros Hlog Hp HN HL H1 H2. exact (value_short log2 Hlog p Hp N HN L HL len1 len2 H1 H2 terms). Qed.
Print Assumptions C115_longer_is_never_better.
(** More occurrences and rarer words: up to rounding *)
Theorem C115_more_occurrences_rounded log2 p N L len ts1 ts2 : accurate_log2 log2 → modest p →
  0 < N < 2 ^ 24 → 0 < L < 2 ^ 24 → 0 <= len < 2 ^ 24 → zlen ts1 <= 2 ^ 20 →
  Forall (λ t, 1 <= fst t <= N ∧ modest_freq (snd t)) ts1 → Forall (λ t, 1 <= fst t <= N ∧ modest_freq (snd t)) ts2 →
  at_least_as_frequent ((λ t, (fst t, value (snd t))) <$> ts1) ((λ t, (fst t, value (snd t))) <$> ts2) →
  hardly_below (length ts1) (value (bm25_value log2 (Some p) N (f32_div (f32_of_Z L) (f32_of_Z N)) (f32_of_Z len) ts2))
                            (value (bm25_value log2 (Some p) N (f32_div (f32_of_Z L) (f32_of_Z N)) (f32_of_Z len) ts1)).
Proof. intros Hlog Hp HN HL Hlen. exact (value_frequent log2 Hlog p Hp N HN L HL len Hlen ts1 ts2). Qed.
Print Assumptions C115_more_occurrences_rounded.
Theorem C115_rarer_words_rounded log2 p N L len ts1 ts2 : accurate_log2 log2 → modest p →
  0 < N < 2 ^ 24 → 0 < L < 2 ^ 24 → 0 <= len < 2 ^ 24 → zlen ts1 <= 2 ^ 20 →
  Forall (λ t, 1 <= fst t <= N ∧ modest_freq (snd t)) ts1 → Forall (λ t, 1 <= fst t <= N ∧ modest_freq (snd t)) ts2 →
  at_least_as_rare ((λ t, (fst t, value (snd t))) <$> ts1) ((λ t, (fst t, value (snd t))) <$> ts2) →
  hardly_below (length ts1) (value (bm25_value log2 (Some p) N (f32_div (f32_of_Z L) (f32_of_Z N)) (f32_of_Z len) ts2))
                            (value (bm25_value log2 (Some p) N (f32_div (f32_of_Z L) (f32_of_Z N)) (f32_of_Z len) ts1)).
Proof. intros Hlog Hp HN HL Hlen. exact (value_rare log2 Hlog p Hp N HN L HL len Hlen ts1 ts2). Qed.
Print Assumptions C115_rarer_words_rounded.
(** A document that has one of the words has a positive score. *)
Theorem C115_scores_are_positive log2 p N L len ts : accurate_log2 log2 → modest p →
  0 < N < 2 ^ 24 → 0 < L < 2 ^ 24 → 0 <= len < 2 ^ 24 → zlen ts <= 2 ^ 20 →
  Forall (λ t, 1 <= fst t <= N ∧ modest_freq (snd t)) ts → Exists (λ t, (0 < value (snd t))%R) ts →
  f_gtb (bm25_value log2 (Some p) N (f32_div (f32_of_Z L) (f32_of_Z N)) (f32_of_Z len) ts) f_zero = true.
Proof. intros Hlog Hp HN HL Hlen. exact (value_positive log2 Hlog p Hp N HN L HL len Hlen ts). Qed.
Print Assumptions C115_scores_are_positive.

(** A claim one might make: one more occurrence never lowers the float32 score. It is false:
    the numerator is rounded down, the denominator grows. *)
Theorem C115_one_more_occurrence_refuted : ∃ log2 p N L len f1 f2, accurate_log2 log2 ∧ modest p ∧ modest_freq f1 ∧ modest_freq f2 ∧
  (value f2 = value f1 + 1)%R ∧
  f_ltb (bm25_value log2 (Some p) N (f32_div (f32_of_Z L) (f32_of_Z N)) (f32_of_Z len) [(1, f2)])
        (bm25_value log2 (Some p) N (f32_div (f32_of_Z L) (f32_of_Z N)) (f32_of_Z len) [(1, f1)]) = true.
Proof.
  exists floorLog2, (mkBM25 (f32_of_Z 2) (f32_of_Z 1)), 1, 1, 1, (f32_of_Z 5592406), (f32_of_Z 5592407).
  split; [exact floorLog2_accurate|]. split; [by apply modest_int|]. do 2 (split; [by apply modest_freq_int|]). split.
  - rewrite !value_int by done. lra.
  - assert (H : ∀ f, bm25_term floorLog2 (mkBM25 (f32_of_Z 2) (f32_of_Z 1)) 1 1 f (f32_of_Z 1) (f32_div (f32_of_Z 1) (f32_of_Z 1)) =
      bm25_term (λ _, f64_of_Z 1) (mkBM25 (f32_of_Z 2) (f32_of_Z 1)) 1 1 f (f32_of_Z 1) (f32_div (f32_of_Z 1) (f32_of_Z 1))).
    { intros f. unfold bm25_term. replace (f64_add _ _) with (f64_of_Z 2) by (by vm_compute). by rewrite floorLog2_2. }
    unfold bm25_value. replace (f_eqb (f32_div (f32_of_Z 1) (f32_of_Z 1)) f_zero) with false by (by vm_compute).
    rewrite !filter_cons_True by (by vm_compute). rewrite !filter_nil, !fmap_cons. cbn [fst snd]. rewrite !H. by vm_compute.
Qed.
Print Assumptions C115_one_more_occurrence_refuted.

(** ** Examples *)
(** Two words in three documents: carried by 2 and by 3 of them; 5 and 1 occurrences against 4
    and 1, and a word carried by 1 against one carried by 2. *)
Example C115_ex_hypotheses : accurate_log2 floorLog2 ∧ modest (mkBM25 (f32_of_Z 2) (f32_of_Z 1)) ∧
  Forall (λ t, 1 <= fst t <= 3 ∧ modest_freq (snd t)) [(2, f32_of_Z 5); (3, f32_of_Z 1)] ∧
  at_least_as_frequent ((λ t, (fst t, value (snd t))) <$> [(2, f32_of_Z 5); (3, f32_of_Z 1)])
                       ((λ t, (fst t, value (snd t))) <$> [(2, f32_of_Z 4); (3, f32_of_Z 1)]) ∧
  at_least_as_rare ((λ t, (fst t, value (snd t))) <$> [(1, f32_of_Z 5); (3, f32_of_Z 1)])
                   ((λ t, (fst t, value (snd t))) <$> [(2, f32_of_Z 5); (3, f32_of_Z 1)]) ∧
  Exists (λ t, (0 < value (snd t))%R) [(2, f32_of_Z 5); (3, f32_of_Z 1)] ∧
  sensible (mkBM25 (f32_of_Z 2) (f32_of_Z 1)) 3 4.
Proof.
  split; [exact floorLog2_accurate|]. split; [by apply modest_int|]. split.
  { repeat (apply Forall_cons; split); try apply Forall_nil; try done; (split; [simpl; lia|by apply modest_freq_int]). }
  split. { rewrite !fmap_cons. cbn [fst snd]. repeat (apply Forall2_cons; split); try apply Forall2_nil; try done; cbn [fst snd];
    (split; [done|]); rewrite !value_int by done; lra. }
  split. { rewrite !fmap_cons. cbn [fst snd]. repeat (apply Forall2_cons; split); try apply Forall2_nil; try done; cbn [fst snd];
    (split; [lia|]); rewrite !value_int by done; (split; [done|lra]). }
  split. { apply Exists_cons_hd. cbn [fst snd]. rewrite value_int by done. lra. }
  unfold sensible. cbn [K1 B]. rewrite !value_int by done. repeat split; lra || lia.
Qed.
(** The float32 scores for lengths 2 and 6, average 4, with the parameters 2 and 1 (math.Log2
    standing for 1): 15/7 of the idf against less *)
Example C115_ex_lengths : f_ltb (bm25_term (λ _, f64_of_Z 1) (mkBM25 (f32_of_Z 2) (f32_of_Z 1)) 3 3 (f32_of_Z 5) (f32_of_Z 6) (f32_of_Z 4))
  (bm25_term (λ _, f64_of_Z 1) (mkBM25 (f32_of_Z 2) (f32_of_Z 1)) 3 3 (f32_of_Z 5) (f32_of_Z 2) (f32_of_Z 4)) = true.
Proof. by vm_compute. Qed.
