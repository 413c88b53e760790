(** Theorems about BM25 in floating point. *)
From Coq Require Import Reals Lra Floats.SpecFloat.
From Verif Require Import ModelLookup ModelPipe ModelEngine ModelFlight ModelScoring ModelStart SpecIndexer SpecSearch SpecRank SpecRoute SpecPipe SpecEngine SpecFlight SpecEnd
  SpecBM25 SpecScored SpecAccuracy ProofAccuracy ProofIxThms ExampleTools PropPipe PropEnd PropScored.

(** * C114: the scores and the order of an answer are those of BM25 *)

(** The value computed is the formula over the real numbers up to a relative error of
    (12 + t) 2^-22 for t tokens. [L] is the sum of the lengths of the [N] documents. *)
Theorem C114_value_is_bm25 log2 p N L len terms : accurate_log2 log2 → modest p →
  0 < N < 2 ^ 24 → 0 < L < 2 ^ 24 → 0 <= len < 2 ^ 24 →
  Forall (λ t, 1 <= fst t <= N ∧ modest_freq (snd t)) terms → zlen terms <= 2 ^ 20 →
  let x := bm25_value log2 (Some p) N (f32_div (f32_of_Z L) (f32_of_Z N)) (f32_of_Z len) terms in
  valid_binary 24 128 x = true ∧ a_number x ∧
  close (length terms) (value x) (exact_bm25 p N (IZR L / IZR N) (IZR len) ((λ t, (fst t, value (snd t))) <$> terms)).
Proof. intros Hlog Hp HN HL Hlen. exact (bm25_accurate log2 Hlog p Hp N HN L HL len Hlen terms). Qed.
Print Assumptions C114_value_is_bm25.

(** What the indexer tells the scoring function about a document. *)
Theorem C114_lookup_is_bm25 log2 o p total D tokens d x :
  accurate_log2 log2 → BM25Parameters o = Some p → modest p → IndexType o = LocsIndex ∨ IndexType o = FrequenciesIndex →
  modest_docs (IndexType o) D → total_length total D → d ∈ D → zlen tokens <= 2 ^ 20 →
  describes log2 o total D tokens d x →
  ∃ kws, hit_kws d tokens kws ∧ valid_binary 24 128 (BM25 x) = true ∧ a_number (BM25 x) ∧
    close (length tokens) (value (BM25 x)) (exact_score (IndexType o) p D tokens d kws).
Proof. exact (described_score log2 o p total D tokens d x). Qed.
Print Assumptions C114_lookup_is_bm25.

(** Searches of the whole engine, after the calls have been carried out. *)
Theorem C114_search_ranks_by_bm25 murmur n only reqsFirst cap sortDocs sortBy o s0 nseg progs s shards log2 req order p :
  1 <= n < 2^32 → valid_sort sortDocs → valid_sortBy sortBy → Init o = Some s0 →
  pipe_reach murmur n only reqsFirst cap nseg progs s → quiescent s → once_each (ordinary (mjoin progs)) →
  engine_shards sortDocs s0 only n s shards → Forall nothing_waits shards →
  plain_request o req → ScoringCriteria (rqOpts req) = RankByBM25 → zlen (rqTokens req) <= 2 ^ 20 →
  IndexType o = LocsIndex ∨ IndexType o = FrequenciesIndex → BM25Parameters o = Some p → modest p → accurate_log2 log2 →
  (∀ i, 0 <= i < n → shard_docs murmur n i (ordinary (mjoin progs)) ≠ [] → modest_docs (IndexType o) (shard_docs murmur n i (ordinary (mjoin progs)))) →
  all_arrive (length shards) order →
  ∃ full out, Search log2 sortBy req shards order = Some (mkResp (rqTokens req) false (zlen full) (Some out)) ∧
    answers_scored log2 o murmur n only (ordinary (mjoin progs)) (shard_total shards) req full out ∧
    ranked_by_bm25 (IndexType o) p murmur n (ordinary (mjoin progs)) req out.
Proof. exact (search_ranked murmur n only reqsFirst cap sortDocs sortBy o s0 nseg progs s shards log2 req order p). Qed.
Print Assumptions C114_search_ranks_by_bm25.

(** The same for any number of searches at the same time *)
Theorem C114_searches_rank_by_bm25 murmur n only reqsFirst cap sortDocs sortBy o s0 nseg progs s shards log2 nn ccap
    clients tl tr ls fs a req t0 p :
  1 <= n < 2^32 → valid_sort sortDocs → valid_sortBy sortBy → Init o = Some s0 →
  pipe_reach murmur n only reqsFirst cap nseg progs s → quiescent s → once_each (ordinary (mjoin progs)) →
  engine_shards sortDocs s0 only n s shards → Forall nothing_waits shards →
  frun log2 sortBy nn ccap ls (fInit nn clients tl tr shards) = Some fs → Forall read_only ls → length shards = nn →
  a ∈ fAnswers fs → fReqs fs !! faSearch a = Some (req, t0) →
  plain_request o req → ScoringCriteria (rqOpts req) = RankByBM25 → zlen (rqTokens req) <= 2 ^ 20 →
  IndexType o = LocsIndex ∨ IndexType o = FrequenciesIndex → BM25Parameters o = Some p → modest p → accurate_log2 log2 →
  (∀ i, 0 <= i < n → shard_docs murmur n i (ordinary (mjoin progs)) ≠ [] → modest_docs (IndexType o) (shard_docs murmur n i (ordinary (mjoin progs)))) →
  ∃ full out, faResp a = mkResp (rqTokens req) false (zlen full) (Some out) ∧
    answers_scored log2 o murmur n only (ordinary (mjoin progs)) (shard_total shards) req full out ∧
    ranked_by_bm25 (IndexType o) p murmur n (ordinary (mjoin progs)) req out.
Proof.
  exact (flight_ranked murmur n only reqsFirst cap sortDocs sortBy o s0 nseg progs s shards log2 nn ccap clients tl tr ls fs a req t0 p).
Qed.
Print Assumptions C114_searches_rank_by_bm25.

(** A claim one might make: the better of two documents has the larger score. It is false by
    rounding: with the parameters K1 = 2, B = 1 and a million occurrences, one more is lost. *)
Theorem C114_strict_order_refuted : ∃ log2 p N L len f1 f2, accurate_log2 log2 ∧ modest p ∧ modest_freq f1 ∧ modest_freq f2 ∧
  (exact_bm25 p N (IZR L / IZR N) (IZR len) [(1%Z, value f1)] < exact_bm25 p N (IZR L / IZR N) (IZR len) [(1%Z, value f2)])%R ∧
  bm25_value log2 (Some p) N (f32_div (f32_of_Z L) (f32_of_Z N)) (f32_of_Z len) [(1, f1)] =
  bm25_value log2 (Some p) N (f32_div (f32_of_Z L) (f32_of_Z N)) (f32_of_Z len) [(1, f2)].
Proof.
  exists floorLog2, (mkBM25 (f32_of_Z 2) (f32_of_Z 1)), 1, 1, 1, (f32_of_Z 1000000), (f32_of_Z 1000001).
  split; [exact floorLog2_accurate|]. split; [by apply modest_int|]. do 2 (split; [by apply modest_freq_int|]). split.
  - unfold exact_bm25. rewrite !fmap_cons. cbn [foldr fst snd fmap list_fmap K1 B]. unfold exact_term.
    rewrite !value_int by done. replace (1 / 1 + 1)%R with 2%R by lra. rewrite log2_of_2. lra.
  - assert (H : ∀ f, bm25_term floorLog2 (mkBM25 (f32_of_Z 2) (f32_of_Z 1)) 1 1 f (f32_of_Z 1) (f32_div (f32_of_Z 1) (f32_of_Z 1)) =
      bm25_term (λ _, f64_of_Z 1) (mkBM25 (f32_of_Z 2) (f32_of_Z 1)) 1 1 f (f32_of_Z 1) (f32_div (f32_of_Z 1) (f32_of_Z 1))).
    { intros f. unfold bm25_term. replace (f64_add _ _) with (f64_of_Z 2) by (by vm_compute). by rewrite floorLog2_2. }
    unfold bm25_value. replace (f_eqb (f32_div (f32_of_Z 1) (f32_of_Z 1)) f_zero) with false by (by vm_compute).
    rewrite !filter_cons_True by (by vm_compute). rewrite !filter_nil, !fmap_cons. cbn [fst snd]. rewrite !H. by vm_compute.
Qed.
Print Assumptions C114_strict_order_refuted.

(** ** Examples *)
(** The default parameters are modest. *)
Example C114_ex_defaults : modest (mkBM25 f32_2 f32_075).
Proof.
  assert (H20 : (/ IZR (2 ^ 20) <= / 2)%R) by (apply Rinv_le_contravar; [lra|]; by apply IZR_le).
  split; split; try done; (split; [done|]); cbn [K1 B].
  - unfold f32_2. rewrite value_int by done. split; [lra|by apply IZR_le].
  - replace (value f32_075) with (3 / 4)%R; [lra|]. replace f32_075 with (S754_finite false 12582912 (-24)) by (by vm_compute).
    unfold value. cbn [powerRZ]. rewrite <- (Rpower_pow (Pos.to_nat 24)) by lra. replace (Rpower 2 (INR (Pos.to_nat 24))) with 16777216%R; [lra|].
    rewrite Rpower_pow by lra. change (Pos.to_nat 24) with 24%nat. lra.
Qed.
(** The formula for a document of the length 3, the only one of its shard, with 2 places of the
    word: log2 (2) * 2 * 3 / (2 + 2 * 1) = 3/2. *)
Example C114_ex_value : exact_bm25 (mkBM25 (f32_of_Z 2) (f32_of_Z 1)) 1 3 3 [(1, 2%R)] = (3 / 2)%R ∧
  value (bmOf 1 3 2 3) = (3 / 2)%R.
Proof.
  split.
  - unfold exact_bm25. rewrite fmap_cons. cbn [foldr fst snd fmap list_fmap K1 B]. unfold exact_term.
    rewrite !value_int by done. replace (1 / 1 + 1)%R with 2%R by lra. rewrite log2_of_2. lra.
  - replace (bmOf 1 3 2 3) with (S754_finite false 12582912 (-23)) by (by vm_compute).
    unfold value. cbn [powerRZ]. change (Pos.to_nat 23) with 23%nat. lra.
Qed.
(** The documents of C78 and the request for "x": all hypotheses of the last theorem. *)
Example C114_ex_search : ∃ log2 s0 s shards p, Init (optsF 2) = Some s0 ∧ accurate_log2 log2 ∧
  pipe_reach hashAB 2 false true PropPipe.cap1 1 endProgs s ∧ quiescent s ∧ once_each (ordinary (mjoin endProgs)) ∧
  engine_shards stableSort s0 false 2 s shards ∧ Forall nothing_waits shards ∧
  plain_request (optsF 2) bmReq ∧ zlen (rqTokens bmReq) <= 2 ^ 20 ∧ BM25Parameters (optsF 2) = Some p ∧ modest p ∧
  (∀ i, 0 <= i < 2 → shard_docs hashAB 2 i (ordinary (mjoin endProgs)) ≠ [] →
     modest_docs (IndexType (optsF 2)) (shard_docs hashAB 2 i (ordinary (mjoin endProgs)))) ∧
  (shard_docs hashAB 2 0 (mjoin endProgs), shard_docs hashAB 2 1 (mjoin endProgs)) = ([docA], [docC; docB]).
Proof.
  destruct C100_case as (s0 & s & shards & EI & Hr & Hq & Ho & He & Hw & _ & Hrq & _ & _ & Hd & _).
  exists floorLog2, s0, s, shards, (mkBM25 (f32_of_Z 2) (f32_of_Z 1)). split; [done|]. split; [exact floorLog2_accurate|].
  do 6 (split; [done|]). split; [done|]. split; [done|]. split; [by apply modest_int|]. split; [|done].
  intros i Hi _. assert (∃ D, shard_docs hashAB 2 i (ordinary (mjoin endProgs)) = D ∧ (D = [docA] ∨ D = [docC; docB])) as (D & -> & HD).
  { assert (i = 0 ∨ i = 1) as [->| ->] by lia; eexists; (split; [by vm_compute|]); [by left|by right]. }
  assert (Hsub : ∀ d, d ∈ D → d ∈ [docA; docC; docB]).
  { intros d Hin. destruct HD as [->| ->]; [|by right]. apply elem_of_list_singleton in Hin as ->. by left. }
  split; [by destruct HD as [->| ->]|]. split.
  - exists zlAB. split; [|destruct HD as [->| ->]; by vm_compute]. intros d Hin%Hsub. revert d Hin. apply Forall_forall. repeat constructor; by vm_compute.
  - intros d kw Hin%Hsub Hkw. change (IndexType (optsF 2) =? LocsIndex) with false. cbv iota.
    revert kw Hkw. apply Forall_forall. revert d Hin. apply Forall_forall.
    repeat (apply Forall_cons; split); try (by apply Forall_nil); cbn [Frequency kw docA docB docC]; by apply modest_freq_int.
Qed.
