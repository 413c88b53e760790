(** Proofs for C115: what BM25 prefers. *)
From Coq Require Import Reals Lra Floats.SpecFloat.
From Flocq Require Import Core BinarySingleNaN.
From Verif Require Import ProofReal ProofReal32 ProofReal64.
From Verif Require Import ModelLookup SpecSearch SpecAccuracy SpecPrefers ProofAccuracy.

(** * The formula over the reals *)
Lemma ln_mono a b : (0 < a)%R → (a <= b)%R → (ln a <= ln b)%R.
Proof. intros Ha [Hab|Hab]; [apply Rlt_le, ln_increasing; assumption|rewrite Hab; lra]. Qed.
Lemma idf_pos N df : 0 < N → 0 < df → (0 < log2_of (IZR N / IZR df + 1))%R.
Proof.
  intros H1 H2. pose proof ln2_pos. assert (0 < IZR N / IZR df)%R by (apply Rdiv_lt_0_compat; apply IZR_lt; lia).
  apply Rdiv_lt_0_compat; [|lra]. rewrite <- ln_1. apply ln_increasing; lra.
Qed.
Lemma idf_anti N a b : 0 < N → 0 < a <= b → (log2_of (IZR N / IZR b + 1) <= log2_of (IZR N / IZR a + 1))%R.
Proof.
  intros HN Hab. pose proof ln2_pos. unfold log2_of. apply Rmult_le_compat_r; [apply Rlt_le, Rinv_0_lt_compat; lra|].
  assert (0 < IZR N)%R by (apply IZR_lt; lia). assert (0 < IZR a)%R by (apply IZR_lt; lia). assert (IZR a <= IZR b)%R by (apply IZR_le; lia).
  assert (0 < IZR N / IZR b)%R by (apply Rdiv_lt_0_compat; lra).
  apply ln_mono; [lra|]. apply Rplus_le_compat_r. unfold Rdiv. apply Rmult_le_compat_l; [lra|]. apply Rinv_le_contravar; lra.
Qed.
Lemma ratio_mono f g c : (0 <= f <= g)%R → (0 <= c)%R → (0 < f + c)%R → (f / (f + c) <= g / (g + c))%R.
Proof.
  intros Hf Hc Hp. apply (Rmult_le_reg_r (f + c)); [lra|]. apply (Rmult_le_reg_r (g + c)); [lra|].
  replace (f / (f + c) * (f + c) * (g + c))%R with (f * (g + c))%R by (field; lra).
  replace (g / (g + c) * (f + c) * (g + c))%R with (g * (f + c))%R by (field; lra). nra.
Qed.
Lemma norm_pos p N avg len : sensible p N avg → (0 <= len)%R → (0 <= value (K1 p) * (1 - value (B p) + value (B p) * len / avg))%R.
Proof.
  intros (H1 & H2 & H3 & H4) Hl. assert (0 <= value (B p) * len / avg)%R.
  { unfold Rdiv. apply Rmult_le_pos; [apply Rmult_le_pos; lra|apply Rlt_le, Rinv_0_lt_compat; lra]. }
  apply Rmult_le_pos; lra.
Qed.
Lemma term_split k1 b N df f len avg :
  exact_term k1 b N df f len avg = (log2_of (IZR N / IZR df + 1) * (k1 + 1) * (f / (f + k1 * (1 - b + b * len / avg))))%R.
Proof. unfold exact_term, Rdiv. ring. Qed.

Lemma exact_frequent p N avg len ts1 ts2 : sensible p N avg → (0 <= len)%R → Forall (λ t, 0 < fst t) ts1 →
  at_least_as_frequent ts1 ts2 → (exact_bm25 p N avg len ts2 <= exact_bm25 p N avg len ts1)%R.
Proof.
  intros Hs Hl Hp H. induction H as [|[n1 f1] [n2 f2] ts1 ts2 [Hn Hf] _ IH]; [apply Rle_refl|].
  apply Forall_cons in Hp as [Hp0 Hp]. cbn [fst snd] in *. subst n2. unfold exact_bm25 in *. rewrite !fmap_cons. cbn [foldr fst snd].
  apply Rplus_le_compat; [|by apply IH]. rewrite !term_split. pose proof (norm_pos p N avg len Hs Hl) as Hc.
  set (c := (value (K1 p) * _)%R) in *. destruct Hs as (H1 & H2 & H3 & H4). pose proof (idf_pos N n1 H3 Hp0).
  apply Rmult_le_compat_l; [apply Rmult_le_pos; lra|].
  destruct (Req_dec (f2 + c) 0) as [E|E].
  - assert (f2 = 0%R) by lra. assert (c = 0%R) by lra. subst f2. unfold Rdiv at 1. rewrite Rmult_0_l.
    unfold Rdiv. destruct (Req_dec f1 0) as [->|]; [lra|]. apply Rmult_le_pos; [lra|]. apply Rlt_le, Rinv_0_lt_compat. lra.
  - apply ratio_mono; lra.
Qed.
Lemma exact_rare p N avg len ts1 ts2 : sensible p N avg → (0 <= len)%R →
  at_least_as_rare ts1 ts2 → (exact_bm25 p N avg len ts2 <= exact_bm25 p N avg len ts1)%R.
Proof.
  intros Hs Hl H. induction H as [|[n1 f1] [n2 f2] ts1 ts2 (Hn & Hf & Hf0) _ IH]; [apply Rle_refl|].
  cbn [fst snd] in *. subst f2. unfold exact_bm25 in *. rewrite !fmap_cons. cbn [foldr fst snd].
  apply Rplus_le_compat; [|by apply IH]. rewrite !term_split. pose proof (norm_pos p N avg len Hs Hl) as Hc.
  set (c := (value (K1 p) * _)%R) in *. destruct Hs as (H1 & H2 & H3 & H4). pose proof (idf_anti N n1 n2 H3 Hn).
  apply Rmult_le_compat_r; [|apply Rmult_le_compat_r; lra].
  destruct (Req_dec f1 0) as [->|]; [unfold Rdiv; lra|]. unfold Rdiv. apply Rmult_le_pos; [lra|]. apply Rlt_le, Rinv_0_lt_compat. lra.
Qed.
Lemma exact_short p N avg len1 len2 ts : sensible p N avg → (0 <= len1 <= len2)%R → Forall (λ t, 0 < fst t ∧ (0 <= snd t)%R) ts →
  (exact_bm25 p N avg len2 ts <= exact_bm25 p N avg len1 ts)%R.
Proof.
  intros Hs Hl Ht. induction Ht as [|[n f] ts [Hn Hf] _ IH]; [apply Rle_refl|]. cbn [fst snd] in *. unfold exact_bm25 in *. rewrite !fmap_cons. cbn [foldr fst snd].
  apply Rplus_le_compat; [|by apply IH]. rewrite !term_split. pose proof (norm_pos p N avg len1 Hs ltac:(lra)) as Hc.
  destruct Hs as (H1 & H2 & H3 & H4). pose proof (idf_pos N n H3 Hn).
  assert (value (B p) * len1 / avg <= value (B p) * len2 / avg)%R.
  { unfold Rdiv. apply Rmult_le_compat_r; [apply Rlt_le, Rinv_0_lt_compat; lra|]. apply Rmult_le_compat_l; lra. }
  assert (value (K1 p) * (1 - value (B p) + value (B p) * len1 / avg) <= value (K1 p) * (1 - value (B p) + value (B p) * len2 / avg))%R
    by (apply Rmult_le_compat_l; lra).
  apply Rmult_le_compat_l; [apply Rmult_le_pos; lra|].
  destruct (Req_dec f 0) as [->|]; [unfold Rdiv; lra|]. unfold Rdiv. apply Rmult_le_compat_l; [lra|]. apply Rinv_le_contravar; lra.
Qed.

(** * In floating point *)
Lemma rnd_mono x y : (x <= y)%R → (rnd32 x <= rnd32 y)%R.
Proof. apply round_le; [apply (fexp_correct 24 128 prec24)|auto with typeclass_instances]. Qed.
Lemma rnd_pos x : (0 <= x)%R → (0 <= rnd32 x)%R.
Proof. intros H. rewrite <- (round_0 radix2 (SpecFloat.fexp 24 128) (round_mode mode_NE)). by apply rnd_mono. Qed.

(** Operations on numbers that stay in range *)
Lemma Fl_mul_eq k k' lo lo' hi hi' x y x' y' : Fl k lo hi x y -> Fl k' lo' hi' x' y' ->
  (Z.of_nat (k + k') < 2 ^ 22)%Z -> (-125 <= lo + lo')%Z -> (hi + hi' <= 120)%Z -> sfR (SFmul 24 128 x x') = rnd32 (sfR x * sfR x').
Proof.
  intros (O & N & L & H) (O' & N' & L' & H') Hk Hl Hh.
  assert (Hy : (0 <= y)%R) by apply N. assert (Hy' : (0 <= y')%R) by apply N'.
  assert (HL : (y * y' = 0)%R \/ (bpow radix2 (lo + lo') <= y * y')%R).
  { destruct L as [->|L]; [left; ring|]. destruct L' as [->|L']; [left; ring|]. right. rewrite bpow_plus.
    apply Rmult_le_compat; auto; apply bpow_ge_0. }
  assert (HH : (y * y' <= bpow radix2 (hi + hi'))%R) by (rewrite bpow_plus; now apply Rmult_le_compat).
  destruct (round_step (k + k') (lo + lo') (hi + hi') (sfR x * sfR x') (y * y')) as [B1 _]; auto.
  { apply near_mul; auto. apply eps_pos. }
  apply (mul_real 24 128 _ _ x x' O O' B1).
Qed.
Lemma Fl_div_eq k k' lo lo' hi hi' x y x' y' : Fl k lo hi x y -> Fl k' lo' hi' x' y' -> (0 < y')%R ->
  (Z.of_nat (k + k') < 2 ^ 22)%Z -> (-125 <= lo - hi')%Z -> (hi - lo' <= 120)%Z -> (0 < sfR x')%R ∧ sfR (SFdiv 24 128 x x') = rnd32 (sfR x / sfR x').
Proof.
  intros (O & N & L & H) (O' & N' & L' & H') P' Hk Hl Hh. assert (Hy : (0 <= y)%R) by apply N.
  assert (bpow radix2 lo' <= y')%R as L2 by (destruct L'; [lra|assumption]).
  assert (Q : (0 < / y')%R) by (now apply Rinv_0_lt_compat).
  assert (Q1 : (bpow radix2 (- hi') <= / y')%R) by (rewrite bpow_opp; now apply Rinv_le).
  assert (Q2 : (/ y' <= bpow radix2 (- lo'))%R) by (rewrite bpow_opp; apply Rinv_le; [apply bpow_gt_0|assumption]).
  assert (HL : (y / y' = 0)%R \/ (bpow radix2 (lo - hi') <= y / y')%R).
  { destruct L as [->|L]; [left; unfold Rdiv; ring|]. right. unfold Zminus, Rdiv. rewrite bpow_plus.
    apply Rmult_le_compat; auto; apply bpow_ge_0. }
  assert (HH : (y / y' <= bpow radix2 (hi - lo'))%R).
  { unfold Zminus, Rdiv. rewrite bpow_plus. apply Rmult_le_compat; auto. lra. }
  destruct (round_step (k + k') (lo - hi') (hi - lo') (sfR x / sfR x') (y / y')) as [B1 _]; auto.
  { apply near_div; auto. apply eps_pos. }
  pose proof (near_pos eps eps_pos _ _ _ N') as Np.
  assert (sfR x' ≠ 0)%R as N0.
  { intros E. destruct N' as (_ & _ & N'). rewrite E in N'. lra. }
  split; [lra|]. apply (div_real 24 128 _ _ x x' O O' N0 B1).
Qed.
Lemma Fl_add_eq k k' lo hi hi1 hi2 x y x' y' : Fl k lo hi1 x y -> Fl k' lo hi2 x' y' -> (y + y' <= bpow radix2 hi)%R ->
  (Z.of_nat (max k k') < 2 ^ 22)%Z -> (-125 <= lo)%Z -> (hi <= 120)%Z -> sfR (SFadd 24 128 x x') = rnd32 (sfR x + sfR x').
Proof.
  intros (O & N & L & H) (O' & N' & L' & H') HH Hk Hl Hh.
  assert (Hy : (0 <= y)%R) by apply N. assert (Hy' : (0 <= y')%R) by apply N'.
  assert (HL : (y + y' = 0)%R \/ (bpow radix2 lo <= y + y')%R).
  { destruct L as [->|L]; [|right; lra]. destruct L' as [->|L']; [left; ring|right; lra]. }
  destruct (round_step (max k k') lo hi (sfR x + sfR x') (y + y')) as [B1 _]; auto.
  { apply near_add; auto; eapply near_mono; [apply eps_pos| |eassumption|apply eps_pos| |eassumption]; lia. }
  apply (add_real 24 128 _ _ x x' O O' B1).
Qed.

(** One token, in terms of rounded real operations *)
Definition roundedTerm (idf k1 b onemb tf len avg : R) : R :=
  rnd32 (rnd32 (rnd32 (idf * tf) * rnd32 (k1 + 1)) /
         rnd32 (tf + rnd32 (k1 * rnd32 (onemb + rnd32 (rnd32 (b * len) / avg))))).
Lemma term_eq idf k1 b tf len avg lgv avgv lenv :
  Fl 2 0 5 idf lgv -> (1 <= lgv)%R ->
  Fl 0 (-20) 20 k1 (sfR k1) -> (0 < sfR k1)%R -> okf 24 128 b -> sfR b = 0%R \/ (bpow radix2 (-20) <= sfR b)%R -> (sfR b <= 1)%R ->
  Fl 0 (-20) 24 tf (sfR tf) -> (0 < sfR tf)%R -> Fl 0 0 24 len lenv -> Fl 1 (-24) 24 avg avgv -> (0 < avgv)%R ->
  let one := SpecFloat.binary_normalize 24 128 1 0 false in
  let num := SFmul 24 128 (SFmul 24 128 idf tf) (SFadd 24 128 k1 one) in
  let norm := SFadd 24 128 (SFsub 24 128 one b) (SFdiv 24 128 (SFmul 24 128 b len) avg) in
  sfR (SFdiv 24 128 num (SFadd 24 128 tf (SFmul 24 128 k1 norm))) =
    roundedTerm (sfR idf) (sfR k1) (sfR b) (sfR (SFsub 24 128 one b)) (sfR tf) (sfR len) (sfR avg) ∧
  (0 < sfR avg)%R ∧ (0 <= sfR idf)%R ∧ (0 <= sfR (SFsub 24 128 one b))%R.
Proof.
  intros Hidf Hlg Hk1 Pk1 Ob Lb Ub Htf Ptf Hlen Havg Pavg one num norm.
  assert (Hb0 : (0 <= sfR b)%R) by (destruct Lb as [->|Lb]; [lra|pose proof (bpow_gt_0 radix2 (-20)); lra]).
  assert (Hb : Fl 0 (-20) 0 b (sfR b)) by (apply Fl_exact; auto).
  assert (E1 : sfR one = 1%R) by apply (int_real 1 ltac:(lia)).
  assert (Hone : Fl 0 0 0 one 1).
  { destruct (int_real 1 ltac:(lia)) as [O1 E1']. rewrite <- E1'. apply Fl_exact; auto; rewrite E1'; [right|]; change (bpow radix2 0) with 1%R; lra. }
  assert (Hone' : Fl 0 (-20) 20 one 1) by (apply (Fl_weaken 0 0 0 (-20) 0 20 _ _ Hone); lia).
  assert (Hsum1 : Fl 1 (-20) 21 (SFadd 24 128 k1 one) (sfR k1 + 1)) by (apply (Fl_add 0 0 (-20) 20); try lia; assumption).
  assert (Q1 : sfR (SFadd 24 128 k1 one) = rnd32 (sfR k1 + 1)).
  { rewrite <- E1. eapply (Fl_add_eq 0 0 (-20) 21); [exact Hk1|exact Hone'|apply Hsum1|lia..]. }
  apply (Fl_lo _ _ 0) in Hsum1; [|change (bpow radix2 0) with 1%R; lra].
  assert (Hit : Fl 3 (-20) 29 (SFmul 24 128 idf tf) (lgv * sfR tf)) by (apply (Fl_mul 2 0 0 (-20) 5 24); auto; lia).
  assert (Q2 : sfR (SFmul 24 128 idf tf) = rnd32 (sfR idf * sfR tf)) by (eapply Fl_mul_eq; [exact Hidf|exact Htf|lia..]).
  assert (Hnum : Fl 5 (-20) 50 num (lgv * sfR tf * (sfR k1 + 1))) by (apply (Fl_mul 3 1 (-20) 0 29 21); auto; lia).
  assert (Q3 : sfR num = rnd32 (rnd32 (sfR idf * sfR tf) * rnd32 (sfR k1 + 1))).
  { rewrite <- Q1, <- Q2. eapply Fl_mul_eq; [exact Hit|exact Hsum1|lia..]. }
  assert (Hbl : Fl 1 (-20) 24 (SFmul 24 128 b len) (sfR b * lenv)) by (apply (Fl_mul 0 0 (-20) 0 0 24); auto; lia).
  assert (Q4 : sfR (SFmul 24 128 b len) = rnd32 (sfR b * sfR len)) by (eapply Fl_mul_eq; [exact Hb|exact Hlen|lia..]).
  assert (Hbla : Fl 3 (-44) 48 (SFdiv 24 128 (SFmul 24 128 b len) avg) (sfR b * lenv / avgv)).
  { apply (Fl_div 1 1 (-20) (-24) 24 24); auto; lia. }
  assert (Q5 : (0 < sfR avg)%R ∧ sfR (SFdiv 24 128 (SFmul 24 128 b len) avg) = rnd32 (rnd32 (sfR b * sfR len) / sfR avg)).
  { rewrite <- Q4. eapply Fl_div_eq; [exact Hbl|exact Havg|assumption|lia..]. }
  destruct Q5 as [Pav Q5].
  assert (Homb : Fl 1 (-24) 0 (SFsub 24 128 one b) (1 - sfR b)) by (apply Fl_one_minus; auto).
  assert (Homb' : Fl 1 (-44) 48 (SFsub 24 128 one b) (1 - sfR b)) by (apply (Fl_weaken 1 1 (-24) (-44) 0 48); try lia; exact Homb).
  assert (Hnorm : Fl 4 (-44) 49 norm (1 - sfR b + sfR b * lenv / avgv)) by (apply (Fl_add 1 3 (-44) 48); try lia; assumption).
  assert (Q6 : sfR norm = rnd32 (sfR (SFsub 24 128 one b) + rnd32 (rnd32 (sfR b * sfR len) / sfR avg))).
  { rewrite <- Q5. eapply (Fl_add_eq 1 3 (-44) 49); [exact Homb'|exact Hbla|apply Hnorm|lia..]. }
  assert (Hkn : Fl 5 (-64) 69 (SFmul 24 128 k1 norm) (sfR k1 * (1 - sfR b + sfR b * lenv / avgv))).
  { apply (Fl_mul 0 4 (-20) (-44) 20 49); auto; lia. }
  assert (Q7 : sfR (SFmul 24 128 k1 norm) = rnd32 (sfR k1 * sfR norm)) by (eapply Fl_mul_eq; [exact Hk1|exact Hnorm|lia..]).
  assert (Htf' : Fl 0 (-64) 69 tf (sfR tf)) by (apply (Fl_weaken 0 0 (-20) (-64) 24 69 _ _ Htf); lia).
  assert (Hden : Fl 6 (-64) 70 (SFadd 24 128 tf (SFmul 24 128 k1 norm)) (sfR tf + sfR k1 * (1 - sfR b + sfR b * lenv / avgv))).
  { apply (Fl_add 0 5 (-64) 69); try lia; assumption. }
  assert (Q8 : sfR (SFadd 24 128 tf (SFmul 24 128 k1 norm)) = rnd32 (sfR tf + sfR (SFmul 24 128 k1 norm))).
  { eapply (Fl_add_eq 0 5 (-64) 70); [exact Htf'|exact Hkn|apply Hden|lia..]. }
  pose proof (Fl_pos _ _ _ _ _ Hkn) as Pkn.
  apply (Fl_lo _ _ (-20)) in Hden.
  2: { destruct Htf as (_ & _ & [Htf|Htf] & _); lra. }
  split.
  - unfold roundedTerm. rewrite <- Q6, <- Q7, <- Q8, <- Q3.
    eapply (Fl_div_eq 5 6 (-20) (-20) 50 70); [exact Hnum|exact Hden|lra|lia..].
  - split; [exact Pav|]. destruct Hidf as (_ & Hi & _). destruct Homb as (_ & Ho & _).
    split; eapply near_pos; first [exact Hi|exact Ho|apply eps_pos].
Qed.

Lemma rounded_mono idf k1 b onemb tf len1 len2 avg : (0 <= idf)%R → (0 < k1)%R → (0 <= b)%R → (0 <= onemb)%R → (0 < tf)%R →
  rnd32 tf = tf → (0 <= len1 <= len2)%R → (0 < avg)%R →
  (roundedTerm idf k1 b onemb tf len2 avg <= roundedTerm idf k1 b onemb tf len1 avg)%R.
Proof.
  intros Hi Hk Hb Ho Ht Et Hl Ha. unfold roundedTerm.
  assert (0 < / avg)%R by (by apply Rinv_0_lt_compat).
  assert (M1 : (0 <= rnd32 (b * len1) <= rnd32 (b * len2))%R).
  { split; [apply rnd_pos; apply Rmult_le_pos; lra|]. apply rnd_mono. apply Rmult_le_compat_l; lra. }
  assert (M2 : (0 <= rnd32 (rnd32 (b * len1) / avg) <= rnd32 (rnd32 (b * len2) / avg))%R).
  { split; [apply rnd_pos; apply Rmult_le_pos; lra|]. apply rnd_mono. apply Rmult_le_compat_r; lra. }
  set (u1 := rnd32 (rnd32 (b * len1) / avg)) in *. set (u2 := rnd32 (rnd32 (b * len2) / avg)) in *.
  assert (M3 : (0 <= rnd32 (onemb + u1) <= rnd32 (onemb + u2))%R) by (split; [apply rnd_pos; lra|apply rnd_mono; lra]).
  set (v1 := rnd32 (onemb + u1)) in *. set (v2 := rnd32 (onemb + u2)) in *.
  assert (M4 : (0 <= rnd32 (k1 * v1) <= rnd32 (k1 * v2))%R).
  { split; [apply rnd_pos, Rmult_le_pos; lra|]. apply rnd_mono. apply Rmult_le_compat_l; lra. }
  set (w1 := rnd32 (k1 * v1)) in *. set (w2 := rnd32 (k1 * v2)) in *.
  assert (M5 : (0 < rnd32 (tf + w1) <= rnd32 (tf + w2))%R).
  { split; [|apply rnd_mono; lra]. apply (Rlt_le_trans _ tf); [lra|]. rewrite <- Et at 1. apply rnd_mono; lra. }
  apply rnd_mono. unfold Rdiv. apply Rmult_le_compat_l.
  - apply rnd_pos, Rmult_le_pos; apply rnd_pos; [apply Rmult_le_pos; lra|lra].
  - apply Rinv_le_contravar; lra.
Qed.

Lemma sum_mono (xs1 : list F) : ∀ xs2 ys1 ys2 (t : nat) a1 a2 y1 y2,
  List.Forall2 (Fl 12 (-90) 70) xs1 ys1 → List.Forall2 (Fl 12 (-90) 70) xs2 ys2 →
  Forall2 (λ x1 x2, (sfR x2 <= sfR x1)%R) xs1 xs2 →
  Z.of_nat t + Z.of_nat (length xs1) <= 2 ^ 20 →
  Fl (12 + t) (-90) 90 a1 y1 → (y1 <= INR t * bpow radix2 70)%R →
  Fl (12 + t) (-90) 90 a2 y2 → (y2 <= INR t * bpow radix2 70)%R → (sfR a2 <= sfR a1)%R →
  (sfR (fold_left (SFadd 24 128) xs2 a2) <= sfR (fold_left (SFadd 24 128) xs1 a1))%R.
Proof.
  assert (Hstep : ∀ t a ya x y, Z.of_nat t + 1 <= 2 ^ 20 → Fl (12 + t) (-90) 90 a ya → (ya <= INR t * bpow radix2 70)%R →
    Fl 12 (-90) 70 x y → Fl (12 + S t) (-90) 90 (SFadd 24 128 a x) (ya + y) ∧ (ya + y <= INR (S t) * bpow radix2 70)%R ∧
      sfR (SFadd 24 128 a x) = rnd32 (sfR a + sfR x)).
  { intros t a ya x y Ht Ha Hya Hx. assert (Hy : (y <= bpow radix2 70)%R) by apply Hx.
    assert (Hn : (ya + y <= INR (S t) * bpow radix2 70)%R) by (rewrite S_INR; lra).
    assert (Hb : (ya + y <= bpow radix2 90)%R).
    { apply (Rle_trans _ _ _ Hn). change (bpow radix2 90) with (bpow radix2 (20 + 70)). rewrite bpow_plus. apply Rmult_le_compat_r; [apply bpow_ge_0|].
      change (bpow radix2 20) with (IZR (2 ^ 20)). rewrite INR_IZR_INZ. apply IZR_le. lia. }
    split; [|split; [done|]].
    - replace (12 + S t)%nat with (S (max (12 + t) 12)) by lia. apply (Fl_add' _ _ _ _ _ _ _ _ _ _ Ha Hx); try done; lia.
    - eapply (Fl_add_eq _ _ _ _ _ _ _ _ _ _ Ha Hx); try done; lia. }
  induction xs1 as [|x1 xs1 IH]; intros [|x2 xs2] ys1 ys2 t a1 a2 y1 y2 H1 H2 H12 Ht Ha1 Hy1 Ha2 Hy2 Ha; try by inversion H12.
  inversion H1 as [|? z1 ? zs1 Hx1 H1']; subst. inversion H2 as [|? z2 ? zs2 Hx2 H2']; subst. apply Forall2_cons in H12 as [Hx H12].
  cbn [fold_left length] in *.
  destruct (Hstep t a1 y1 x1 z1 ltac:(lia) Ha1 Hy1 Hx1) as (A1 & B1 & C1).
  destruct (Hstep t a2 y2 x2 z2 ltac:(lia) Ha2 Hy2 Hx2) as (A2 & B2 & C2).
  eapply (IH xs2 zs1 zs2 (S t)); [done|done|done|lia|exact A1|exact B1|exact A2|exact B2|].
  rewrite C1, C2. apply rnd_mono. lra.
Qed.

Section Short.
  Context (log2 : F → F) (Hlog : accurate_log2 log2) (p : BM25Params) (Hp : modest p).
  Context (N : Z) (HN : 0 < N < 2 ^ 24) (L : Z) (HL : 0 < L < 2 ^ 24).
  Context (len1 len2 : Z) (Hlen : 0 <= len1 <= len2) (Hlen2 : len2 < 2 ^ 24).
  Notation avg := (f32_div (f32_of_Z L) (f32_of_Z N)).
  Notation avgR := (IZR L / IZR N)%R.

  Lemma term_short df f : 1 <= df <= N → modest_freq f → f_gtb f f_zero = true →
    (sfR (bm25_term log2 p N df f (f32_of_Z len2) avg) <= sfR (bm25_term log2 p N df f (f32_of_Z len1) avg))%R.
  Proof.
    intros Hdf (Vf & Nf & Lf & Uf) Hf.
    destruct Hp as [(V1 & N1 & L1 & U1) (V2 & N2 & L2 & U2)].
    rewrite !value_sfR in *. pose proof (okf_of _ _ _ V1 N1) as O1. pose proof (okf_of _ _ _ V2 N2) as O2. pose proof (okf_of _ _ _ Vf Nf) as Of.
    assert (Pf : (0 < sfR f)%R).
    { unfold f_gtb in Hf. rewrite (ltb_real 24 128) in Hf by done. change (sfR f_zero) with 0%R in Hf.
      revert Hf. case Rlt_bool_spec; intros H E; [exact H|discriminate E]. }
    assert (P20 : (0 < / IZR (2 ^ 20))%R) by (apply Rinv_0_lt_compat, IZR_lt; done).
    set (idf := f32_of_f64 (log2 (f64_add (f64_div (f64_of_Z N) (f64_of_Z df)) (f64_of_Z 1)))).
    assert (Hidf : Fl 2 0 5 idf (lg (IZR N / IZR df + 1))).
    { apply idf_real; [|lia..]. intros x [Hv Hf']%of_okf Hx. rewrite <- !value_sfR in *. destruct (Hlog x Hv Hf' Hx) as (A & A' & A'').
      split; [by apply okf_of|]. exact A''. }
    assert (Hlg : (1 <= lg (IZR N / IZR df + 1))%R).
    { apply lg_range. destruct (arg_real N df) as (_ & _ & H & _); [lia..|]. exact H. }
    assert (HK : Fl 0 (-20) 20 (K1 p) (sfR (K1 p))) by (apply Fl_exact; [done|right; exact L1|exact U1]).
    assert (HT : Fl 0 (-20) 24 f (sfR f)) by (apply Fl_exact; [done|exact Lf|exact Uf]).
    assert (HA := avg_real N HN L HL). assert (PA := avg_pos N HN L HL).
    assert (HI1 := Fl_int len1 ltac:(lia)). assert (HI2 := Fl_int len2 ltac:(lia)).
    destruct (term_eq idf (K1 p) (B p) f (f32_of_Z len1) avg _ _ _ Hidf Hlg HK ltac:(lra) O2 L2 U2 HT Pf HI1 HA PA) as (E1 & Pa & Pi & Po).
    destruct (term_eq idf (K1 p) (B p) f (f32_of_Z len2) avg _ _ _ Hidf Hlg HK ltac:(lra) O2 L2 U2 HT Pf HI2 HA PA) as (E2 & _).
    eapply Rle_trans; [apply Req_le; exact E2|]. eapply Rle_trans; [|apply Req_le; symmetry; exact E1].
    destruct (int_real len1 ltac:(lia)) as [_ Z1]. destruct (int_real len2 ltac:(lia)) as [_ Z2].
    assert (PB : (0 <= sfR (B p))%R) by (destruct L2 as [E0|L2']; lra).
    assert (Et : rnd32 (sfR f) = sfR f) by (apply round_generic; [auto with typeclass_instances|]; by apply okf_format).
    assert (Hl12 : (0 <= IZR len1 <= IZR len2)%R) by (split; apply IZR_le; lia).
    rewrite !f32_ofZ, Z1, Z2. apply rounded_mono; try assumption; lra.
  Qed.

  Theorem value_short (terms : list (Z * F)) : Forall (λ t, 1 <= fst t <= N ∧ modest_freq (snd t)) terms → zlen terms <= 2 ^ 20 →
    f_ltb (bm25_value log2 (Some p) N avg (f32_of_Z len1) terms) (bm25_value log2 (Some p) N avg (f32_of_Z len2) terms) = false.
  Proof.
    intros Ht Hlt.
    destruct (bm25_accurate log2 Hlog p Hp N HN L HL len1 ltac:(lia) terms Ht Hlt) as (V1 & A1 & _).
    destruct (bm25_accurate log2 Hlog p Hp N HN L HL len2 ltac:(lia) terms Ht Hlt) as (V2 & A2 & _).
    unfold f_ltb. rewrite (ltb_real 24 128) by (by apply okf_of). apply Rlt_bool_false.
    destruct (filter_terms log2 Hlog p Hp N HN L HL len1 ltac:(lia) terms Ht) as (ys1 & Hys1 & _).
    destruct (filter_terms log2 Hlog p Hp N HN L HL len2 ltac:(lia) terms Ht) as (ys2 & Hys2 & _).
    assert (Hfl : (length (filter (λ t : Z * F, f_gtb (snd t) f_zero = true) terms) <= length terms)%nat) by apply filter_length.
    unfold bm25_value. rewrite (avg_not_zero N HN L HL), !foldl_left. unfold zlen in Hlt.
    assert (Hz : Fl (12 + 0) (-90) 90 f_zero 0).
    { split; [by split|]. split; [apply near_refl; [apply eps_pos|apply Rle_refl]|]. split; [by left|apply bpow_ge_0]. }
    assert (Hz' : (0 <= INR 0 * bpow radix2 70)%R) by (rewrite Rmult_0_l; apply Rle_refl).
    eapply (sum_mono _ _ _ _ 0%nat); [exact Hys1|exact Hys2| |rewrite fmap_length; lia|exact Hz|exact Hz'|exact Hz|exact Hz'|apply Rle_refl].
    rewrite Forall2_fmap. apply Forall_Forall2_diag. apply Forall_forall. intros [df f] [Hf Hin]%elem_of_list_filter. rewrite Forall_forall in Ht.
    destruct (Ht _ Hin) as [Hdf Hmf]. by apply term_short.
  Qed.
End Short.

Lemma floats_hardly_below t x1 x2 y1 y2 : Z.of_nat t <= 2 ^ 20 → close t x1 y1 → close t x2 y2 → (y2 <= y1)%R → hardly_below t x2 x1.
Proof.
  intros Ht H1 H2 Hy. pose proof (close_pos _ _ _ H1) as P1. pose proof (close_pos _ _ _ H2) as P2. unfold close, hardly_below in *.
  apply Rabs_le_inv in H1. apply Rabs_le_inv in H2.
  change (IZR (2 ^ 22)) with 4194304%R in *. change (IZR (2 ^ 21)) with 2097152%R.
  assert (0 <= INR (12 + t) <= 2097152)%R as [Ha Hb].
  { split; [apply pos_INR|]. rewrite INR_IZR_INZ. apply IZR_le. lia. }
  set (a := (INR (12 + t) * / 4194304)%R) in *. replace (INR (12 + t) * / 2097152)%R with (2 * a)%R by (unfold a; lra).
  assert (0 <= a <= / 2)%R by (unfold a; lra). nra.
Qed.

Section Compare.
  Context (log2 : F → F) (Hlog : accurate_log2 log2) (p : BM25Params) (Hp : modest p).
  Context (N : Z) (HN : 0 < N < 2 ^ 24) (L : Z) (HL : 0 < L < 2 ^ 24) (len : Z) (Hlen : 0 <= len < 2 ^ 24).
  Notation avg := (f32_div (f32_of_Z L) (f32_of_Z N)).
  Notation score ts := (bm25_value log2 (Some p) N avg (f32_of_Z len) ts).
  Notation reals ts := ((λ t : Z * F, (fst t, value (snd t))) <$> ts).

  Lemma modest_sensible : sensible p N (IZR L / IZR N).
  Proof.
    destruct Hp as [(V1 & N1 & L1 & U1) (V2 & N2 & L2 & U2)].
    assert (P20 : (0 < / IZR (2 ^ 20))%R) by (apply Rinv_0_lt_compat, IZR_lt; done).
    split; [lra|]. split; [destruct L2; lra|]. split; [lia|]. apply Rdiv_lt_0_compat; apply IZR_lt; lia.
  Qed.
  Lemma len_pos : (0 <= IZR len)%R.
  Proof. apply IZR_le. lia. Qed.

  Theorem value_frequent ts1 ts2 : zlen ts1 <= 2 ^ 20 →
    Forall (λ t, 1 <= fst t <= N ∧ modest_freq (snd t)) ts1 → Forall (λ t, 1 <= fst t <= N ∧ modest_freq (snd t)) ts2 →
    at_least_as_frequent (reals ts1) (reals ts2) →
    hardly_below (length ts1) (value (score ts2)) (value (score ts1)).
  Proof.
    intros Hl H1 H2 Hf. assert (El : length ts1 = length ts2). { apply Forall2_length in Hf. by rewrite !fmap_length in Hf. }
    destruct (bm25_accurate log2 Hlog p Hp N HN L HL len Hlen ts1 H1 Hl) as (_ & _ & C1).
    destruct (bm25_accurate log2 Hlog p Hp N HN L HL len Hlen ts2 H2) as (_ & _ & C2); [unfold zlen in *; lia|].
    rewrite <- El in C2. eapply floats_hardly_below; [unfold zlen in Hl; lia|exact C1|exact C2|].
    apply exact_frequent; [apply modest_sensible|apply len_pos| |exact Hf].
    apply Forall_fmap. eapply Forall_impl; [exact H1|]. intros t [Ht _]. simpl. lia.
  Qed.
  Theorem value_rare ts1 ts2 : zlen ts1 <= 2 ^ 20 →
    Forall (λ t, 1 <= fst t <= N ∧ modest_freq (snd t)) ts1 → Forall (λ t, 1 <= fst t <= N ∧ modest_freq (snd t)) ts2 →
    at_least_as_rare (reals ts1) (reals ts2) →
    hardly_below (length ts1) (value (score ts2)) (value (score ts1)).
  Proof.
    intros Hl H1 H2 Hf. assert (El : length ts1 = length ts2). { apply Forall2_length in Hf. by rewrite !fmap_length in Hf. }
    destruct (bm25_accurate log2 Hlog p Hp N HN L HL len Hlen ts1 H1 Hl) as (_ & _ & C1).
    destruct (bm25_accurate log2 Hlog p Hp N HN L HL len Hlen ts2 H2) as (_ & _ & C2); [unfold zlen in *; lia|].
    rewrite <- El in C2. eapply floats_hardly_below; [unfold zlen in Hl; lia|exact C1|exact C2|].
    apply exact_rare; [apply modest_sensible|apply len_pos|exact Hf].
  Qed.
  Lemma exact_term_pos df f : 0 < df → (0 <= value f)%R →
    (0 <= exact_term (value (K1 p)) (value (B p)) N df (value f) (IZR len) (IZR L / IZR N))%R ∧
    ((0 < value f)%R → (0 < exact_term (value (K1 p)) (value (B p)) N df (value f) (IZR len) (IZR L / IZR N))%R).
  Proof.
    intros Hd Hf. rewrite term_split. pose proof (norm_pos p N _ (IZR len) modest_sensible len_pos) as Hc. set (c := (value (K1 p) * _)%R) in *.
    destruct modest_sensible as (H1 & _ & H3 & _). pose proof (idf_pos N df H3 Hd). 
    assert (0 < log2_of (IZR N / IZR df + 1) * (value (K1 p) + 1))%R by (apply Rmult_lt_0_compat; lra).
    assert ((0 < value f)%R → (0 < value f / (value f + c))%R) as H' by (intros; apply Rdiv_lt_0_compat; lra).
    split; [|intros; apply Rmult_lt_0_compat; auto].
    destruct Hf as [Hf|<-]; [apply Rlt_le, Rmult_lt_0_compat; auto|]. unfold Rdiv at 2. rewrite Rmult_0_l, Rmult_0_r. lra.
  Qed.
  Theorem value_positive ts : zlen ts <= 2 ^ 20 → Forall (λ t, 1 <= fst t <= N ∧ modest_freq (snd t)) ts →
    Exists (λ t, (0 < value (snd t))%R) ts → f_gtb (score ts) f_zero = true.
  Proof.
    intros Hl Ht He. destruct (bm25_accurate log2 Hlog p Hp N HN L HL len Hlen ts Ht Hl) as (V & A & C).
    assert (P20 : (0 < / IZR (2 ^ 20))%R) by (apply Rinv_0_lt_compat, IZR_lt; done).
    assert (0 < exact_bm25 p N (IZR L / IZR N) (IZR len) (reals ts))%R as Hy.
    { assert (Hall : Forall (λ t, 0 < fst t ∧ (0 <= value (snd t))%R) ts).
      { eapply Forall_impl; [exact Ht|]. intros t [H1 (_ & _ & [->|H2] & _)]; simpl; split; try lia; lra. }
      clear -Hall He Hp HN HL Hlen. unfold exact_bm25.
      assert (Hnn : ∀ ts, Forall (λ t, 0 < fst t ∧ (0 <= value (snd t))%R) ts → (0 <= foldr Rplus 0 ((λ t : Z * R, exact_term (value (K1 p)) (value (B p)) N (fst t) (snd t) (IZR len) (IZR L / IZR N)) <$> reals ts))%R).
      { clear -Hp HN HL Hlen. induction 1 as [|t ts [H1 H2] _ IH]; [apply Rle_refl|]. rewrite !fmap_cons. cbn [foldr fst snd].
        destruct (exact_term_pos (fst t) (snd t) H1 H2) as [H3 _]. lra. }
      induction He as [t ts Hp0|t ts _ IH]; apply Forall_cons in Hall as [[H1 H2] Hall]; rewrite !fmap_cons; cbn [foldr fst snd];
        destruct (exact_term_pos (fst t) (snd t) H1 H2) as [H3 H4].
      - pose proof (Hnn ts Hall). pose proof (H4 Hp0). lra.
      - pose proof (IH Hall). lra. }
    unfold f_gtb. rewrite (ltb_real 24 128) by first [by apply okf_of|by split]. apply Rlt_bool_true. change (sfR f_zero) with 0%R. rewrite <- value_sfR.
    unfold close in C. apply Rabs_le_inv in C. change (IZR (2 ^ 22)) with 4194304%R in C.
    assert (INR (12 + length ts) <= 2097152)%R. { rewrite INR_IZR_INZ. apply IZR_le. unfold zlen in Hl. lia. }
    set (y := exact_bm25 _ _ _ _ _) in *. nra.
  Qed.
End Compare.
