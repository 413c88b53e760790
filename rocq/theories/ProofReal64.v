(** The bm25 formula in float32, with the logarithm in float64, against the formula over the
    real numbers. *)
From Coq Require Import ZArith Reals Lra Lia List Floats.SpecFloat.
From Flocq Require Import Core BinarySingleNaN Relative.
From Verif Require Import ProofReal ProofReal32.
Local Open Scope R_scope.

Definition lg (v : R) : R := ln v / ln 2.
Definition d64 : R := / IZR (2 ^ 50).
Lemma d64_pos : 0 < d64.
Proof. unfold d64. apply Rinv_0_lt_compat, IZR_lt. reflexivity. Qed.
Lemma d64_val : d64 = / 1125899906842624.
Proof. reflexivity. Qed.

Lemma rnd64_err x : 1 <= x -> Rabs (rnd64 x - x) <= / 9007199254740992 * x.
Proof.
  intros Hx. assert (Rabs (rnd64 x - x) <= /2 * bpow radix2 (-53 + 1) * Rabs x) as H.
  { apply (relative_error_N_FLT radix2 (-1074) 53 eq_refl (fun x => negb (Z.even x))).
    rewrite Rabs_pos_eq by lra. apply (Rle_trans _ (bpow radix2 0)); [apply bpow_le; lia|exact Hx]. }
  rewrite (Rabs_pos_eq x) in H by lra. change (bpow radix2 (-53 + 1)) with (/ 4503599627370496) in H. lra.
Qed.
Lemma int_real64 n : (0 <= n < 2 ^ 53)%Z ->
  okf 53 1024 (SpecFloat.binary_normalize 53 1024 n 0 false) /\ sfR (SpecFloat.binary_normalize 53 1024 n 0 false) = IZR n.
Proof.
  intros Hn. assert (F2R (Float radix2 n 0) = IZR n) as E by (unfold F2R; simpl; ring).
  assert (rnd64 (IZR n) = IZR n) as Er.
  { apply round_generic; [auto with typeclass_instances|]. rewrite <- E. apply (generic_format_FLT radix2 (-1074) 53).
    apply (FLT_spec _ _ _ _ (Float radix2 n 0)); [reflexivity| |simpl; lia]. simpl. lia. }
  destruct (normalize_real 53 1024 _ _ n 0 false) as [H1 H2].
  { rewrite E, Er, Rabs_pos_eq by (apply IZR_le; lia). apply (Rlt_le_trans _ (IZR (2 ^ 53))); [apply IZR_lt; lia|].
    change (IZR (2 ^ 53)) with (bpow radix2 53). apply bpow_le. lia. }
  rewrite E, Er in H2. now split.
Qed.

(** The argument of the logarithm *)
Lemma arg_real N n : (1 <= n)%Z -> (n <= N)%Z -> (N < 2 ^ 24)%Z ->
  let s := SFadd 53 1024 (SFdiv 53 1024 (SpecFloat.binary_normalize 53 1024 N 0 false) (SpecFloat.binary_normalize 53 1024 n 0 false))
             (SpecFloat.binary_normalize 53 1024 1 0 false) in
  okf 53 1024 s /\ 2 <= sfR s /\ 2 <= IZR N / IZR n + 1 <= 33554432 /\
  sfR s <= (IZR N / IZR n + 1) * (1 + d64) /\ IZR N / IZR n + 1 <= sfR s * (1 + d64).
Proof.
  intros Hn HnN HN s. destruct (int_real64 N ltac:(lia)) as [ON EN]. destruct (int_real64 n ltac:(lia)) as [On En].
  destruct (int_real64 1 ltac:(lia)) as [O1 E1].
  assert (1 <= IZR n) by (apply IZR_le; lia). assert (IZR n <= IZR N) by (apply IZR_le; lia).
  assert (IZR N <= 16777216) by (apply IZR_le; lia).
  set (v := IZR N / IZR n). assert (v * IZR n = IZR N) as Ev by (unfold v; field; lra).
  assert (1 <= v) by nra. assert (v <= 16777216) by nra.
  assert (forall x, 1 <= x -> x <= 33554432 -> Rabs (rnd64 x) < bpow radix2 1024) as Hov.
  { intros x Hx1 Hx2. pose proof (rnd64_err x Hx1) as He. apply Rabs_le_inv in He. apply (Rlt_trans _ (bpow radix2 30)); [|apply bpow_lt; lia].
    change (bpow radix2 30) with 1073741824. apply Rabs_def1; lra. }
  assert (forall x m, (0 <= m < 2 ^ 53)%Z -> IZR m <= x -> IZR m <= rnd64 x) as Hge.
  { intros x m Hm Hx. destruct (int_real64 m Hm) as [Om Em]. rewrite <- Em. rewrite <- Em in Hx.
    apply round_ge_generic; [apply (fexp_correct 53 1024 prec53)|auto with typeclass_instances|apply (okf_format 53 1024 _ Om)|exact Hx]. }
  destruct (div_real 53 1024 _ _ _ _ ON On) as [Oq Eq].
  { rewrite En. lra. } { rewrite EN, En. apply Hov; fold v; lra. }
  rewrite EN, En in Eq. fold v in Eq. pose proof (rnd64_err v ltac:(lra)) as Hq. rewrite <- Eq in Hq. apply Rabs_le_inv in Hq.
  set (q := SFdiv 53 1024 _ _) in *. assert (1 <= sfR q) as Hq1 by (rewrite Eq; apply (Hge v 1%Z); [lia|lra]).
  destruct (add_real 53 1024 _ _ _ _ Oq O1) as [Os Es].
  { rewrite E1. apply Hov; lra. }
  rewrite E1 in Es. pose proof (rnd64_err (sfR q + 1) ltac:(lra)) as Hs. rewrite <- Es in Hs. apply Rabs_le_inv in Hs.
  assert (2 <= sfR s) as Hs2 by (unfold s; rewrite Es; apply (Hge (sfR q + 1) 2%Z); [lia|lra]).
  split; [exact Os|]. split; [exact Hs2|]. unfold s in *. rewrite d64_val. repeat split; lra.
Qed.

Lemma ln2_pos : / 2 < ln 2.
Proof. exact ln_lt_2. Qed.
Lemma ln_add_le d : 0 < d -> ln (1 + d) <= d.
Proof.
  intros Hd. rewrite <- (ln_exp d) at 2. apply Rlt_le, ln_increasing; [lra|]. apply exp_ineq1. lra.
Qed.
Lemma lg_close s w : 0 < s -> 2 <= w -> s <= w * (1 + d64) -> w <= s * (1 + d64) -> Rabs (lg s - lg w) <= 2 * d64.
Proof.
  intros Hs Hw H1 H2. pose proof d64_pos. pose proof ln2_pos. pose proof (ln_add_le d64 d64_pos) as Hl.
  assert (Hmono : forall x y, 0 < x -> x <= y -> ln x <= ln y).
  { intros x y Hx [Hxy|Hxy]; [apply Rlt_le, ln_increasing; assumption|rewrite Hxy; lra]. }
  assert (ln s <= ln w + d64) as A.
  { apply (Rle_trans _ (ln (w * (1 + d64)))); [apply Hmono; assumption|]. rewrite ln_mult by lra. lra. }
  assert (ln w <= ln s + d64) as A'.
  { apply (Rle_trans _ (ln (s * (1 + d64)))); [apply Hmono; lra|]. rewrite ln_mult by lra. lra. }
  unfold lg. replace (ln s / ln 2 - ln w / ln 2) with ((ln s - ln w) * / ln 2) by (field; lra).
  assert (0 < / ln 2) by (apply Rinv_0_lt_compat; lra).
  assert (/ ln 2 <= 2) by (apply (Rle_trans _ (/ / 2)); [apply Rinv_le_contravar; lra|lra]).
  rewrite Rabs_mult, (Rabs_pos_eq (/ ln 2)) by lra.
  assert (Rabs (ln s - ln w) <= d64) by (apply Rabs_le; lra). pose proof (Rabs_pos (ln s - ln w)). nra.
Qed.
Lemma lg_range w : 2 <= w <= 33554432 -> 1 <= lg w <= 32.
Proof.
  intros [H1 H2]. pose proof ln2_pos. unfold lg.
  assert (Hmono : forall x y, 0 < x -> x <= y -> ln x <= ln y).
  { intros x y Hx [Hxy|Hxy]; [apply Rlt_le, ln_increasing; assumption|rewrite Hxy; lra]. }
  assert (ln 2 <= ln w) by (apply Hmono; lra).
  assert (ln w <= 25 * ln 2) as Hu.
  { apply (Rle_trans _ (ln (2 ^ 25))); [apply Hmono; lra|]. rewrite ln_pow by lra. rewrite INR_IZR_INZ. simpl. lra. }
  split.
  - apply (Rmult_le_reg_r (ln 2)); [lra|]. replace (ln w / ln 2 * ln 2) with (ln w) by (field; lra). lra.
  - apply (Rmult_le_reg_r (ln 2)); [lra|]. replace (ln w / ln 2 * ln 2) with (ln w) by (field; lra). lra.
Qed.

(** float64 to float32 *)
Definition narrow (x : spec_float) : spec_float :=
  match x with S754_finite s m e => SpecFloat.binary_normalize 24 128 (if s then Zneg m else Zpos m) e s | _ => x end.
Lemma narrow_real x : okf 53 1024 x -> Rabs (rnd32 (sfR x)) < bpow radix2 128 -> okf 24 128 (narrow x) /\ sfR (narrow x) = rnd32 (sfR x).
Proof.
  intros [Hv Hf] Hb. destruct x as [s| | |s m e]; try easy.
  - cbn [narrow]. cbn [sfR SF2R] in *. rewrite round_0 by auto with typeclass_instances. repeat split.
  - cbn [narrow]. assert (sfR (S754_finite s m e) = F2R (Float radix2 (if s then Zneg m else Zpos m) e)) as E by (destruct s; reflexivity).
    rewrite E in *. apply (normalize_real 24 128 _ _ _ e s Hb).
Qed.

(** The inverse document frequency *)
Lemma idf_real (log2 : spec_float -> spec_float) N n :
  (forall x, okf 53 1024 x -> 2 <= sfR x <= IZR (2 ^ 64) ->
     okf 53 1024 (log2 x) /\ Rabs (sfR (log2 x) - lg (sfR x)) <= / IZR (2 ^ 40) * lg (sfR x)) ->
  (1 <= n)%Z -> (n <= N)%Z -> (N < 2 ^ 24)%Z ->
  Fl 2 0 5 (narrow (log2 (SFadd 53 1024 (SFdiv 53 1024 (SpecFloat.binary_normalize 53 1024 N 0 false)
     (SpecFloat.binary_normalize 53 1024 n 0 false)) (SpecFloat.binary_normalize 53 1024 1 0 false)))) (lg (IZR N / IZR n + 1)).
Proof.
  intros Hlog Hn HnN HN. destruct (arg_real N n Hn HnN HN) as (Os & Hs & Hw & H1 & H2).
  set (s := SFadd 53 1024 _ _) in *. set (w := IZR N / IZR n + 1) in *.
  pose proof (lg_range w Hw) as Hl. pose proof (lg_close (sfR s) w ltac:(lra) ltac:(lra) H1 H2) as Hc.
  destruct (Hlog s Os) as [Ol He].
  { split; [exact Hs|]. apply (Rle_trans _ (w * (1 + d64))); [exact H1|]. rewrite d64_val. change (IZR (2 ^ 64)) with 18446744073709551616. lra. }
  change (IZR (2 ^ 40)) with 1099511627776 in He. rewrite d64_val in Hc. apply Rabs_le_inv in Hc. apply Rabs_le_inv in He.
  assert (near32 1 (sfR (log2 s)) (lg w)) as Hn1.
  { unfold near. rewrite eps_val. cbn [pow]. repeat split; lra. }
  assert (lg w <= bpow radix2 5) by (change (bpow radix2 5) with 32; lra).
  assert (lg w = 0 \/ bpow radix2 0 <= lg w) by (right; change (bpow radix2 0) with 1; lra).
  destruct (round_step 1 0 5 (sfR (log2 s)) (lg w)) as [B1 B2]; auto; try lia.
  destruct (narrow_real (log2 s) Ol B1) as [O2 E2]. unfold Fl. rewrite E2. auto.
Qed.

(** The formula of one token *)
Definition termR (k1 b N df tf len avg : R) : R :=
  lg (N / df + 1) * tf * (k1 + 1) / (tf + k1 * (1 - b + b * len / avg)).

Lemma Fl_pos k lo hi x y : Fl k lo hi x y -> 0 <= y.
Proof. intros (_ & N & _). apply N. Qed.
Lemma Fl_lo k lo lo' hi x y : Fl k lo hi x y -> bpow radix2 lo' <= y -> Fl k lo' hi x y.
Proof. intros (H1 & H2 & H3 & H4) H. repeat split; try apply H1; auto; apply H2. Qed.

Lemma term_real idf k1 b tf len avg lgv avgv lenv :
  Fl 2 0 5 idf lgv -> 1 <= lgv ->
  Fl 0 (-20) 20 k1 (sfR k1) -> 0 < sfR k1 -> okf 24 128 b -> sfR b = 0 \/ bpow radix2 (-20) <= sfR b -> sfR b <= 1 ->
  Fl 0 (-20) 24 tf (sfR tf) -> 0 < sfR tf -> Fl 0 0 24 len lenv -> Fl 1 (-24) 24 avg avgv -> 0 < avgv ->
  let one := SpecFloat.binary_normalize 24 128 1 0 false in
  let num := SFmul 24 128 (SFmul 24 128 idf tf) (SFadd 24 128 k1 one) in
  let norm := SFadd 24 128 (SFsub 24 128 one b) (SFdiv 24 128 (SFmul 24 128 b len) avg) in
  Fl 12 (-90) 70 (SFdiv 24 128 num (SFadd 24 128 tf (SFmul 24 128 k1 norm)))
    (lgv * sfR tf * (sfR k1 + 1) / (sfR tf + sfR k1 * (1 - sfR b + sfR b * lenv / avgv))).
Proof.
  intros Hidf Hlg Hk1 Pk1 Ob Lb Ub Htf Ptf Hlen Havg Pavg one num norm.
  assert (Hb0 : 0 <= sfR b) by (destruct Lb as [->|Lb]; [lra|pose proof (bpow_gt_0 radix2 (-20)); lra]).
  assert (Hb : Fl 0 (-20) 0 b (sfR b)) by (apply Fl_exact; auto).
  assert (Hone : Fl 0 0 0 one 1).
  { destruct (int_real 1 ltac:(lia)) as [O1 E1]. rewrite <- E1. apply Fl_exact; auto; rewrite E1; [right|]; change (bpow radix2 0) with 1; lra. }
  assert (Hsum1 : Fl 1 (-20) 21 (SFadd 24 128 k1 one) (sfR k1 + 1)).
  { apply (Fl_add 0 0 (-20) 20); try lia; [assumption|]. apply (Fl_weaken 0 0 0 (-20) 0 20 _ _ Hone); lia. }
  apply (Fl_lo _ _ 0) in Hsum1; [|change (bpow radix2 0) with 1; lra].
  assert (Hit : Fl 3 (-20) 29 (SFmul 24 128 idf tf) (lgv * sfR tf)) by (apply (Fl_mul 2 0 0 (-20) 5 24); auto; lia).
  assert (Hnum : Fl 5 (-20) 50 num (lgv * sfR tf * (sfR k1 + 1))) by (apply (Fl_mul 3 1 (-20) 0 29 21); auto; lia).
  assert (Hbl : Fl 1 (-20) 24 (SFmul 24 128 b len) (sfR b * lenv)) by (apply (Fl_mul 0 0 (-20) 0 0 24); auto; lia).
  assert (Hbla : Fl 3 (-44) 48 (SFdiv 24 128 (SFmul 24 128 b len) avg) (sfR b * lenv / avgv)).
  { apply (Fl_div 1 1 (-20) (-24) 24 24); auto; lia. }
  assert (Hnorm : Fl 4 (-44) 49 norm (1 - sfR b + sfR b * lenv / avgv)).
  { apply (Fl_add 1 3 (-44) 48); try lia; [|assumption]. apply (Fl_weaken 1 1 (-24) (-44) 0 48); try lia. apply Fl_one_minus; auto. }
  assert (Hkn : Fl 5 (-64) 69 (SFmul 24 128 k1 norm) (sfR k1 * (1 - sfR b + sfR b * lenv / avgv))).
  { apply (Fl_mul 0 4 (-20) (-44) 20 49); auto; lia. }
  assert (Hden : Fl 6 (-64) 70 (SFadd 24 128 tf (SFmul 24 128 k1 norm)) (sfR tf + sfR k1 * (1 - sfR b + sfR b * lenv / avgv))).
  { apply (Fl_add 0 5 (-64) 69); try lia; [|assumption]. apply (Fl_weaken 0 0 (-20) (-64) 24 69 _ _ Htf); lia. }
  pose proof (Fl_pos _ _ _ _ _ Hkn) as Pkn.
  apply (Fl_lo _ _ (-20)) in Hden.
  2: { destruct Htf as (_ & _ & [Htf|Htf] & _); lra. }
  apply (Fl_div 5 6 (-20) (-20) 50 70); auto; try lia. lra.
Qed.

(** Sums *)
Lemma Fl_add' k k' lo hi hi1 hi2 x y x' y' : Fl k lo hi1 x y -> Fl k' lo hi2 x' y' -> y + y' <= bpow radix2 hi ->
  (Z.of_nat (max k k') < 2 ^ 22)%Z -> (-125 <= lo)%Z -> (hi <= 120)%Z ->
  Fl (S (max k k')) lo hi (SFadd 24 128 x x') (y + y').
Proof.
  intros (O & N & L & H) (O' & N' & L' & H') HH Hk Hl Hh.
  assert (Hy : 0 <= y) by apply N. assert (Hy' : 0 <= y') by apply N'.
  assert (HL : y + y' = 0 \/ bpow radix2 lo <= y + y').
  { destruct L as [->|L]; [|right; lra]. destruct L' as [->|L']; [left; ring|right; lra]. }
  destruct (round_step (max k k') lo hi (sfR x + sfR x') (y + y')) as [B1 B2]; auto.
  { apply near_add; auto; eapply near_mono; [apply eps_pos| |eassumption|apply eps_pos| |eassumption]; lia. }
  destruct (add_real 24 128 _ _ x x' O O' B1) as [O1 E1]. unfold Fl. rewrite E1. auto.
Qed.
Lemma sum_real (xs : list spec_float) (ys : list R) : Forall2 (Fl 12 (-90) 70) xs ys ->
  forall (t : nat) a ya, (Z.of_nat t + Z.of_nat (length xs) <= 2 ^ 20)%Z ->
    Fl (12 + t) (-90) 90 a ya -> ya <= INR t * bpow radix2 70 ->
    Fl (12 + t + length xs) (-90) 90 (fold_left (SFadd 24 128) xs a) (ya + fold_right Rplus 0 ys).
Proof.
  induction 1 as [|x y xs ys Hxy _ IH]; intros t a ya Ht Ha Hya; cbn [fold_left fold_right length] in *.
  - rewrite Nat.add_0_r, Rplus_0_r. exact Ha.
  - replace (12 + t + S (length xs))%nat with (12 + S t + length xs)%nat by lia. rewrite <- Rplus_assoc.
    assert (Hy : y <= bpow radix2 70) by apply Hxy.
    assert (Hn : ya + y <= INR (S t) * bpow radix2 70) by (rewrite S_INR; lra).
    apply IH; [lia| |exact Hn]. replace (12 + S t)%nat with (S (max (12 + t) 12)) by lia.
    apply (Fl_add' _ _ _ _ _ _ _ _ _ _ Ha Hxy); try lia. apply (Rle_trans _ _ _ Hn).
    change (bpow radix2 90) with (bpow radix2 (20 + 70)). rewrite bpow_plus. apply Rmult_le_compat_r; [apply bpow_ge_0|].
    change (bpow radix2 20) with (IZR (2 ^ 20)). rewrite INR_IZR_INZ. apply IZR_le. lia.
Qed.

Lemma near_err k x y : (Z.of_nat k <= 2 ^ 22)%Z -> near32 k x y -> Rabs (x - y) <= INR k * / IZR (2 ^ 22) * y.
Proof.
  intros Hk (Hy & H1 & H2). assert (INR k <= 4194304) by (rewrite INR_IZR_INZ; now apply IZR_le). pose proof (pos_INR k).
  assert ((1 + eps) ^ k <= 1 + INR k * / IZR (2 ^ 22)) as Hp.
  { apply (Rle_trans _ (1 + 2 * INR k * eps)); [apply pow_lin; rewrite eps_val; lra|]. rewrite eps_val. change (IZR (2 ^ 22)) with 4194304. lra. }
  set (a := INR k * / IZR (2 ^ 22)) in *. assert (0 <= a) by (unfold a; change (IZR (2 ^ 22)) with 4194304; lra).
  assert (0 <= x) by (apply (near_pos eps eps_pos k x y); repeat split; assumption).
  apply Rabs_le. split; [|nra].
  assert (y <= x * (1 + a)) by nra. nra.
Qed.
