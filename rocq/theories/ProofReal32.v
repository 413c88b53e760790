(** float32 computations with non-negative numbers: how near the results are to the exact ones. *)
From Coq Require Import ZArith Reals Lra Lia Floats.SpecFloat.
From Flocq Require Import Core BinarySingleNaN Relative.
From Verif Require Import ProofReal.
Local Open Scope R_scope.

#[global] Instance prec24 : Prec_gt_0 24 := eq_refl.
#[global] Instance max24 : Prec_lt_emax 24 128 := eq_refl.
#[global] Instance prec53 : Prec_gt_0 53 := eq_refl.
#[global] Instance max53 : Prec_lt_emax 53 1024 := eq_refl.
Notation rnd32 := (round radix2 (SpecFloat.fexp 24 128) (round_mode mode_NE)).
Notation rnd64 := (round radix2 (SpecFloat.fexp 53 1024) (round_mode mode_NE)).

Definition eps : R := / IZR (2 ^ 23).
Lemma eps_pos : 0 < eps.
Proof. unfold eps. apply Rinv_0_lt_compat, IZR_lt. reflexivity. Qed.
Lemma eps_val : eps = / 8388608.
Proof. reflexivity. Qed.

Notation near32 := (near eps).

Lemma pow_lin k : 2 * INR k * eps <= 1 -> (1 + eps) ^ k <= 1 + 2 * INR k * eps.
Proof.
  pose proof eps_pos. induction k as [|k IH]; intros Hk; [simpl; lra|]. rewrite S_INR in *. cbn [pow].
  pose proof (pos_INR k). assert (2 * INR k * eps <= 1) by nra. specialize (IH H1).
  assert (0 <= INR k * eps) by nra. assert (2 * INR k * eps * eps <= eps) by nra.
  apply (Rle_trans _ ((1 + eps) * (1 + 2 * INR k * eps))); [|nra]. apply Rmult_le_compat_l; lra.
Qed.
Lemma pow_two k : (Z.of_nat k <= 2 ^ 22)%Z -> (1 + eps) ^ k <= 2.
Proof.
  intros Hk. assert (INR k <= 4194304) by (rewrite INR_IZR_INZ; now apply IZR_le). rewrite eps_val in *. pose proof (pos_INR k).
  apply (Rle_trans _ (1 + 2 * INR k * / 8388608)); [|lra]. apply pow_lin. rewrite eps_val. lra.
Qed.

Lemma rnd32_near x : 0 <= x -> x = 0 \/ bpow radix2 (-126) <= x -> near32 1 (rnd32 x) x.
Proof.
  intros Hx [->|Hl].
  - rewrite round_0 by (auto with typeclass_instances). apply near_refl; [apply eps_pos|lra].
  - assert (Rabs (rnd32 x - x) <= /2 * bpow radix2 (-24 + 1) * Rabs x) as H.
    { apply (relative_error_N_FLT radix2 (-149) 24 eq_refl (fun x => negb (Z.even x))). rewrite Rabs_pos_eq by assumption. exact Hl. }
    rewrite (Rabs_pos_eq x) in H by assumption. change (bpow radix2 (-24 + 1)) with eps in H. rewrite eps_val in H. apply Rabs_le_inv in H.
    unfold near. rewrite eps_val. cbn [pow]. repeat split; lra.
Qed.

(** [v] is computed for the exact value [z], which is zero or between 2^lo and 2^hi. *)
Lemma round_step K lo hi v z : (Z.of_nat K < 2 ^ 22)%Z -> near32 K v z -> z = 0 \/ bpow radix2 lo <= z -> z <= bpow radix2 hi ->
  (-125 <= lo)%Z -> (hi <= 120)%Z -> Rabs (rnd32 v) < bpow radix2 128 /\ near32 (S K) (rnd32 v) z.
Proof.
  intros HK Hn Hlo Hhi Hl Hh. pose proof (near_pos _ eps_pos _ _ _ Hn) as Hv. pose proof (pow_two K ltac:(lia)) as H2.
  assert (near32 1 (rnd32 v) v) as H1.
  { apply rnd32_near; [assumption|]. destruct Hn as (Hn1 & Hn2 & Hn3). destruct Hlo as [->|Hlo]; [left; nra|]. right.
    assert (z <= v * 2) by nra. assert (bpow radix2 (lo - 1) * 2 = bpow radix2 lo) as Hb.
    { change 2 with (bpow radix2 1). rewrite <- bpow_plus. f_equal. lia. }
    assert (bpow radix2 (-126) <= bpow radix2 (lo - 1)) by (apply bpow_le; lia). nra. }
  assert (near32 (S K) (rnd32 v) z) as Hn' by (change (S K) with (1 + K)%nat; now apply (near_trans eps eps_pos 1 K _ v)).
  split; [|assumption]. pose proof (near_pos _ eps_pos _ _ _ Hn') as Hp. rewrite Rabs_pos_eq by assumption.
  destruct Hn' as (_ & Hu & _). pose proof (pow_two (S K) ltac:(lia)). pose proof (pow_ge1 eps eps_pos (S K)).
  apply (Rle_lt_trans _ (bpow radix2 hi * 2)); [|].
  - destruct Hn as (Hz & _). nra.
  - replace (bpow radix2 hi * 2) with (bpow radix2 (hi + 1)) by (rewrite bpow_plus; reflexivity). apply bpow_lt. lia.
Qed.

(** A float32 near to the exact value [y] *)
Definition Fl (k : nat) (lo hi : Z) (x : spec_float) (y : R) : Prop :=
  okf 24 128 x /\ near32 k (sfR x) y /\ (y = 0 \/ bpow radix2 lo <= y) /\ y <= bpow radix2 hi.

Lemma Fl_mul k k' lo lo' hi hi' x y x' y' : Fl k lo hi x y -> Fl k' lo' hi' x' y' ->
  (Z.of_nat (k + k') < 2 ^ 22)%Z -> (-125 <= lo + lo')%Z -> (hi + hi' <= 120)%Z ->
  Fl (S (k + k')) (lo + lo') (hi + hi') (SFmul 24 128 x x') (y * y').
Proof.
  intros (O & N & L & H) (O' & N' & L' & H') Hk Hl Hh.
  assert (Hy : 0 <= y) by apply N. assert (Hy' : 0 <= y') by apply N'.
  assert (HL : y * y' = 0 \/ bpow radix2 (lo + lo') <= y * y').
  { destruct L as [->|L]; [left; ring|]. destruct L' as [->|L']; [left; ring|]. right. rewrite bpow_plus.
    apply Rmult_le_compat; auto; apply bpow_ge_0. }
  assert (HH : y * y' <= bpow radix2 (hi + hi')) by (rewrite bpow_plus; now apply Rmult_le_compat).
  destruct (round_step (k + k') (lo + lo') (hi + hi') (sfR x * sfR x') (y * y')) as [B1 B2]; auto.
  { apply near_mul; auto. apply eps_pos. }
  destruct (mul_real 24 128 _ _ x x' O O' B1) as [O1 E1]. unfold Fl. rewrite E1. auto.
Qed.
Lemma Fl_div k k' lo lo' hi hi' x y x' y' : Fl k lo hi x y -> Fl k' lo' hi' x' y' -> 0 < y' ->
  (Z.of_nat (k + k') < 2 ^ 22)%Z -> (-125 <= lo - hi')%Z -> (hi - lo' <= 120)%Z ->
  Fl (S (k + k')) (lo - hi') (hi - lo') (SFdiv 24 128 x x') (y / y').
Proof.
  intros (O & N & L & H) (O' & N' & L' & H') P' Hk Hl Hh. assert (Hy : 0 <= y) by apply N.
  assert (bpow radix2 lo' <= y') as L2 by (destruct L'; [lra|assumption]).
  assert (Q : 0 < / y') by (now apply Rinv_0_lt_compat).
  assert (Q1 : bpow radix2 (- hi') <= / y') by (rewrite bpow_opp; now apply Rinv_le).
  assert (Q2 : / y' <= bpow radix2 (- lo')) by (rewrite bpow_opp; apply Rinv_le; [apply bpow_gt_0|assumption]).
  assert (HL : y / y' = 0 \/ bpow radix2 (lo - hi') <= y / y').
  { destruct L as [->|L]; [left; unfold Rdiv; ring|]. right. unfold Zminus, Rdiv. rewrite bpow_plus.
    apply Rmult_le_compat; auto; apply bpow_ge_0. }
  assert (HH : y / y' <= bpow radix2 (hi - lo')).
  { unfold Zminus, Rdiv. rewrite bpow_plus. apply Rmult_le_compat; auto. lra. }
  destruct (round_step (k + k') (lo - hi') (hi - lo') (sfR x / sfR x') (y / y')) as [B1 B2]; auto.
  { apply near_div; auto. apply eps_pos. }
  assert (sfR x' <> 0) as N0.
  { intros E. destruct N' as (_ & _ & N'). rewrite E in N'. lra. }
  destruct (div_real 24 128 _ _ x x' O O' N0 B1) as [O1 E1]. unfold Fl. rewrite E1. auto.
Qed.
Lemma Fl_add k k' lo hi x y x' y' : Fl k lo hi x y -> Fl k' lo hi x' y' ->
  (Z.of_nat (max k k') < 2 ^ 22)%Z -> (-125 <= lo)%Z -> (hi + 1 <= 120)%Z ->
  Fl (S (max k k')) lo (hi + 1) (SFadd 24 128 x x') (y + y').
Proof.
  intros (O & N & L & H) (O' & N' & L' & H') Hk Hl Hh.
  assert (Hy : 0 <= y) by apply N. assert (Hy' : 0 <= y') by apply N'.
  assert (HL : y + y' = 0 \/ bpow radix2 lo <= y + y').
  { destruct L as [->|L]; [|right; lra]. destruct L' as [->|L']; [left; ring|right; lra]. }
  assert (HH : y + y' <= bpow radix2 (hi + 1)) by (rewrite bpow_plus; change (bpow radix2 1) with 2; lra).
  destruct (round_step (max k k') lo (hi + 1) (sfR x + sfR x') (y + y')) as [B1 B2]; auto.
  { apply near_add; auto; eapply near_mono; [apply eps_pos| |eassumption|apply eps_pos| |eassumption]; lia. }
  destruct (add_real 24 128 _ _ x x' O O' B1) as [O1 E1]. unfold Fl. rewrite E1. auto.
Qed.
Lemma Fl_weaken k k' lo lo' hi hi' x y : Fl k lo hi x y -> (k <= k')%nat -> (lo' <= lo)%Z -> (hi <= hi')%Z -> Fl k' lo' hi' x y.
Proof.
  intros (O & N & L & H) Hk Hl Hh. split; [assumption|]. split; [eapply near_mono; eauto; apply eps_pos|].
  assert (bpow radix2 lo' <= bpow radix2 lo) by (now apply bpow_le). assert (bpow radix2 hi <= bpow radix2 hi') by (now apply bpow_le).
  split; [destruct L; [now left|right; lra]|lra].
Qed.

(** Whole numbers below 2^24 are exact. *)
Lemma int_real n : (0 <= n < 2 ^ 24)%Z ->
  okf 24 128 (SpecFloat.binary_normalize 24 128 n 0 false) /\ sfR (SpecFloat.binary_normalize 24 128 n 0 false) = IZR n.
Proof.
  intros Hn. assert (F2R (Float radix2 n 0) = IZR n) as E by (unfold F2R; simpl; ring).
  assert (rnd32 (IZR n) = IZR n) as Er.
  { apply round_generic; [auto with typeclass_instances|]. rewrite <- E. apply (generic_format_FLT radix2 (-149) 24).
    apply (FLT_spec _ _ _ _ (Float radix2 n 0)); [reflexivity| |simpl; lia]. simpl. lia. }
  destruct (normalize_real 24 128 _ _ n 0 false) as [H1 H2].
  { rewrite E, Er, Rabs_pos_eq by (apply IZR_le; lia). apply (Rlt_le_trans _ (IZR (2 ^ 24))); [apply IZR_lt; lia|].
    change (IZR (2 ^ 24)) with (bpow radix2 24). apply bpow_le. lia. }
  rewrite E, Er in H2. now split.
Qed.
Lemma Fl_int n : (0 <= n < 2 ^ 24)%Z -> Fl 0 0 24 (SpecFloat.binary_normalize 24 128 n 0 false) (IZR n).
Proof.
  intros Hn. destruct (int_real n Hn) as [H1 H2]. split; [assumption|]. rewrite H2. split; [apply near_refl; [apply eps_pos|apply IZR_le; lia]|].
  split.
  - destruct (Z.eq_dec n 0) as [->|H]; [now left|]. right. change (bpow radix2 0) with 1. apply IZR_le. lia.
  - change (bpow radix2 24) with (IZR (2 ^ 24)). apply IZR_le. lia.
Qed.
Lemma Fl_exact lo hi x : okf 24 128 x -> sfR x = 0 \/ bpow radix2 lo <= sfR x -> sfR x <= bpow radix2 hi -> Fl 0 lo hi x (sfR x).
Proof.
  intros H1 H2 H3. split; [assumption|]. split; [apply near_refl; [apply eps_pos|]|now split].
  destruct H2 as [->|H2]; [lra|]. pose proof (bpow_gt_0 radix2 lo). lra.
Qed.

(** 1 - b for a float32 b from 0 to 1 *)
Lemma Fl_one_minus b : okf 24 128 b -> 0 <= sfR b <= 1 ->
  Fl 1 (-24) 0 (SFsub 24 128 (SpecFloat.binary_normalize 24 128 1 0 false) b) (1 - sfR b).
Proof.
  intros Ob [H0 H1]. destruct (int_real 1 ltac:(lia)) as [O1 E1].
  assert (HL : 1 - sfR b = 0 \/ bpow radix2 (-24) <= 1 - sfR b).
  { destruct H1 as [H1|H1]; [right|left; lra].
    assert (sfR b <= pred radix2 (FLT_exp (-149) 24) 1) as Hp.
    { apply pred_ge_gt; auto with typeclass_instances.
      - apply (okf_format 24 128 _ Ob).
      - rewrite <- E1. apply (okf_format 24 128 _ O1). }
    change (pred radix2 (FLT_exp (-149) 24) 1) with (pred radix2 (FLT_exp (-149) 24) (bpow radix2 0)) in Hp. rewrite pred_bpow in Hp.
    change (FLT_exp (-149) 24 0) with (-24)%Z in Hp. change (bpow radix2 0) with 1 in Hp. lra. }
  destruct (round_step 0 (-24) 0 (sfR (SpecFloat.binary_normalize 24 128 1 0 false) - sfR b) (1 - sfR b)) as [B1 B2]; auto; try lia.
  { rewrite E1. apply near_refl; [apply eps_pos|lra]. }
  { change (bpow radix2 0) with 1. lra. }
  destruct (sub_real 24 128 _ _ _ b O1 Ob B1) as [O2 E2]. split; [assumption|]. rewrite E2. split; [assumption|]. split; [assumption|].
  change (bpow radix2 0) with 1. lra.
Qed.
