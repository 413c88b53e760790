(** float32 arithmetic on integers below 2^24 is exact. *)
From Coq Require Import SpecFloat.
From Verif Require Import GoBase.

Lemma digits_log2 p : Zpos (digits2_pos p) = Z.log2 (Zpos p) + 1.
Proof.
  induction p as [p IH|p IH|]; cbn [digits2_pos].
  - rewrite Pos2Z.inj_succ, IH. change (Z.pos p~1) with (2 * Z.pos p + 1). rewrite Z.log2_succ_double by lia. lia.
  - rewrite Pos2Z.inj_succ, IH. change (Z.pos p~0) with (2 * Z.pos p). rewrite Z.log2_double by lia. lia.
  - done.
Qed.

Lemma Zdigits2_log2 n : 0 < n → Zdigits2 n = Z.log2 n + 1.
Proof. destruct n; try lia. intros _. apply digits_log2. Qed.

Lemma shift_pos_Z d m : Zpos (shift_pos d m) = Zpos m * 2 ^ Zpos d.
Proof. rewrite shift_pos_correct, Z.pow_pos_fold. lia. Qed.

Lemma iter_pos_nat {A} (f : A → A) (p : positive) (x : A) : SpecFloat.iter_pos f p x = Nat.iter (Pos.to_nat p) f x.
Proof.
  revert x. induction p as [p IH|p IH|]; intros x; cbn [SpecFloat.iter_pos].
  - rewrite !IH, Pos2Nat.inj_xI. rewrite <- Nat.iter_succ_r.
    replace (S (2 * Pos.to_nat p)) with (Pos.to_nat p + S (Pos.to_nat p))%nat by lia.
    clear. generalize (S (Pos.to_nat p)) as b. intros b. induction (Pos.to_nat p) as [|a IH]; [done|]. simpl. by rewrite IH.
  - rewrite !IH, Pos2Nat.inj_xO. replace (2 * Pos.to_nat p)%nat with (Pos.to_nat p + Pos.to_nat p)%nat by lia.
    clear. generalize (Pos.to_nat p) at 2 4 as b. intros b. induction (Pos.to_nat p) as [|a IH]; [done|]. simpl. by rewrite IH.
  - done.
Qed.

Lemma shr_exact k m : 0 < m →
  Nat.iter k shr_1 (Build_shr_record (m * 2 ^ Z.of_nat k) false false) = Build_shr_record m false false.
Proof.
  intros Hm. induction k as [|k IH]; [simpl; f_equal; lia|]. rewrite Nat.iter_succ_r.
  rewrite <- IH. f_equal. rewrite Nat2Z.inj_succ, Z.pow_succ_r by lia.
  assert (0 < m * 2 ^ Z.of_nat k) as Hp by (apply Z.mul_pos_pos; [done|apply Z.pow_pos_nonneg; lia]).
  replace (m * (2 * 2 ^ Z.of_nat k)) with (2 * (m * 2 ^ Z.of_nat k)) by lia.
  destruct (m * 2 ^ Z.of_nat k) as [|p|p]; [lia|done|lia].
Qed.

(** The float32 with value [n]. *)
Definition canon (n : Z) : F :=
  let D := Z.log2 n + 1 in
  match n * 2 ^ (24 - D) with Zpos p => S754_finite false p (D - 24) | _ => S754_nan end.

Lemma fexp_ok n : 1 <= n <= 24 → fexp 24 128 n = n - 24.
Proof. intros H. unfold fexp, emin. lia. Qed.

Lemma canon_form n : 0 < n < 2 ^ 24 →
  ∃ p, n * 2 ^ (24 - (Z.log2 n + 1)) = Zpos p ∧ canon n = S754_finite false p (Z.log2 n + 1 - 24) ∧
    1 <= Z.log2 n + 1 <= 24 ∧ Zdigits2 (Zpos p) = 24.
Proof.
  intros Hn. unfold canon. assert (HD : 0 <= Z.log2 n < 24).
  { split; [apply Z.log2_nonneg|]. apply Z.log2_lt_pow2; lia. }
  assert (0 < n * 2 ^ (24 - (Z.log2 n + 1))) as Hp.
  { apply Z.mul_pos_pos; [lia|]. apply Z.pow_pos_nonneg; lia. }
  destruct (n * 2 ^ (24 - (Z.log2 n + 1))) as [|p|p] eqn:E; [lia| |lia].
  exists p. split; [done|]. split; [done|]. split; [lia|]. rewrite <- E, Zdigits2_log2 by lia.
  rewrite Z.log2_mul_pow2 by lia. lia.
Qed.

(** Rounding a number that is already in canonical form. *)
Lemma round_canon n p k q :
  0 < n < 2 ^ 24 → n * 2 ^ (24 - (Z.log2 n + 1)) = Zpos p → 
  0 <= q → q - k = Z.log2 n + 1 - 24 →
  binary_round_aux 24 128 false (Zpos p * 2 ^ q) (- k) loc_Exact = canon n.
Proof.
  intros Hn Hp Hq Hk. destruct (canon_form n Hn) as (p' & Hp' & Hc & HD & Hdig). rewrite Hp in Hp'. injection Hp' as <-.
  unfold binary_round_aux, shr_fexp. cbn [shr_record_of_loc].
  assert (HP : 0 < Zpos p * 2 ^ q) by (apply Z.mul_pos_pos; [lia|apply Z.pow_pos_nonneg; lia]).
  rewrite (Zdigits2_log2 (Zpos p * 2 ^ q)) by done. rewrite Z.log2_mul_pow2 by lia.
  rewrite (Zdigits2_log2 (Zpos p)) in Hdig by done.
  rewrite fexp_ok by lia.
  assert (Hshr : shr {| shr_m := Zpos p * 2 ^ q; shr_r := false; shr_s := false |} (- k)
    (Z.log2 (Zpos p) + q + 1 + - k - 24 - - k) = (Build_shr_record (Zpos p) false false, Z.log2 n + 1 - 24)).
  { replace (Z.log2 (Zpos p) + q + 1 + - k - 24 - - k) with q by lia. unfold shr. destruct q as [|q|q]; [|..|lia].
    - rewrite Z.pow_0_r, Z.mul_1_r. f_equal. lia.
    - rewrite iter_pos_nat. rewrite <- (positive_nat_Z q), shr_exact by lia. f_equal. rewrite positive_nat_Z. lia. }
  replace (q + Z.log2 (Z.pos p)) with (Z.log2 (Z.pos p) + q) by lia. rewrite Hshr.
  cbn [loc_of_shr_record round_nearest_even shr_m shr_record_of_loc].
  rewrite (Zdigits2_log2 (Zpos p)) by done. rewrite fexp_ok by lia.
  replace (Z.log2 (Z.pos p) + 1 + (Z.log2 n + 1 - 24) - 24 - (Z.log2 n + 1 - 24)) with 0 by lia.
  cbn [shr shr_m]. destruct (Z.leb_spec (Z.log2 n + 1 - 24) (128 - 24)); [|lia]. done.
Qed.

Lemma norm_exact n k : 0 < n < 2 ^ 24 → 0 <= k →
  binary_normalize 24 128 (n * 2 ^ k) (- k) false = canon n.
Proof.
  intros Hn Hk. destruct (canon_form n Hn) as (p & Hp & Hc & HD & Hdig).
  assert (0 < n * 2 ^ k) as HP by (apply Z.mul_pos_pos; [lia|apply Z.pow_pos_nonneg; lia]).
  destruct (n * 2 ^ k) as [|m|m] eqn:Em; [lia| |lia]. cbn [binary_normalize]. unfold binary_round.
  rewrite digits_log2, <- Em. rewrite Z.log2_mul_pow2 by lia. rewrite fexp_ok by lia.
  unfold shl_align.
  destruct (k + Z.log2 n + 1 + - k - 24 - - k) as [|d|d] eqn:Ed.
  - replace (Zpos m) with (Zpos m * 2 ^ 0) by lia. apply (round_canon n m k 0); [done| |lia|lia].
    rewrite <- Em. f_equal. f_equal. lia.
  - assert (Zpos m = Zpos p * 2 ^ Zpos d) as ->.
    { rewrite <- Em, <- Hp. rewrite <- Z.mul_assoc, <- Z.pow_add_r by lia. f_equal. f_equal. lia. }
    apply (round_canon n p k (Zpos d)); [done|done|lia|lia].
  - replace (k + Z.log2 n + 1 + - k - 24) with (- (24 - (Z.log2 n + 1))) by lia.
    assert (Zpos (shift_pos d m) = Zpos p) as ->.
    { rewrite shift_pos_Z, <- Em, <- Hp. rewrite <- Z.mul_assoc, <- Z.pow_add_r by lia. f_equal. f_equal. lia. }
    replace (Zpos p) with (Zpos p * 2 ^ 0) by lia. apply round_canon; [done|done|lia|lia].
Qed.

Lemma f32_of_Z_canon n : 0 < n < 2 ^ 24 → f32_of_Z n = canon n.
Proof.
  intros Hn. rewrite <- (norm_exact n 0) by lia. unfold f32_of_Z. change (- 0) with 0. f_equal. lia.
Qed.

(** The aligned mantissa. *)
Lemma align n p e k : 0 < n < 2 ^ 24 → n * 2 ^ (24 - (Z.log2 n + 1)) = Zpos p →
  e = Z.log2 n + 1 - 24 → - k <= e → 0 <= k → Zpos (fst (shl_align p e (- k))) = n * 2 ^ k.
Proof.
  intros Hn Hp -> Hk Hk0. destruct (canon_form n Hn) as (_ & _ & _ & HD & _).
  unfold shl_align. destruct (- k - (Z.log2 n + 1 - 24)) as [|d|d] eqn:Ed; cbn [fst].
  - rewrite <- Hp. f_equal. f_equal. lia.
  - lia.
  - rewrite shift_pos_Z, <- Hp. rewrite <- Z.mul_assoc, <- Z.pow_add_r by lia. f_equal. f_equal. lia.
Qed.

Lemma f32_of_Z_0 : f32_of_Z 0 = S754_zero false.
Proof. done. Qed.

Lemma f32_add_exact a b : 0 <= a → 0 <= b → a + b < 2 ^ 24 →
  f32_add (f32_of_Z a) (f32_of_Z b) = f32_of_Z (a + b).
Proof.
  intros Ha Hb Hab. destruct (Z.eq_dec a 0) as [->|Ha0].
  { rewrite f32_of_Z_0, Z.add_0_l. destruct (Z.eq_dec b 0) as [->|Hb0]; [done|].
    rewrite f32_of_Z_canon by lia. destruct (canon_form b) as (p & _ & -> & _); [lia|]. done. }
  destruct (Z.eq_dec b 0) as [->|Hb0].
  { rewrite f32_of_Z_0, Z.add_0_r.
    rewrite f32_of_Z_canon by lia. destruct (canon_form a) as (p & _ & -> & _); [lia|]. done. }
  rewrite !f32_of_Z_canon by lia.
  destruct (canon_form a) as (p & Hp & -> & HDa & _); [lia|].
  destruct (canon_form b) as (q & Hq & -> & HDb & _); [lia|].
  unfold f32_add, SFadd. cbn [cond_Zopp].
  set (k := - Z.min (Z.log2 a + 1 - 24) (Z.log2 b + 1 - 24)).
  replace (Z.min (Z.log2 a + 1 - 24) (Z.log2 b + 1 - 24)) with (- k) by lia.
  rewrite (align a p _ k), (align b q _ k); try lia; try done.
  rewrite <- Z.mul_add_distr_r. apply norm_exact; lia.
Qed.

Lemma f32_sub_exact a b : 0 <= b <= a → a < 2 ^ 24 →
  f32_sub (f32_of_Z a) (f32_of_Z b) = f32_of_Z (a - b).
Proof.
  intros Hb Ha. destruct (Z.eq_dec b 0) as [->|Hb0].
  { rewrite f32_of_Z_0, Z.sub_0_r. destruct (Z.eq_dec a 0) as [->|Ha0]; [done|].
    rewrite f32_of_Z_canon by lia. destruct (canon_form a) as (p & _ & -> & _); [lia|]. done. }
  rewrite (f32_of_Z_canon a), (f32_of_Z_canon b) by lia.
  destruct (canon_form a) as (p & Hp & -> & HDa & _); [lia|].
  destruct (canon_form b) as (q & Hq & -> & HDb & _); [lia|].
  unfold f32_sub, SFsub. cbn [cond_Zopp].
  set (k := - Z.min (Z.log2 a + 1 - 24) (Z.log2 b + 1 - 24)).
  replace (Z.min (Z.log2 a + 1 - 24) (Z.log2 b + 1 - 24)) with (- k) by lia.
  rewrite (align a p _ k), (align b q _ k); try lia; try done.
  rewrite <- Z.mul_sub_distr_r. destruct (Z.eq_dec a b) as [->|Hne].
  - rewrite Z.sub_diag. done.
  - rewrite f32_of_Z_canon by lia. apply norm_exact; lia.
Qed.

Lemma f32_eqb_zero n : 0 <= n < 2 ^ 24 → f_eqb (f32_of_Z n) f_zero = (n =? 0).
Proof.
  intros Hn. destruct (Z.eqb_spec n 0) as [->|Hne]; [done|].
  rewrite f32_of_Z_canon by lia. destruct (canon_form n) as (p & _ & -> & _); [lia|]. done.
Qed.

Lemma f32_of_Z_inj_le a b : 0 <= b <= a → a < 2 ^ 24 → f32_of_Z a = f32_of_Z b → a = b.
Proof.
  intros Hb Ha E. assert (f32_of_Z (a - b) = f32_of_Z 0) as H.
  { rewrite <- f32_sub_exact, E, f32_sub_exact by lia. f_equal. lia. }
  assert (f_eqb (f32_of_Z (a - b)) f_zero = true) as H1 by (rewrite H; done).
  rewrite f32_eqb_zero in H1 by lia. apply Z.eqb_eq in H1. lia.
Qed.

Lemma f32_of_Z_inj a b : 0 <= a < 2 ^ 24 → 0 <= b < 2 ^ 24 → f32_of_Z a = f32_of_Z b → a = b.
Proof.
  intros Ha Hb E. destruct (Z.le_ge_cases a b).
  - symmetry. apply f32_of_Z_inj_le; [lia|lia|done].
  - apply f32_of_Z_inj_le; [lia|lia|done].
Qed.
