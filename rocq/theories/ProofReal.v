(** Floating-point operations as operations on real numbers (with Flocq). *)
From Coq Require Import ZArith Reals Lra Lia Floats.SpecFloat.
From Flocq Require Import Core BinarySingleNaN Relative.
Local Open Scope R_scope.

(** A float that is a number *)
Definition finite_sf (x : spec_float) : bool :=
  match x with S754_zero _ | S754_finite _ _ _ => true | _ => false end.
Definition sfR (x : spec_float) : R := SF2R radix2 x.

Section Ops.
  Context (prec emax : Z) (Hprec : Prec_gt_0 prec) (Hmax : Prec_lt_emax prec emax).
  Notation fexp := (SpecFloat.fexp prec emax).
  Notation rnd := (round radix2 (SpecFloat.fexp prec emax) (round_mode mode_NE)).
  Definition okf (x : spec_float) : Prop := valid_binary prec emax x = true /\ finite_sf x = true.

  Lemma rne_equiv s m l : round_nearest_even m l = choice_mode mode_NE s m l.
  Proof. case l; [reflexivity|intro c]. case c; [ | reflexivity..]. now simpl; unfold Round.cond_incr; case Z.even. Qed.
  Lemma round_aux_equiv sx mx ex lx :
    SpecFloat.binary_round_aux prec emax sx mx ex lx = binary_round_aux prec emax mode_NE sx mx ex lx.
  Proof.
    unfold SpecFloat.binary_round_aux, binary_round_aux. set (mrse' := shr_fexp _ _ _). case mrse'; intros mrs' e'; simpl.
    now rewrite (rne_equiv sx).
  Qed.
  Lemma round_equiv s m e : SpecFloat.binary_round prec emax s m e = binary_round prec emax mode_NE s m e.
  Proof.
    unfold SpecFloat.binary_round, binary_round, shl_align_fexp. set (mez := shl_align _ _ _); case mez as [mz ez]. apply round_aux_equiv.
  Qed.
  Lemma normalize_equiv m e szero :
    SpecFloat.binary_normalize prec emax m e szero = B2SF (binary_normalize prec emax Hprec Hmax mode_NE m e szero).
  Proof.
    case m as [ | p | p]; [now simpl|..]; simpl; rewrite B2SF_SF2B; apply round_equiv.
  Qed.
  Lemma mul_equiv (x y : binary_float prec emax) : SFmul prec emax (B2SF x) (B2SF y) = B2SF (Bmult mode_NE x y).
  Proof.
    case x as [sx|sx| |sx mx ex Bx]; case y as [sy|sy| |sy my ey By]; [now trivial.. | ]. simpl. rewrite B2SF_SF2B. apply round_aux_equiv.
  Qed.
  Lemma add_equiv (x y : binary_float prec emax) : SFadd prec emax (B2SF x) (B2SF y) = B2SF (Bplus mode_NE x y).
  Proof.
    case x as [sx|sx| |sx mx ex Bx]; case y as [sy|sy| |sy my ey By]; [now (trivial || simpl; case Bool.eqb).. | ]. apply normalize_equiv.
  Qed.
  Lemma sub_equiv (x y : binary_float prec emax) : SFsub prec emax (B2SF x) (B2SF y) = B2SF (Bminus mode_NE x y).
  Proof.
    case x as [sx|sx| |sx mx ex Bx]; case y as [sy|sy| |sy my ey By]; [now (trivial || simpl; case Bool.eqb).. | ].
    simpl. unfold Zminus. rewrite <- cond_Zopp_negb. apply normalize_equiv.
  Qed.
  Lemma div_equiv (x y : binary_float prec emax) : SFdiv prec emax (B2SF x) (B2SF y) = B2SF (Bdiv mode_NE x y).
  Proof.
    case x as [sx|sx| |sx mx ex Bx]; case y as [sy|sy| |sy my ey By]; [now (trivial || simpl; case Bool.eqb).. | ].
    simpl. rewrite B2SF_SF2B. set (melz := SFdiv_core_binary _ _ _ _ _ _). case melz as [[mz ez] lz]. apply round_aux_equiv.
  Qed.

  Lemma okf_B x : okf x -> exists X : binary_float prec emax, x = B2SF X /\ is_finite X = true.
  Proof.
    intros [Hv Hf]. exists (SF2B x Hv). rewrite B2SF_SF2B. split; [reflexivity|]. rewrite is_finite_SF2B. now destruct x.
  Qed.
  Lemma B_okf (X : binary_float prec emax) : is_finite X = true -> okf (B2SF X).
  Proof. intros H. split; [apply valid_binary_B2SF|]. now destruct X. Qed.
  Lemma okf_format x : okf x -> generic_format radix2 fexp (sfR x).
  Proof. intros H. destruct (okf_B x H) as (X & -> & _). unfold sfR. rewrite SF2R_B2SF. apply generic_format_B2R. Qed.

  Lemma mul_real x y : okf x -> okf y -> Rabs (rnd (sfR x * sfR y)) < bpow radix2 emax ->
    okf (SFmul prec emax x y) /\ sfR (SFmul prec emax x y) = rnd (sfR x * sfR y).
  Proof.
    intros Hx Hy Hb. destruct (okf_B x Hx) as (X & -> & FX). destruct (okf_B y Hy) as (Y & -> & FY).
    rewrite mul_equiv. unfold sfR in *. rewrite !SF2R_B2SF in *. pose proof (Bmult_correct prec emax _ _ mode_NE X Y) as H.
    rewrite Rlt_bool_true in H by exact Hb. destruct H as (H1 & H2 & _). rewrite FX, FY in H2. split; [now apply B_okf|exact H1].
  Qed.
  Lemma add_real x y : okf x -> okf y -> Rabs (rnd (sfR x + sfR y)) < bpow radix2 emax ->
    okf (SFadd prec emax x y) /\ sfR (SFadd prec emax x y) = rnd (sfR x + sfR y).
  Proof.
    intros Hx Hy Hb. destruct (okf_B x Hx) as (X & -> & FX). destruct (okf_B y Hy) as (Y & -> & FY).
    rewrite add_equiv. unfold sfR in *. rewrite !SF2R_B2SF in *. pose proof (Bplus_correct prec emax _ _ mode_NE X Y FX FY) as H.
    rewrite Rlt_bool_true in H by exact Hb. destruct H as (H1 & H2 & _). split; [now apply B_okf|exact H1].
  Qed.
  Lemma sub_real x y : okf x -> okf y -> Rabs (rnd (sfR x - sfR y)) < bpow radix2 emax ->
    okf (SFsub prec emax x y) /\ sfR (SFsub prec emax x y) = rnd (sfR x - sfR y).
  Proof.
    intros Hx Hy Hb. destruct (okf_B x Hx) as (X & -> & FX). destruct (okf_B y Hy) as (Y & -> & FY).
    rewrite sub_equiv. unfold sfR in *. rewrite !SF2R_B2SF in *. pose proof (Bminus_correct prec emax _ _ mode_NE X Y FX FY) as H.
    rewrite Rlt_bool_true in H by exact Hb. destruct H as (H1 & H2 & _). split; [now apply B_okf|exact H1].
  Qed.
  Lemma div_real x y : okf x -> okf y -> sfR y <> 0 -> Rabs (rnd (sfR x / sfR y)) < bpow radix2 emax ->
    okf (SFdiv prec emax x y) /\ sfR (SFdiv prec emax x y) = rnd (sfR x / sfR y).
  Proof.
    intros Hx Hy H0 Hb. destruct (okf_B x Hx) as (X & -> & FX). destruct (okf_B y Hy) as (Y & -> & FY).
    rewrite div_equiv. unfold sfR in *. rewrite !SF2R_B2SF in *. pose proof (Bdiv_correct prec emax _ _ mode_NE X Y H0) as H.
    rewrite Rlt_bool_true in H by exact Hb. destruct H as (H1 & H2 & _). rewrite FX in H2. split; [now apply B_okf|exact H1].
  Qed.
  Lemma normalize_real m e s : Rabs (rnd (F2R (Float radix2 m e))) < bpow radix2 emax ->
    okf (SpecFloat.binary_normalize prec emax m e s) /\
    sfR (SpecFloat.binary_normalize prec emax m e s) = rnd (F2R (Float radix2 m e)).
  Proof.
    intros Hb. rewrite normalize_equiv. pose proof (binary_normalize_correct prec emax _ _ mode_NE m e s) as H. cbv zeta in H.
    rewrite Rlt_bool_true in H by exact Hb. destruct H as (H1 & H2 & _). unfold sfR. rewrite SF2R_B2SF. split; [now apply B_okf|exact H1].
  Qed.
  Lemma ltb_real x y : okf x -> okf y -> SFltb x y = Rlt_bool (sfR x) (sfR y).
  Proof.
    intros Hx Hy. destruct (okf_B x Hx) as (X & -> & FX). destruct (okf_B y Hy) as (Y & -> & FY).
    unfold sfR. rewrite !SF2R_B2SF. change (SFltb (B2SF X) (B2SF Y)) with (Bltb X Y). now apply Bltb_correct.
  Qed.
  Lemma eqb_real x y : okf x -> okf y -> SFeqb x y = Req_bool (sfR x) (sfR y).
  Proof.
    intros Hx Hy. destruct (okf_B x Hx) as (X & -> & FX). destruct (okf_B y Hy) as (Y & -> & FY).
    unfold sfR. rewrite !SF2R_B2SF. change (SFeqb (B2SF X) (B2SF Y)) with (Beqb X Y). now apply Beqb_correct.
  Qed.
End Ops.

(** * Relative closeness of non-negative reals *)
Section Near.
  Context (e : R) (He : 0 < e).
  Definition near (k : nat) (x y : R) : Prop := 0 <= y /\ x <= y * (1 + e) ^ k /\ y <= x * (1 + e) ^ k.

  Lemma pow_ge1 k : 1 <= (1 + e) ^ k.
  Proof. apply pow_R1_Rle. lra. Qed.
  Lemma near_pos k x y : near k x y -> 0 <= x.
  Proof.
    intros (H1 & H2 & H3). pose proof (pow_ge1 k). destruct (Rle_or_lt 0 x) as [|Hx]; [assumption|].
    exfalso. assert (x * (1 + e) ^ k < 0) by nra. lra.
  Qed.
  Lemma near_refl k x : 0 <= x -> near k x x.
  Proof. intros H. pose proof (pow_ge1 k). repeat split; nra. Qed.
  Lemma near_mono k k' x y : (k <= k')%nat -> near k x y -> near k' x y.
  Proof.
    intros Hk H. pose proof (near_pos _ _ _ H). destruct H as (H1 & H2 & H3).
    assert ((1 + e) ^ k <= (1 + e) ^ k') by (apply Rle_pow; [lra|exact Hk]).
    repeat split; [assumption|nra|nra].
  Qed.
  Lemma near_trans k k' x y z : near k x y -> near k' y z -> near (k + k') x z.
  Proof.
    intros H H'. pose proof (near_pos _ _ _ H). destruct H as (H1 & H2 & H3), H' as (H1' & H2' & H3').
    pose proof (pow_ge1 k). pose proof (pow_ge1 k'). unfold near. rewrite pow_add. repeat split; [assumption|..].
    - apply (Rle_trans _ (y * (1 + e) ^ k)); [assumption|]. nra.
    - apply (Rle_trans _ (y * (1 + e) ^ k')); [assumption|]. nra.
  Qed.
  Lemma near_mul k k' x y x' y' : near k x y -> near k' x' y' -> near (k + k') (x * x') (y * y').
  Proof.
    intros H H'. pose proof (near_pos _ _ _ H) as P. pose proof (near_pos _ _ _ H') as P'. destruct H as (H1 & H2 & H3), H' as (H1' & H2' & H3').
    unfold near. rewrite pow_add. repeat split; [nra|..].
    - replace (y * y' * ((1 + e) ^ k * (1 + e) ^ k')) with ((y * (1 + e) ^ k) * (y' * (1 + e) ^ k')) by ring. apply Rmult_le_compat; assumption.
    - replace (x * x' * ((1 + e) ^ k * (1 + e) ^ k')) with ((x * (1 + e) ^ k) * (x' * (1 + e) ^ k')) by ring. apply Rmult_le_compat; assumption.
  Qed.
  Lemma near_inv k x y : 0 < y -> near k x y -> near k (/ x) (/ y).
  Proof.
    intros Hy H. pose proof (near_pos _ _ _ H) as Hx. destruct H as (H1 & H2 & H3). pose proof (pow_ge1 k) as Hk.
    assert (0 < x) by (destruct Hx as [|<-]; [assumption|]; rewrite Rmult_0_l in H3; lra).
    assert (Hx' : 0 < / x) by (now apply Rinv_0_lt_compat). assert (Hy' : 0 < / y) by (now apply Rinv_0_lt_compat).
    repeat split; [lra|..].
    - apply (Rmult_le_reg_l (x * y)); [nra|]. replace (x * y * / x) with y by (field; lra).
      replace (x * y * (/ y * (1 + e) ^ k)) with (x * (1 + e) ^ k) by (field; lra). assumption.
    - apply (Rmult_le_reg_l (x * y)); [nra|]. replace (x * y * / y) with x by (field; lra).
      replace (x * y * (/ x * (1 + e) ^ k)) with (y * (1 + e) ^ k) by (field; lra). assumption.
  Qed.
  Lemma near_div k k' x y x' y' : 0 < y' -> near k x y -> near k' x' y' -> near (k + k') (x / x') (y / y').
  Proof. intros H0 H H'. apply near_mul; [assumption|]. now apply near_inv. Qed.
  Lemma near_add k x y x' y' : near k x y -> near k x' y' -> near k (x + x') (y + y').
  Proof. intros (H1 & H2 & H3) (H1' & H2' & H3'). repeat split; [lra|..]; rewrite Rmult_plus_distr_r; lra. Qed.
End Near.
