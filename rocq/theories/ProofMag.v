(** Signs and magnitudes of float32 results, without real numbers. *)
From Coq Require Import Floats.SpecFloat.
From Verif Require Import GoBase ProofFloat SpecBM25.

(** not NaN, and negative only if zero *)
Definition nn (x : F) : Prop :=
  match x with S754_nan => False | S754_zero _ => True | S754_infinity s | S754_finite s _ _ => s = false end.
Definition fin (x : F) : Prop := match x with S754_finite _ _ _ | S754_zero _ => True | _ => False end.
Definition nz (x : F) : Prop := match x with S754_zero _ => False | _ => True end.
(** zero, or a normalised positive number below 2^k *)
Definition below (k : Z) (x : F) : Prop :=
  match x with
  | S754_zero _ => True
  | S754_finite s m e => s = false ∧ fexp 24 128 (Z.log2 (Zpos m) + 1 + e) = e ∧ Z.log2 (Zpos m) + e < k
  | _ => False
  end.

Lemma fexp_eq n : fexp 24 128 n = Z.max (n - 24) (-149).
Proof. done. Qed.

Lemma below_nn k x : below k x → nn x.
Proof. destruct x; cbn; tauto. Qed.
Lemma below_fin k x : below k x → fin x.
Proof. destruct x; cbn; tauto. Qed.
Lemma below_mono k k' x : k <= k' → below k x → below k' x.
Proof. destruct x; cbn; try tauto. intros ? (? & ? & ?). repeat split; try done. lia. Qed.

(** * Shifting *)
Lemma shr_1_m r : 0 <= shr_m r → shr_m (shr_1 r) = shr_m r / 2.
Proof.
  destruct r as [m a b]. cbn [shr_m]. intros Hm. destruct m as [|p|p]; [done| |lia].
  destruct p as [p|p|]; cbn [shr_1 shr_m].
  - apply (Z.div_unique_pos _ _ _ 1); lia.
  - apply (Z.div_unique_pos _ _ _ 0); lia.
  - done.
Qed.
Lemma shr_iter k : ∀ r, 0 <= shr_m r → shr_m (Nat.iter k shr_1 r) = shr_m r / 2 ^ Z.of_nat k.
Proof.
  induction k as [|k IH]; intros r Hr.
  - change (Z.of_nat 0) with 0. rewrite Z.pow_0_r, Z.div_1_r. done.
  - cbn [Nat.iter]. assert (0 <= shr_m (Nat.iter k shr_1 r)) as H.
    { rewrite IH by done. apply Z.div_pos; [done|]. apply Z.pow_pos_nonneg; lia. }
    change (Nat.iter (S k) shr_1 r) with (shr_1 (Nat.iter k shr_1 r)).
    rewrite shr_1_m, IH by done. rewrite Z.div_div by (try apply Z.pow_pos_nonneg; lia).
    f_equal. rewrite Nat2Z.inj_succ, Z.pow_succ_r by lia. lia.
Qed.

Lemma shr_m_loc m l : shr_m (shr_record_of_loc m l) = m.
Proof. destruct l as [|[]]; done. Qed.

Lemma shr_fexp_eq m e l : 0 <= m →
  let n := Z.max 0 (fexp 24 128 (Zdigits2 m + e) - e) in
  shr_m (fst (shr_fexp 24 128 m e l)) = m / 2 ^ n ∧ snd (shr_fexp 24 128 m e l) = e + n.
Proof.
  intros Hm n. unfold shr_fexp, shr. unfold n. clear n.
  destruct (fexp 24 128 (Zdigits2 m + e) - e) as [|p|p] eqn:E; cbn [fst snd].
  - rewrite shr_m_loc. change (Z.max 0 0) with 0. rewrite Z.pow_0_r, Z.div_1_r. lia.
  - rewrite iter_pos_nat, shr_iter; rewrite shr_m_loc; [|done].
    rewrite positive_nat_Z. replace (Z.max 0 (Zpos p)) with (Zpos p) by lia. done.
  - rewrite shr_m_loc. replace (Z.max 0 (Zneg p)) with 0 by lia. rewrite Z.pow_0_r, Z.div_1_r. lia.
Qed.

Lemma rne_range m l : m <= round_nearest_even m l <= m + 1.
Proof. unfold round_nearest_even. destruct l as [|[]]; try lia. destruct (Z.even m); lia. Qed.

(** The parts of a rounding: first mantissa, rounded mantissa, final mantissa and exponent *)
Lemma aux_parts s mx ex lx : 0 <= mx → ∃ m1 e1 m2 m3 e3,
  let n1 := Z.max 0 (fexp 24 128 (Zdigits2 mx + ex) - ex) in
  m1 = mx / 2 ^ n1 ∧ e1 = ex + n1 ∧ 0 <= m1 ∧ m1 <= m2 <= m1 + 1 ∧
  let n2 := Z.max 0 (fexp 24 128 (Zdigits2 m2 + e1) - e1) in
  m3 = m2 / 2 ^ n2 ∧ e3 = e1 + n2 ∧ 0 <= m3 ∧
  binary_round_aux 24 128 s mx ex lx =
    (if m3 =? 0 then S754_zero s else if e3 <=? 104 then S754_finite s (Z.to_pos m3) e3 else S754_infinity s).
Proof.
  intros Hm. unfold binary_round_aux.
  pose proof (shr_fexp_eq mx ex lx Hm) as H1.
  destruct (shr_fexp 24 128 mx ex lx) as [r1 e1]. cbn [fst snd] in H1. destruct H1 as [H1 H1'].
  assert (0 <= shr_m r1) as Hr.
  { rewrite H1. apply Z.div_pos; [done|]. apply Z.pow_pos_nonneg; lia. }
  pose proof (rne_range (shr_m r1) (loc_of_shr_record r1)) as H2.
  set (m2 := round_nearest_even (shr_m r1) (loc_of_shr_record r1)) in *.
  assert (0 <= m2) as Hm2 by lia.
  pose proof (shr_fexp_eq m2 e1 loc_Exact Hm2) as H3.
  destruct (shr_fexp 24 128 m2 e1 loc_Exact) as [r3 e3]. cbn [fst snd] in H3. destruct H3 as [H3 H3'].
  assert (0 <= shr_m r3) as Hr3.
  { rewrite H3. apply Z.div_pos; [done|]. apply Z.pow_pos_nonneg; lia. }
  exists (shr_m r1), e1, m2, (shr_m r3), e3. cbn zeta.
  split; [done|]. split; [done|]. split; [done|]. split; [done|]. split; [done|]. split; [done|]. split; [done|].
  destruct (shr_m r3) as [|p|p]; [done|done|lia].
Qed.

(** * Never NaN *)
Lemma aux_sign s mx ex lx : 0 <= mx →
  match binary_round_aux 24 128 s mx ex lx with
  | S754_nan => False
  | S754_zero s' | S754_infinity s' | S754_finite s' _ _ => s' = s
  end.
Proof.
  intros Hm. destruct (aux_parts s mx ex lx Hm) as (m1 & e1 & m2 & m3 & e3 & _ & _ & _ & _ & _ & _ & _ & ->).
  destruct (m3 =? 0); [done|]. by destruct (e3 <=? 104).
Qed.
Lemma aux_nn mx ex lx : 0 <= mx → nn (binary_round_aux 24 128 false mx ex lx).
Proof. intros Hm. pose proof (aux_sign false mx ex lx Hm) as H. by destruct (binary_round_aux _ _ _ _ _ _). Qed.

Lemma zlog2_div m n : 0 <= n → 0 < m / 2 ^ n → Z.log2 (m / 2 ^ n) = Z.log2 m - n.
Proof.
  intros Hn Hp. rewrite <- Z.shiftr_div_pow2 by lia. assert (0 < m) as Hm.
  { destruct (Z.lt_trichotomy m 0) as [H|[->|H]]; [|by rewrite Z.div_0_l in Hp by (apply Z.pow_nonzero; lia)|done].
    assert (m / 2 ^ n < 0); [|lia]. apply Z.div_lt_upper_bound; [apply Z.pow_pos_nonneg; lia|]. lia. }
  rewrite Z.log2_shiftr by lia. rewrite <- Z.shiftr_div_pow2 in Hp by lia.
  destruct (Z.le_gt_cases 0 (Z.log2 m - n)); [lia|].
  rewrite Z.shiftr_div_pow2 in Hp by lia. rewrite Z.div_small in Hp; [lia|].
  split; [lia|]. apply Z.log2_lt_pow2; lia.
Qed.
Lemma div_pos_log m n : 0 <= n <= Z.log2 m → 0 < m → 0 < m / 2 ^ n.
Proof.
  intros Hn Hm. apply Z.div_str_pos. split; [apply Z.pow_pos_nonneg; lia|].
  transitivity (2 ^ Z.log2 m); [apply Z.pow_le_mono_r; lia|]. apply Z.log2_spec. done.
Qed.

(** * Magnitude *)
Lemma aux_below mx ex k : 0 < mx → ex <= fexp 24 128 (Z.log2 mx + 1 + ex) → Z.log2 mx + ex < k → -149 < k <= 127 →
  below (k + 1) (binary_round_aux 24 128 false mx ex loc_Exact).
Proof.
  intros Hm Hex Hlt Hk.
  destruct (aux_parts false mx ex loc_Exact ltac:(lia)) as (m1 & e1 & m2 & m3 & e3 & Hm1 & He1 & Hp1 & Hm2 & Hm3 & He3 & Hp3 & ->).
  rewrite Zdigits2_log2 in Hm1, He1 by done.
  set (n1 := Z.max 0 (fexp 24 128 (Z.log2 mx + 1 + ex) - ex)) in *.
  assert (He1f : e1 = fexp 24 128 (Z.log2 mx + 1 + ex)) by (unfold n1 in *; lia).
  destruct (Z.eqb_spec m3 0) as [E3|E3]; [done|].
  assert (Hm2p : 0 < m2).
  { destruct (Z.eq_dec m2 0) as [->|]; [|lia]. rewrite Z.div_0_l in Hm3; [lia|]. apply Z.pow_nonzero; lia. }
  rewrite Zdigits2_log2 in Hm3, He3 by done.
  set (n2 := Z.max 0 (fexp 24 128 (Z.log2 m2 + 1 + e1) - e1)) in *.
  assert (Hl3 : Z.log2 m3 = Z.log2 m2 - n2) by (rewrite Hm3; apply zlog2_div; lia).
  (* the rounded mantissa against the original *)
  assert (Hlo : Z.log2 mx + 1 + ex <= Z.log2 m2 + 1 + e1 ∧ Z.log2 m2 + e1 < k + 1).
  { destruct (Z.eq_dec m1 0) as [E1|E1].
    - assert (m2 = 1) as -> by lia. change (Z.log2 1) with 0.
      assert (Z.log2 mx < n1).
      { destruct (Z.lt_ge_cases (Z.log2 mx) n1); [done|]. pose proof (div_pos_log mx n1). lia. }
      split; [lia|]. rewrite He1f, fexp_eq. lia.
    - assert (Hl1 : Z.log2 m1 = Z.log2 mx - n1) by (rewrite Hm1; apply zlog2_div; lia).
      assert (Z.log2 m1 <= Z.log2 m2) by (apply Z.log2_le_mono; lia).
      assert (Z.log2 m2 <= Z.log2 m1 + 1).
      { transitivity (Z.log2 (Z.succ m1)); [apply Z.log2_le_mono; lia|]. pose proof (Z.log2_succ_le m1). lia. }
      lia. }
  destruct Hlo as [Hlo Hhi].
  assert (He3f : e3 = fexp 24 128 (Z.log2 m2 + 1 + e1)).
  { assert (e1 <= fexp 24 128 (Z.log2 m2 + 1 + e1)); [|unfold n2 in *; lia]. rewrite He1f at 1. rewrite !fexp_eq. lia. }
  assert (e3 <= 104) by (rewrite He3f, fexp_eq; lia).
  destruct (Z.leb_spec e3 104); [|lia]. cbn [below]. rewrite Z2Pos.id by lia. split; [done|].
  rewrite Hl3. split; [|lia]. rewrite He3f at 2. f_equal. lia.
Qed.

Lemma aux_nz s mx ex : 0 < mx → -149 <= Z.log2 mx + ex → nz (binary_round_aux 24 128 s mx ex loc_Exact).
Proof.
  intros Hm Hge.
  destruct (aux_parts s mx ex loc_Exact ltac:(lia)) as (m1 & e1 & m2 & m3 & e3 & Hm1 & He1 & Hp1 & Hm2 & Hm3 & He3 & Hp3 & ->).
  rewrite Zdigits2_log2 in Hm1, He1 by done. rewrite fexp_eq in Hm1, He1. pose proof (Z.log2_nonneg mx).
  set (n1 := Z.max 0 _) in *.
  assert (Hn1 : 0 <= n1 <= Z.log2 mx) by lia.
  assert (0 < m1) by (rewrite Hm1; by apply div_pos_log).
  assert (Hl1 : Z.log2 m1 = Z.log2 mx - n1) by (rewrite Hm1; apply zlog2_div; lia).
  assert (Z.log2 m1 <= Z.log2 m2) by (apply Z.log2_le_mono; lia).
  rewrite Zdigits2_log2 in Hm3, He3 by lia. rewrite fexp_eq in Hm3, He3. pose proof (Z.log2_nonneg m2).
  assert (0 < m3).
  { rewrite Hm3. apply div_pos_log; [|lia]. lia. }
  destruct (Z.eqb_spec m3 0); [lia|]. by destruct (e3 <=? 104).
Qed.

(** * Aligning *)
Lemma align_eq m e e' : e' <= e → Zpos (fst (shl_align m e e')) = Zpos m * 2 ^ (e - e').
Proof.
  intros H. unfold shl_align. destruct (e' - e) as [|p|p] eqn:E; cbn [fst].
  - replace (e - e') with 0 by lia. rewrite Z.pow_0_r. lia.
  - lia.
  - rewrite shift_pos_Z. f_equal. f_equal. lia.
Qed.

Lemma round_eq s m e : ∃ m' e', binary_round 24 128 s m e = binary_round_aux 24 128 s (Zpos m') e' loc_Exact ∧
  Z.log2 (Zpos m') + e' = Z.log2 (Zpos m) + e ∧ e' <= fexp 24 128 (Z.log2 (Zpos m') + 1 + e').
Proof.
  unfold binary_round. rewrite digits_log2. set (x := fexp 24 128 (Z.log2 (Zpos m) + 1 + e)).
  unfold shl_align. destruct (x - e) as [|p|p] eqn:E.
  - exists m, e. split; [done|]. split; [done|]. fold x. lia.
  - exists m, e. split; [done|]. split; [done|]. fold x. lia.
  - exists (shift_pos p m), x. split; [done|].
    assert (L : Z.log2 (Zpos (shift_pos p m)) + x = Z.log2 (Zpos m) + e).
    { rewrite shift_pos_Z, Z.log2_mul_pow2 by lia. lia. }
    split; [done|]. replace (Z.log2 (Zpos (shift_pos p m)) + 1 + x) with (Z.log2 (Zpos m) + 1 + e) by lia. fold x. lia.
Qed.

Lemma round_nn m e : nn (binary_round 24 128 false m e).
Proof. destruct (round_eq false m e) as (m' & e' & -> & _). by apply aux_nn. Qed.
Lemma round_below m e k : Z.log2 (Zpos m) + e < k → -149 < k <= 127 → below (k + 1) (binary_round 24 128 false m e).
Proof. intros H Hk. destruct (round_eq false m e) as (m' & e' & -> & L & C). apply aux_below; [lia|done|lia|done]. Qed.
Lemma round_nz s m e : -149 <= Z.log2 (Zpos m) + e → nz (binary_round 24 128 s m e).
Proof. intros H. destruct (round_eq s m e) as (m' & e' & -> & L & _). apply aux_nz; [lia|lia]. Qed.

(** * The operations *)
Lemma add_nn x y : nn x → nn y → nn (f32_add x y).
Proof.
  destruct x as [sx|sx| |sx mx ex], y as [sy|sy| |sy my ey]; cbn; try done; try (by intros -> -> || by intros ->).
  - intros _ _. by destruct (eqb sx sy).
  - intros -> ->. cbn [cond_Zopp]. apply round_nn.
Qed.
Lemma add_nz x y : nn x → nn y → below 200 x → nz x → nz (f32_add x y).
Proof.
  destruct x as [sx|sx| |sx mx ex], y as [sy|sy| |sy my ey]; unfold f32_add; cbn [nn nz below SFadd]; try done; try (by intros -> ->).
  intros -> -> (_ & C & _) _. cbn [cond_Zopp].
  rewrite fexp_eq in C. apply round_nz. rewrite Pos2Z.inj_add, !align_eq by lia.
  assert (0 < 2 ^ (ey - ex `min` ey)) by (apply Z.pow_pos_nonneg; lia).
  assert (Z.log2 (Zpos mx * 2 ^ (ex - ex `min` ey)) <=
          Z.log2 (Zpos mx * 2 ^ (ex - ex `min` ey) + Zpos my * 2 ^ (ey - ex `min` ey))) as H1.
  { apply Z.log2_le_mono. lia. }
  rewrite Z.log2_mul_pow2 in H1 by lia. pose proof (Z.log2_nonneg (Zpos mx)). lia.
Qed.
Lemma add_below k x y : below k x → below k y → -149 < k <= 126 → below (k + 2) (f32_add x y).
Proof.
  intros Hx Hy Hk. destruct x as [sx|sx| |sx mx ex], y as [sy|sy| |sy my ey]; cbn [below] in Hx, Hy; try done;
    cbn [below f32_add f32_mul SFadd SFmul]; unfold f32_add, f32_mul; cbn [SFadd SFmul xorb]; try done.
  - by destruct (eqb sx sy).
  - destruct Hy as (? & ? & ?). repeat split; try done. lia.
  - destruct Hx as (? & ? & ?). repeat split; try done. lia.
  - destruct Hx as (-> & Cx & Lx), Hy as (-> & Cy & Ly). cbn [cond_Zopp].
    replace (k + 2) with ((k + 1) + 1) by lia. apply round_below; [|lia].
    rewrite Pos2Z.inj_add, !align_eq by lia.
    set (ez := ex `min` ey).
    assert (forall m e, Z.log2 (Zpos m) + e < k → ez <= e → Zpos m * 2 ^ (e - ez) < 2 ^ (k - ez)) as B.
    { intros m e L E. apply Z.log2_lt_pow2; [apply Z.mul_pos_pos; [lia|apply Z.pow_pos_nonneg; lia]|].
      rewrite Z.log2_mul_pow2 by lia. lia. }
    pose proof (B mx ex Lx ltac:(lia)) as B1. pose proof (B my ey Ly ltac:(lia)) as B2.
    assert (0 < 2 ^ (ex - ez)) by (apply Z.pow_pos_nonneg; lia).
    assert (0 < 2 ^ (ey - ez)) by (apply Z.pow_pos_nonneg; lia).
    pose proof (Z.log2_nonneg (Zpos mx)). pose proof (Z.log2_nonneg (Zpos my)).
    assert (Z.log2 (Zpos mx * 2 ^ (ex - ez) + Zpos my * 2 ^ (ey - ez)) < k + 1 - ez); [|lia].
    apply Z.log2_lt_pow2; [lia|]. replace (k + 1 - ez) with (Z.succ (k - ez)) by lia.
    assert (ez <= ex) by (unfold ez; lia). assert (0 <= k - ez) by lia. rewrite (Z.pow_succ_r 2 (k - ez)) by done. lia.
Qed.

Lemma mul_nn x y : nn x → nn y → fin x → nz x → nn (f32_mul x y).
Proof.
  destruct x as [sx|sx| |sx mx ex], y as [sy|sy| |sy my ey]; cbn; try done.
  - by intros -> ->.
  - intros -> ->. intros _ _. by apply aux_nn.
Qed.
Lemma mul_below a b x y : below a x → below b y → -149 < a + b <= 127 → below (a + b + 1) (f32_mul x y).
Proof.
  intros Hx Hy Hk. destruct x as [sx|sx| |sx mx ex], y as [sy|sy| |sy my ey]; cbn [below] in Hx, Hy; try done;
    cbn [below f32_add f32_mul SFadd SFmul]; unfold f32_add, f32_mul; cbn [SFadd SFmul xorb]; try done.
  destruct Hx as (-> & Cx & Lx), Hy as (-> & Cy & Ly). cbn [xorb].
  pose proof (Z.log2_mul_above (Zpos mx) (Zpos my) ltac:(lia) ltac:(lia)) as L1.
  pose proof (Z.log2_mul_below (Zpos mx) (Zpos my) ltac:(lia) ltac:(lia)) as L2.
  rewrite <- Pos2Z.inj_mul in L1, L2. rewrite fexp_eq in Cx, Cy.
  pose proof (Z.log2_nonneg (Zpos mx)). pose proof (Z.log2_nonneg (Zpos my)).
  apply aux_below; [lia| |lia|done]. rewrite fexp_eq. lia.
Qed.

Lemma div_nn x y : nn x → nn y → fin x → nz y → nn (f32_div x y).
Proof.
  destruct x as [sx|sx| |sx mx ex], y as [sy|sy| |sy my ey]; cbn [nn fin nz]; try done.
  intros -> -> _ _. unfold f32_div, SFdiv, SFdiv_core_binary.
  set (e' := Z.min _ _). set (s := ex - ey - e').
  set (m' := match s with Z0 => _ | Zpos _ => _ | Zneg _ => _ end).
  assert (0 <= m') as Hm.
  { unfold m'. destruct s; [lia| |lia]. rewrite Z.shiftl_nonneg. lia. }
  pose proof (Z_div_mod m' (Zpos my) ltac:(lia)) as D.
  destruct (Z.div_eucl m' (Zpos my)) as [q r]. apply aux_nn. nia.
Qed.

(** * From the specification *)
Lemma score_nn x : nn x ↔ a_score x.
Proof.
  unfold a_score, f_eqb, f_ltb, f_zero, SFeqb, SFltb. destruct x as [s|s| |s m e]; cbn [SFcompare nn].
  - done.
  - destruct s; split; try done. by intros [_ ?].
  - split; [done|]. by intros [? _].
  - destruct s; [split; [done|by intros [_ ?]]|]. split; [|done]. intros _.
    rewrite Z.compare_refl. change (Pos.compare_cont Eq m m) with (m ?= m)%positive. by rewrite Pos.compare_refl.
Qed.

Lemma from_below k x : from_0_to k x → below k x.
Proof.
  intros (Hv & Hn & Hl). unfold f_ltb, f_zero, SFltb, pow2 in *.
  destruct x as [s|s| |s m e]; [done|by destruct s|done|]. cbn [SFcompare] in Hn. destruct s; [done|].
  cbn [valid_binary] in Hv. unfold bounded, canonical_mantissa in Hv. apply andb_true_iff in Hv as [Hc _].
  apply Zeq_bool_eq in Hc. rewrite digits_log2 in Hc. split; [done|]. split; [done|].
  rewrite fexp_eq in Hc. cbn [SFcompare] in Hl. destruct (Z.compare_spec e (k - 23)) as [E|E|E]; [|lia|done].
  change (Pos.compare_cont Eq m (2 ^ 23)) with (m ?= 2 ^ 23)%positive in Hl.
  destruct (Pos.compare_spec m (2 ^ 23)) as [X|X|X]; [done| |done].
  assert (Z.log2 (Zpos m) < 23); [|lia]. apply Z.log2_lt_pow2; [lia|].
  change (2 ^ 23) with (Zpos (2 ^ 23)). exact X.
Qed.

Lemma of_Z_below n : 0 < n < 2 ^ 63 → below 64 (f32_of_Z n) ∧ nz (f32_of_Z n).
Proof.
  intros Hn. unfold f32_of_Z, binary_normalize. destruct n as [|p|p]; try lia.
  assert (0 <= Z.log2 (Zpos p) < 63) by (split; [apply Z.log2_nonneg|apply Z.log2_lt_pow2; lia]).
  split; [apply (round_below _ _ 63); lia|apply round_nz; lia].
Qed.
