(** Correctness of the in-place merge and of the stable sorts. *)
From Verif Require Import GoBase ModelSort ProofSort ProofSortQuick.

Section merging.
Context (key : Z → Z) (lt sm : Z → Z → bool).
Hypothesis Hlt : ∀ x y, lt x y = (key x <? key y).
Hypothesis Hsm1 : ∀ x y, sm x y = true → key y <= key x.
Hypothesis Hsm2 : ∀ x y, sm x y = false → key x <= key y.

Notation K d k := (key (at_ d k)).
Notation srt := (srt key).

Lemma searchLoop_spec n : ∀ d p s r,
  s <= r → r - s <= Z.of_nat n →
  (∀ c, s <= c < r → 0 <= c < zlen d ∧ 0 <= p - c < zlen d) →
  ∃ st, searchLoop sm n d p s r = Some st ∧ s <= st <= r ∧
    (s < st → K d (st - 1) <= K d (p - (st - 1))) ∧ (st < r → K d (p - st) <= K d st).
Proof.
  induction n as [|n IH]; intros d p s r Hsr Hn Hin; cbn [searchLoop].
  { destruct (Z.ltb_spec s r); [lia|]. exists s. repeat split; lia. }
  destruct (Z.ltb_spec s r) as [Hlt1|Hge1].
  2:{ exists s. repeat split; lia. }
  rewrite Z.quot_div_nonneg by lia.
  pose proof (Z.div_mod (r - s) 2 ltac:(lia)) as D.
  pose proof (Z.mod_pos_bound (r - s) 2 ltac:(lia)) as B.
  set (h := (r - s) / 2) in *. clearbody h. cbv zeta.
  destruct (Hin (s + h) ltac:(lia)) as [H1 H2].
  rewrite (zget_at d (p - (s + h)) H2), (zget_at d (s + h) H1).
  destruct (sm _ _) eqn:E.
  - apply Hsm1 in E.
    destruct (IH d p (s + h + 1) r) as (st & -> & Hst & P1 & P2); [lia..| |].
    { intros c Hc. apply Hin. lia. }
    exists st. split; [done|]. split; [lia|]. split; [|done]. intros _.
    destruct (Z.eq_dec st (s + h + 1)) as [->|]; [|apply P1; lia].
    by replace (s + h + 1 - 1) with (s + h) by lia.
  - apply Hsm2 in E.
    destruct (IH d p s (s + h)) as (st & -> & Hst & P1 & P2); [lia..| |].
    { intros c Hc. apply Hin. lia. }
    exists st. split; [done|]. split; [lia|]. split; [done|]. intros _.
    destruct (Z.eq_dec st (s + h)) as [->|]; [done|apply P2; lia].
Qed.

Lemma symMergeRec_spec n : ∀ d a m b,
  b - a <= Z.of_nat n → 0 <= a → b <= zlen d →
  srt a (Z.min m b) d → srt m b d →
  ∃ d', symMergeRec sm n d a m b = Some d' ∧ sp a b d d' ∧ srt a b d'.
Proof.
  induction n as [|n IH]; intros d a m b Hn Ha Hb HA HB; cbn [symMergeRec];
    destruct (Z.geb_spec a m) as [Ham|Ham]; cbn [orb].
  1,3: exists d; split; [done|]; split; [constructor|];
      intros x y ???; apply HB; lia.
  all: destruct (Z.geb_spec m b) as [Hmb|Hmb];
    [exists d; split; [done|]; split; [constructor|]; intros x y ???; apply HA; lia|].
  { lia. }
  rewrite (Z.min_l m b) in HA by lia.
  rewrite Z.quot_div_nonneg by lia.
  pose proof (Z.div_mod (b - a) 2 ltac:(lia)) as D.
  pose proof (Z.mod_pos_bound (b - a) 2 ltac:(lia)) as B.
  set (h := (b - a) / 2) in *. clearbody h. cbv zeta.
  set (mid := a + h) in *.
  assert (∃ st, (if m >? mid
     then searchLoop sm (Z.to_nat (mid - (mid + m - b))) d (mid + m - 1) (mid + m - b) mid
     else searchLoop sm (Z.to_nat (m - a)) d (mid + m - 1) a m) = Some st ∧
     a <= st <= m ∧ m <= mid + m - st <= b ∧
     (∀ x y, a <= x < st → mid + m - st <= y < b → K d x <= K d y) ∧
     (∀ x y, m <= x < mid + m - st → st <= y < m → K d x <= K d y))
    as (st & -> & Hst1 & Hst2 & Hq1 & Hq2).
  { destruct (Z.gtb_spec m mid) as [Hm|Hm].
    - destruct (searchLoop_spec (Z.to_nat (mid - (mid + m - b))) d (mid + m - 1) (mid + m - b) mid)
        as (st & -> & Hst & P1 & P2); [lia..|intros c Hc; lia|].
      exists st. split; [done|]. split; [lia|]. split; [lia|]. split; intros x y Hx Hy.
      + pose proof (P1 ltac:(lia)) as P.
        replace (mid + m - 1 - (st - 1)) with (mid + m - st) in P by lia.
        pose proof (HA x (st - 1)). pose proof (HB (mid + m - st) y). lia.
      + pose proof (P2 ltac:(lia)) as P.
        replace (mid + m - 1 - st) with (mid + m - st - 1) in P by lia.
        pose proof (HA st y). pose proof (HB x (mid + m - st - 1)). lia.
    - destruct (searchLoop_spec (Z.to_nat (m - a)) d (mid + m - 1) a m)
        as (st & -> & Hst & P1 & P2); [lia..|intros c Hc; lia|].
      exists st. split; [done|]. split; [lia|]. split; [lia|]. split; intros x y Hx Hy.
      + pose proof (P1 ltac:(lia)) as P.
        replace (mid + m - 1 - (st - 1)) with (mid + m - st) in P by lia.
        pose proof (HA x (st - 1)). pose proof (HB (mid + m - st) y). lia.
      + pose proof (P2 ltac:(lia)) as P.
        replace (mid + m - 1 - st) with (mid + m - st - 1) in P by lia.
        pose proof (HA st y). pose proof (HB x (mid + m - st - 1)). lia. }
  destruct (rotate_spec d st m (mid + m - st)) as (d1 & -> & S1 & R); [lia..|].
  pose proof (sp_len _ _ _ _ S1) as L1.
  assert (RK : ∀ k, K d1 k =
     if (st <=? k) && (k <? mid) then K d (k + (m - st))
     else if (mid <=? k) && (k <? mid + m - st) then K d (k - (mid - st)) else K d k).
  { intros k. rewrite R. replace (st + (mid + m - st - m)) with mid by lia.
    replace (mid + m - st - m) with (mid - st) by lia. by repeat case_match. }
  assert (HLR : ∀ x y, a <= x < mid → mid <= y < b → K d1 x <= K d1 y).
  { intros x y Hx Hy. rewrite !RK. cases.
    all: first [apply Hq1; lia | apply Hq2; lia | apply HA; lia | apply HB; lia]. }
  destruct (IH d1 a st mid) as (d2 & -> & S2 & R2); [lia..| | |].
  { intros x y Hx Hxy Hy. rewrite !RK. cases. apply HA; lia. }
  { intros x y Hx Hxy Hy. rewrite !RK. cases. apply HB; lia. }
  pose proof (sp_len _ _ _ _ S2) as L2.
  destruct (IH d2 mid (mid + m - st) b) as (d3 & -> & S3 & R3); [lia..| | |].
  { eapply srt_out; [exact S2|lia|]. intros x y Hx Hxy Hy. rewrite !RK. cases; apply HA; lia. }
  { eapply srt_out; [exact S2|lia|]. intros x y Hx Hxy Hy. rewrite !RK. cases; apply HB; lia. }
  exists d3. split; [done|]. split.
  { eapply sp_trans; [eapply sp_mono; [exact S1|lia..]|].
    eapply sp_trans; [eapply sp_mono; [exact S2|lia..]|eapply sp_mono; [exact S3|lia..]]. }
  assert (HLR2 : ∀ x y, a <= x < mid → mid <= y < b → K d2 x <= K d2 y).
  { intros x y Hx Hy. rewrite (sp_outK key _ _ _ _ y S2) by lia.
    apply (sp_allK key _ _ _ _ (λ z, z <= K d1 y) S2); [|lia].
    intros k Hk. by apply HLR. }
  intros x y Hx Hxy Hy.
  destruct (Z.le_gt_cases mid x); [by apply R3|].
  rewrite (sp_outK key _ _ _ _ x S3) by lia.
  destruct (Z.le_gt_cases mid y).
  - apply (sp_allK key _ _ _ _ (λ z, K d2 x <= z) S3); [|lia].
    intros k Hk. by apply HLR2.
  - rewrite (sp_outK key _ _ _ _ y S3) by lia. apply R2; lia.
Qed.

Lemma symMerge_spec d a m b :
  0 <= a → b <= zlen d → srt a (Z.min m b) d → srt m b d →
  ∃ d', symMerge sm d a m b = Some d' ∧ sp a b d d' ∧ srt a b d'.
Proof. intros. apply symMergeRec_spec; try done. lia. Qed.

(** from position [lo] on, every block of [bs] elements is in order *)
Definition blk (bs lo : Z) (d : list Z) : Prop :=
  ∀ q : nat, srt (lo + Z.of_nat q * bs) (Z.min (lo + Z.of_nat (S q) * bs) (zlen d)) d.

Lemma blk_cons bs lo d :
  srt lo (Z.min (lo + bs) (zlen d)) d → blk bs (lo + bs) d → blk bs lo d.
Proof.
  intros H0 H q. destruct q as [|q].
  - replace (lo + Z.of_nat 0 * bs) with lo by lia.
    by replace (lo + Z.of_nat 1 * bs) with (lo + bs) by lia.
  - specialize (H q).
    replace (lo + Z.of_nat (S q) * bs) with (lo + bs + Z.of_nat q * bs) by lia.
    by replace (lo + Z.of_nat (S (S q)) * bs) with (lo + bs + Z.of_nat (S q) * bs) by lia.
Qed.
Lemma blk_head bs lo d : blk bs lo d → srt lo (Z.min (lo + bs) (zlen d)) d.
Proof.
  intros H. specialize (H 0%nat). replace (lo + Z.of_nat 0 * bs) with lo in H by lia.
  by replace (lo + Z.of_nat 1 * bs) with (lo + bs) in H by lia.
Qed.
Lemma blk_tail bs lo d : blk bs lo d → blk bs (lo + bs) d.
Proof.
  intros H q. specialize (H (S q)).
  replace (lo + Z.of_nat (S q) * bs) with (lo + bs + Z.of_nat q * bs) in H by lia.
  by replace (lo + Z.of_nat (S (S q)) * bs) with (lo + bs + Z.of_nat (S q) * bs) in H by lia.
Qed.
Lemma blk_out bs lo a b d d' : 0 <= bs → sp a b d d' → b <= lo → blk bs lo d → blk bs lo d'.
Proof.
  intros Hbs S Hb H q. rewrite (sp_len _ _ _ _ S). eapply srt_out; [exact S|right; lia|apply H].
Qed.
Lemma blk_end bs lo d : 0 <= bs → zlen d <= lo → blk bs lo d.
Proof. intros Hbs Hl q x y ???. lia. Qed.

Lemma blocksLoop_spec n : ∀ d bs a b,
  0 < bs → 0 <= a → b = a + bs → zlen d - b < Z.of_nat n ∨ zlen d < b →
  ∃ d', blocksLoop lt n d bs a b = Some d' ∧ sp a (zlen d) d d' ∧ blk bs a d'.
Proof.
  assert (Hend : ∀ d bs a b, 0 < bs → 0 <= a → b = a + bs → zlen d < b →
    ∃ d', insertionSort lt d a (zlen d) = Some d' ∧ sp a (zlen d) d d' ∧ blk bs a d').
  { intros d bs a b Hbs Ha -> Hlen.
    destruct (insertionSort_spec key lt Hlt d a (zlen d)) as (d' & E & S & R); [lia..|].
    exists d'. split; [done|]. split; [done|]. pose proof (sp_len _ _ _ _ S) as L.
    apply blk_cons.
    - rewrite L, Z.min_r by lia. done.
    - apply blk_end; lia. }
  induction n as [|n IH]; intros d bs a b Hbs Ha Hb Hn; cbn [blocksLoop];
    (destruct (Z.leb_spec b (zlen d)) as [Hl|Hl]; [|by eapply Hend]).
  { lia. }
  destruct (insertionSort_spec key lt Hlt d a b) as (d1 & -> & S1 & R1); [lia..|].
  pose proof (sp_len _ _ _ _ S1) as L1.
  destruct (IH d1 bs b (b + bs)) as (d' & -> & S2 & R2); [lia..|].
  pose proof (sp_len _ _ _ _ S2) as L2. rewrite L1 in S2.
  exists d'. split; [done|]. split.
  { eapply sp_trans; [eapply sp_mono; [exact S1|lia..]|eapply sp_mono; [exact S2|lia..]]. }
  apply blk_cons; [|by subst b]. eapply srt_out; [exact S2|lia|].
  intros x y ???. apply R1; lia.
Qed.

Lemma mergesLoop_spec n : ∀ d bs a b,
  0 < bs → 0 <= a → b = a + 2 * bs → zlen d - b < Z.of_nat n ∨ zlen d < b →
  blk bs a d →
  ∃ d', mergesLoop sm n d bs a b = Some d' ∧ sp a (zlen d) d d' ∧ blk (2 * bs) a d'.
Proof.
  assert (Hend : ∀ d bs a b, 0 < bs → 0 <= a → b = a + 2 * bs → zlen d < b → blk bs a d →
    ∃ d', symMerge sm d a (a + bs) (zlen d) = Some d' ∧ sp a (zlen d) d d' ∧ blk (2 * bs) a d').
  { intros d bs a b Hbs Ha -> Hlen HB.
    destruct (symMerge_spec d a (a + bs) (zlen d)) as (d' & E & S & R); [lia..| | |].
    - by apply blk_head.
    - apply blk_tail, blk_head in HB. intros x y ???. apply HB; lia.
    - exists d'. split; [done|]. split; [done|]. pose proof (sp_len _ _ _ _ S) as L.
      apply blk_cons.
      + rewrite L, Z.min_r by lia. done.
      + apply blk_end; lia. }
  induction n as [|n IH]; intros d bs a b Hbs Ha Hb Hn HB; cbn [mergesLoop];
    (destruct (Z.leb_spec b (zlen d)) as [Hl|Hl]; [|by eapply Hend]).
  { lia. }
  destruct (symMerge_spec d a (a + bs) b) as (d1 & -> & S1 & R1); [lia..| | |].
  { pose proof (blk_head _ _ _ HB) as P. intros x y ???. apply P; lia. }
  { pose proof (blk_head _ _ _ (blk_tail _ _ _ HB)) as P. intros x y ???. apply P; lia. }
  pose proof (sp_len _ _ _ _ S1) as L1.
  destruct (IH d1 bs b (b + 2 * bs)) as (d' & -> & S2 & R2); [lia..| |].
  { eapply blk_out; [lia|exact S1|lia|]. replace b with (a + bs + bs) by lia.
    by apply blk_tail, blk_tail. }
  pose proof (sp_len _ _ _ _ S2) as L2. rewrite L1 in S2.
  exists d'. split; [done|]. split.
  { eapply sp_trans; [eapply sp_mono; [exact S1|lia..]|eapply sp_mono; [exact S2|lia..]]. }
  apply blk_cons; [|by subst b]. eapply srt_out; [exact S2|lia|].
  intros x y ???. apply R1; lia.
Qed.

Lemma stableLoop_spec n : ∀ d bs,
  0 < bs → zlen d - bs <= Z.of_nat n → blk bs 0 d →
  ∃ d', stableLoop sm n d bs = Some d' ∧ sp 0 (zlen d) d d' ∧ srt 0 (zlen d) d'.
Proof.
  induction n as [|n IH]; intros d bs Hbs Hn HB; cbn [stableLoop];
    (destruct (Z.ltb_spec bs (zlen d)) as [Hl|Hl];
     [|exists d; split; [done|]; split; [constructor|];
       apply blk_head in HB; by rewrite Z.add_0_l, Z.min_r in HB by lia]).
  { lia. }
  destruct (mergesLoop_spec (length d) d bs 0 (2 * bs)) as (d1 & -> & S1 & R1); try lia; [|done|].
  { left. unfold zlen. lia. }
  pose proof (sp_len _ _ _ _ S1) as L1.
  destruct (IH d1 (bs * 2)) as (d' & -> & S2 & R2); [lia..| |].
  { by rewrite Z.mul_comm. }
  rewrite L1 in *. exists d'. split; [done|]. split; [by eapply sp_trans|done].
Qed.

Lemma stable_spec d :
  ∃ d', stable lt sm d = Some d' ∧ d' ≡ₚ d ∧ srt 0 (zlen d) d'.
Proof.
  unfold stable.
  destruct (blocksLoop_spec (length d) d 20 0 20) as (d1 & -> & S1 & R1); try lia.
  { left. unfold zlen. lia. }
  pose proof (sp_len _ _ _ _ S1) as L1.
  destruct (stableLoop_spec (length d) d1 20) as (d' & -> & S2 & R2); [lia| |done|].
  { rewrite L1. unfold zlen. lia. }
  exists d'. split; [done|]. rewrite L1 in R2. split; [|done].
  rewrite (sp_perm _ _ _ _ S2). by eapply sp_perm.
Qed.
End merging.
