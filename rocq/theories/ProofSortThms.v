(** The sorting functions: final form of the results. *)
From Verif Require Import GoBase ModelSort ProofSort ProofSortQuick ProofSortStable.

Lemma at_cons_S z l k : 0 <= k → at_ (z :: l) (k + 1) = at_ l k.
Proof.
  intros Hk. unfold at_, zget. destruct (Z.ltb_spec (k + 1) 0); [lia|].
  destruct (Z.ltb_spec k 0); [lia|].
  by replace (Z.to_nat (k + 1)) with (S (Z.to_nat k)) by lia.
Qed.

Lemma at_elem (l : list Z) z : z ∈ l ↔ ∃ k, 0 <= k < zlen l ∧ at_ l k = z.
Proof.
  rewrite elem_of_list_lookup. split.
  - intros [i Hi]. exists (Z.of_nat i). pose proof (lookup_lt_Some _ _ _ Hi).
    unfold zlen. split; [lia|]. unfold at_. by rewrite zget_nat, Hi.
  - intros (k & Hk & E). exists (Z.to_nat k). pose proof (zget_at l k Hk) as G.
    apply zget_Some in G as [_ G]. by rewrite G, E.
Qed.

Lemma srt_sorted key (R : Z → Z → Prop) (d : list Z) :
  (∀ x y, R x y ↔ key x <= key y) →
  srt key 0 (zlen d) d ↔ StronglySorted R d.
Proof.
  intros HR. induction d as [|z d IH].
  { split; [constructor|]. intros _ x y ???. change (zlen []) with 0 in *. lia. }
  rewrite zlen_cons. split.
  - intros HS. constructor.
    + apply IH. intros x y Hx Hxy Hy. pose proof (HS (x + 1) (y + 1)) as P.
      rewrite !at_cons_S in P by lia. apply P; lia.
    + apply Forall_forall. intros x Hx. apply at_elem in Hx as (k & Hk & <-).
      apply HR. pose proof (HS 0 (k + 1)) as P. rewrite at_cons_S in P by lia. apply P; lia.
  - intros HS. inversion HS as [|?? HS' HF]; subst. apply IH in HS'.
    intros x y Hx Hxy Hy.
    destruct (Z.eq_dec y 0) as [->|Hy0]; [replace x with 0 by lia; lia|].
    replace y with (y - 1 + 1) by lia. rewrite at_cons_S by lia.
    destruct (Z.eq_dec x 0) as [->|Hx0].
    + rewrite Forall_forall in HF. apply (HR (at_ (z :: d) 0)). unfold at_ at 1. cbn.
      apply HF. apply at_elem. exists (y - 1). split; [lia|done].
    + replace x with (x - 1 + 1) by lia. rewrite at_cons_S by lia. apply HS'; lia.
Qed.

Lemma asc_lem d : ∃ d', Asc d = Some d' ∧ d' ≡ₚ d ∧ StronglySorted Z.le d'.
Proof.
  destruct (sortAll_spec (λ x, x) Z.ltb Z.geb (λ _ _, eq_refl) (λ _ _, eq_refl) d)
    as (d' & E & P & S).
  exists d'. split; [exact E|]. split; [done|].
  rewrite <- (srt_sorted (λ x, x)) by done.
  unfold zlen in *. by rewrite (Permutation_length P).
Qed.

Lemma desc_lem d : ∃ d', Desc d = Some d' ∧ d' ≡ₚ d ∧ StronglySorted Z.ge d'.
Proof.
  destruct (sortAll_spec Z.opp Z.gtb Z.leb) with (d := d) as (d' & E & P & S).
  { intros x y. apply eq_true_iff_eq. rewrite Z.gtb_lt, Z.ltb_lt. lia. }
  { intros x y. apply eq_true_iff_eq. rewrite Z.leb_le, Z.geb_le. lia. }
  exists d'. split; [exact E|]. split; [done|].
  rewrite <- (srt_sorted Z.opp) by lia.
  unfold zlen in *. by rewrite (Permutation_length P).
Qed.

Lemma stableAsc_lem d : ∃ d', StableAsc d = Some d' ∧ d' ≡ₚ d ∧ StronglySorted Z.le d'.
Proof.
  destruct (stable_spec (λ x, x) Z.ltb Z.geb) with (d := d) as (d' & E & P & S).
  { done. }
  { intros x y. rewrite Z.geb_le. lia. }
  { intros x y. destruct (Z.geb_spec x y); [done|lia]. }
  exists d'. split; [exact E|]. split; [done|].
  rewrite <- (srt_sorted (λ x, x)) by done.
  unfold zlen in *. by rewrite (Permutation_length P).
Qed.

Lemma stableDesc_lem d : ∃ d', StableDesc d = Some d' ∧ d' ≡ₚ d ∧ StronglySorted Z.ge d'.
Proof.
  destruct (stable_spec Z.opp Z.gtb Z.ltb) with (d := d) as (d' & E & P & S).
  { intros x y. apply eq_true_iff_eq. rewrite Z.gtb_lt, Z.ltb_lt. lia. }
  { intros x y. rewrite Z.ltb_lt. lia. }
  { intros x y. destruct (Z.ltb_spec x y); [done|lia]. }
  exists d'. split; [exact E|]. split; [done|].
  rewrite <- (srt_sorted Z.opp) by lia.
  unfold zlen in *. by rewrite (Permutation_length P).
Qed.

Lemma isAsc_lem d :
  ∃ r, IsSortedAsc d = Some r ∧ (r = true ↔ StronglySorted Z.le d).
Proof.
  destruct (isSorted_spec (λ x, x) Z.ltb (λ _ _, eq_refl) d) as (r & E & H).
  exists r. split; [done|]. by rewrite H, (srt_sorted (λ x, x) Z.le).
Qed.

Lemma isDesc_lem d :
  ∃ r, IsSortedDesc d = Some r ∧ (r = true ↔ StronglySorted Z.ge d).
Proof.
  destruct (isSorted_spec Z.opp Z.gtb) with (d := d) as (r & E & H).
  { intros x y. apply eq_true_iff_eq. rewrite Z.gtb_lt, Z.ltb_lt. lia. }
  exists r. split; [done|]. rewrite H, (srt_sorted Z.opp Z.ge); [done|lia].
Qed.

(** the bound of [depthLoop] is never reached: its result is the bit length *)
Lemma depthLoop_log n : ∀ i, 0 < i <= Z.of_nat n → Z.of_nat (depthLoop n i) = Z.log2 i + 1.
Proof.
  induction n as [|n IH]; intros i Hi; [lia|]. cbn [depthLoop].
  destruct (Z.gtb_spec i 0); [|lia]. rewrite Nat2Z.inj_succ.
  rewrite Z.shiftr_div_pow2 by lia. change (2 ^ 1) with 2.
  pose proof (Z.div_mod i 2 ltac:(lia)). pose proof (Z.mod_pos_bound i 2 ltac:(lia)).
  destruct (Z.eq_dec i 1) as [->|Hne].
  { change (1 / 2) with 0. destruct n; cbn [depthLoop]; done. }
  rewrite IH by lia. assert (Z.log2 i = Z.log2 (i / 2) + 1); [|lia].
  apply Z.log2_unique'  with (c := i - 2 ^ (Z.log2 (i / 2) + 1)).
  - pose proof (Z.log2_nonneg (i / 2)). lia.
  - destruct (Z.log2_spec (i / 2) ltac:(lia)) as [A B].
    rewrite Z.pow_succ_r in B by apply Z.log2_nonneg.
    rewrite Z.pow_add_r by (pose proof (Z.log2_nonneg (i / 2)); lia).
    change (2 ^ 1) with 2. lia.
  - lia.
Qed.

(** sorting is determined by the order: both sorts agree *)
Lemma sorted_perm_unique (R : Z → Z → Prop) (l k : list Z) :
  (∀ x y, R x y → R y x → x = y) → l ≡ₚ k → StronglySorted R l → StronglySorted R k → l = k.
Proof.
  intros HA. revert k. induction l as [|x l IH]; intros k HP HL HK.
  { symmetry. by apply Permutation_nil_l in HP. }
  destruct k as [|y k]; [by apply Permutation_nil_r in HP|].
  inversion HL as [|?? HL' FL]; inversion HK as [|?? HK' FK]; subst.
  assert (x = y) as ->.
  { assert (x ∈ y :: k) as Hx by (rewrite <- HP; left).
    assert (y ∈ x :: l) as Hy by (rewrite HP; left).
    apply elem_of_cons in Hx as [->|Hx]; [done|]. apply elem_of_cons in Hy as [->|Hy]; [done|].
    rewrite Forall_forall in FL, FK. apply HA; [by apply FL|by apply FK]. }
  f_equal. apply IH; try done. by apply Permutation_cons_inv in HP.
Qed.

Lemma agree_lem d : Asc d = StableAsc d ∧ Desc d = StableDesc d.
Proof.
  destruct (asc_lem d) as (a & Ea & Pa & Sa), (stableAsc_lem d) as (b & Eb & Pb & Sb).
  destruct (desc_lem d) as (a' & Ea' & Pa' & Sa'), (stableDesc_lem d) as (b' & Eb' & Pb' & Sb').
  rewrite Ea, Eb, Ea', Eb'. split; f_equal.
  - apply (sorted_perm_unique Z.le); try done; [lia|]. by rewrite Pa, Pb.
  - apply (sorted_perm_unique Z.ge); try done; [lia|]. by rewrite Pa', Pb'.
Qed.

Lemma desc_rev_lem d : ∃ d', Asc d = Some d' ∧ Desc d = Some (reverse d').
Proof.
  destruct (asc_lem d) as (a & Ea & Pa & Sa), (desc_lem d) as (a' & Ea' & Pa' & Sa').
  exists a. split; [done|]. rewrite Ea'. f_equal.
  apply (sorted_perm_unique Z.ge); try done; [lia| |].
  - by rewrite reverse_Permutation, Pa, Pa'.
  - clear -Sa. induction Sa as [|x l HS IH HF]; [constructor|].
    rewrite reverse_cons. clear HS. assert (Forall (λ y, y >= x) (reverse l)) as HF'.
    { apply Forall_reverse. eapply Forall_impl; [exact HF|]. intros; lia. }
    revert HF' IH. generalize (reverse l) as r. induction r as [|y r IHr]; intros HF' HS.
    + repeat constructor.
    + inversion HF'; inversion HS as [|?? HS' HF2]; subst. cbn. constructor; [by apply IHr|].
      apply Forall_app. split; [done|]. by constructor.
Qed.
