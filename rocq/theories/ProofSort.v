(** Basic facts for the sorting functions: element swaps, segments, ranges. *)
From Verif Require Import GoBase ModelSort.

Definition at_ (d : list Z) (i : Z) : Z := default 0 (zget d i).

Lemma zget_at d i : 0 <= i < zlen d → zget d i = Some (at_ d i).
Proof. intros H. unfold at_. by destruct (zget_in d i H) as [x ->]. Qed.

Lemma at_zset d i v d' k :
  zset d i v = Some d' → at_ d' k = if k =? i then v else at_ d k.
Proof.
  rewrite zset_Some. intros [Hi ->]. unfold at_, zget. unfold zlen in Hi.
  destruct (Z.eqb_spec k i) as [->|Hk].
  - destruct (Z.ltb_spec i 0); [lia|]. rewrite list_lookup_insert by lia. done.
  - destruct (Z.ltb_spec k 0); [done|]. rewrite list_lookup_insert_ne by lia. done.
Qed.

Lemma zset_len {A} (d : list A) i v d' : zset d i v = Some d' → zlen d' = zlen d.
Proof. rewrite zset_Some. intros [Hi ->]. unfold zlen. by rewrite insert_length. Qed.

Lemma swap_some d i j d' :
  swap d i j = Some d' →
  0 <= i < zlen d ∧ 0 <= j < zlen d ∧ zlen d' = zlen d ∧
  ∀ k, at_ d' k = if k =? i then at_ d j else if k =? j then at_ d i else at_ d k.
Proof.
  unfold swap. destruct (zget d i) as [x|] eqn:Ei; [|done].
  destruct (zget d j) as [y|] eqn:Ej; [|done].
  destruct (zset d i y) as [d1|] eqn:E1; [|done]. intros E2.
  pose proof (zget_lt _ _ _ Ei). pose proof (zget_lt _ _ _ Ej).
  assert (Hx : at_ d i = x) by (unfold at_; by rewrite Ei).
  assert (Hy : at_ d j = y) by (unfold at_; by rewrite Ej).
  repeat split; try lia.
  - rewrite (zset_len _ _ _ _ E2). apply (zset_len _ _ _ _ E1).
  - intros k. rewrite (at_zset _ _ _ _ k E2), (at_zset _ _ _ _ k E1).
    destruct (Z.eqb_spec k j), (Z.eqb_spec k i); subst; done.
Qed.

Lemma swap_ok d i j :
  0 <= i < zlen d → 0 <= j < zlen d → is_Some (swap d i j).
Proof.
  intros Hi Hj. unfold swap. rewrite (zget_at d i Hi), (zget_at d j Hj).
  rewrite (zset_in d i _ Hi).
  rewrite zset_in; [done|]. unfold zlen in *. rewrite insert_length. lia.
Qed.

Lemma swap_perm d i j d' : swap d i j = Some d' → d' ≡ₚ d.
Proof.
  intros H. pose proof (swap_some _ _ _ _ H) as (Hi & Hj & Hl & Hat).
  symmetry. unfold zlen in *.
  apply (Permutation.Permutation_nth d d' 0). split; [lia|].
  exists (λ x, if Nat.eqb x (Z.to_nat i) then Z.to_nat j
               else if Nat.eqb x (Z.to_nat j) then Z.to_nat i else x).
  assert (Hnth : ∀ l (x : nat), nth x l 0 = at_ l (Z.of_nat x)).
  { intros l x. unfold at_. rewrite zget_nat. rewrite nth_lookup. done. }
  repeat split.
  - intros x Hx.
    destruct (Nat.eqb_spec x (Z.to_nat i)), (Nat.eqb_spec x (Z.to_nat j)); lia.
  - intros x y Hx Hy.
    destruct (Nat.eqb_spec x (Z.to_nat i)), (Nat.eqb_spec x (Z.to_nat j)),
      (Nat.eqb_spec y (Z.to_nat i)), (Nat.eqb_spec y (Z.to_nat j)); lia.
  - intros x Hx. rewrite !Hnth, Hat.
    destruct (Z.eqb_spec (Z.of_nat x) i), (Z.eqb_spec (Z.of_nat x) j),
      (Nat.eqb_spec x (Z.to_nat i)), (Nat.eqb_spec x (Z.to_nat j));
      try lia; f_equal; lia.
Qed.

(** [sp a b d d'] : [d'] comes from [d] by swaps inside the segment [a, b). *)
Inductive sp (a b : Z) : list Z → list Z → Prop :=
  | sp_refl d : sp a b d d
  | sp_step d d1 d2 i j :
      a <= i < b → a <= j < b → swap d i j = Some d1 → sp a b d1 d2 → sp a b d d2.

Lemma sp_one a b d d1 i j :
  a <= i < b → a <= j < b → swap d i j = Some d1 → sp a b d d1.
Proof. intros Hi Hj E. apply (sp_step a b d d1 d1 i j Hi Hj E), sp_refl. Qed.
Lemma sp_trans a b d d1 d2 : sp a b d d1 → sp a b d1 d2 → sp a b d d2.
Proof.
  induction 1 as [|d d1' d2' i j Hi Hj E H IH]; [done|]. intros H2.
  apply (sp_step a b d d1' d2 i j Hi Hj E), IH, H2.
Qed.
Lemma sp_mono a b a' b' d d' : sp a b d d' → a' <= a → b <= b' → sp a' b' d d'.
Proof.
  induction 1 as [|d d1' d2' i j Hi Hj E H IH]; intros Ha Hb; [constructor|].
  apply (sp_step a' b' d d1' d2' i j); [lia..|exact E|]. by apply IH.
Qed.
Lemma sp_len a b d d' : sp a b d d' → zlen d' = zlen d.
Proof. induction 1 as [|??????? Hs]; [done|]. apply swap_some in Hs. lia. Qed.
Lemma sp_perm a b d d' : sp a b d d' → d' ≡ₚ d.
Proof. induction 1 as [|??????? Hs ? IH]; [done|]. rewrite IH. by eapply swap_perm. Qed.
Lemma sp_out a b d d' k : sp a b d d' → k < a ∨ b <= k → at_ d' k = at_ d k.
Proof.
  induction 1 as [|d d1 d2 i j Hi Hj Hs ? IH]; [done|]. intros Hk. rewrite (IH Hk).
  apply swap_some in Hs as (_ & _ & _ & ->).
  destruct (Z.eqb_spec k i); [lia|]. destruct (Z.eqb_spec k j); [lia|done].
Qed.
Lemma sp_all a b d d' (P : Z → Prop) :
  sp a b d d' → (∀ k, a <= k < b → P (at_ d k)) → ∀ k, a <= k < b → P (at_ d' k).
Proof.
  induction 1 as [|d d1 d2 i j Hi Hj Hs ? IH]; [done|]. intros HP. apply IH.
  intros k Hk. apply swap_some in Hs as (_ & _ & _ & ->).
  destruct (Z.eqb_spec k i); [by apply HP|]. destruct (Z.eqb_spec k j); by apply HP.
Qed.

(** case analysis on every comparison in the goal, dropping impossible cases *)
Ltac cases := repeat (match goal with
  | |- context [(?x =? ?y)] => destruct (Z.eqb_spec x y)
  | |- context [(?x <=? ?y)] => destruct (Z.leb_spec x y)
  | |- context [(?x <? ?y)] => destruct (Z.ltb_spec x y)
  end; cbn [andb]; try (exfalso; lia)).

(** ** Exchange of two disjoint ranges *)
Lemma swapRangeLoop_spec n : ∀ d a b,
  0 <= a → a + Z.of_nat n <= b → b + Z.of_nat n <= zlen d →
  ∃ d', swapRangeLoop n d a b = Some d' ∧ sp a (b + Z.of_nat n) d d' ∧
    ∀ k, at_ d' k = if (a <=? k) && (k <? a + Z.of_nat n) then at_ d (k - a + b)
                    else if (b <=? k) && (k <? b + Z.of_nat n) then at_ d (k - b + a)
                    else at_ d k.
Proof.
  induction n as [|n IH]; intros d a b Ha Hab Hb.
  { exists d. split; [done|]. split; [constructor|]. intros k.
    destruct (Z.leb_spec a k), (Z.ltb_spec k (a + Z.of_nat 0)); try lia; cbn [andb];
    destruct (Z.leb_spec b k), (Z.ltb_spec k (b + Z.of_nat 0)); try lia; done. }
  cbn [swapRangeLoop].
  destruct (swap_ok d a b) as [d1 E]; [lia..|]. rewrite E.
  pose proof (swap_some _ _ _ _ E) as (_ & _ & Hl & Hat).
  destruct (IH d1 (a + 1) (b + 1)) as (d' & -> & Hsp & Hat'); [lia..|].
  exists d'. split; [done|]. split.
  { eapply sp_step; [| |exact E|]; [lia..|]. eapply sp_mono; [exact Hsp|lia..]. }
  intros k. rewrite Hat', !Hat.
  cases; try done; f_equal; lia.
Qed.

Lemma swapRange_spec d a b n :
  0 <= a → 0 <= n → a + n <= b → b + n <= zlen d →
  ∃ d', swapRange d a b n = Some d' ∧ sp a (b + n) d d' ∧
    ∀ k, at_ d' k = if (a <=? k) && (k <? a + n) then at_ d (k - a + b)
                    else if (b <=? k) && (k <? b + n) then at_ d (k - b + a)
                    else at_ d k.
Proof.
  intros Ha Hn Hab Hb. unfold swapRange.
  destruct (swapRangeLoop_spec (Z.to_nat n) d a b) as (d' & E & H1 & H2); [lia..|].
  exists d'. rewrite Z2Nat.id in * by lia. done.
Qed.

(** ** Rotation *)
Lemma rotateLoop_spec n : ∀ d p i j,
  i + j <= Z.of_nat n → 0 < i → 0 < j → 0 <= p - i → p + j <= zlen d →
  ∃ d', rotateLoop n d p i j = Some d' ∧ sp (p - i) (p + j) d d' ∧
    ∀ k, at_ d' k = if (p - i <=? k) && (k <? p - i + j) then at_ d (k + i)
                    else if (p - i + j <=? k) && (k <? p + j) then at_ d (k - j)
                    else at_ d k.
Proof.
  induction n as [|n IH]; intros d p i j Hn Hi Hj Hpi Hpj; [lia|].
  cbn [rotateLoop]. destruct (Z.eqb_spec i j) as [->|Hij].
  { destruct (swapRange_spec d (p - j) p j) as (d' & -> & Hsp & Hat); [lia..|].
    exists d'. split; [done|]. split; [done|]. intros k. rewrite Hat.
    cases; try done; f_equal; lia. }
  destruct (Z.gtb_spec i j) as [Hgt|Hle].
  - destruct (swapRange_spec d (p - i) p j) as (d1 & -> & Hsp & Hat); [lia..|].
    destruct (IH d1 p (i - j) j) as (d' & -> & Hsp' & Hat'); [rewrite ?(sp_len _ _ _ _ Hsp); lia..|].
    exists d'. split; [done|]. split.
    { eapply sp_trans; [exact Hsp|]. eapply sp_mono; [exact Hsp'|lia..]. }
    intros k. rewrite Hat', !Hat. cases; try done; f_equal; lia.
  - destruct (swapRange_spec d (p - i) (p + j - i) i) as (d1 & -> & Hsp & Hat); [lia..|].
    destruct (IH d1 p i (j - i)) as (d' & -> & Hsp' & Hat'); [rewrite ?(sp_len _ _ _ _ Hsp); lia..|].
    exists d'. split; [done|]. split.
    { eapply sp_trans; [eapply sp_mono; [exact Hsp|lia..]|]. eapply sp_mono; [exact Hsp'|lia..]. }
    intros k. rewrite Hat', !Hat. cases; try done; f_equal; lia.
Qed.

Lemma rotate_spec d a m b :
  0 <= a <= m → m <= b <= zlen d →
  ∃ d', rotate d a m b = Some d' ∧ sp a b d d' ∧
    ∀ k, at_ d' k = if (a <=? k) && (k <? a + (b - m)) then at_ d (k + (m - a))
                    else if (a + (b - m) <=? k) && (k <? b) then at_ d (k - (b - m))
                    else at_ d k.
Proof.
  intros Ha Hb. unfold rotate. destruct (Z.eqb_spec (m - a) 0) as [E|E].
  { exists d. split; [done|]. split; [constructor|]. intros k.
    cases; try done; f_equal; lia. }
  destruct (Z.eqb_spec (b - m) 0) as [E'|E'].
  { exists d. split; [done|]. split; [constructor|]. intros k.
    cases; try done; f_equal; lia. }
  destruct (Z.eqb_spec (m - a) (b - m)) as [E2|E2].
  { destruct (swapRange_spec d a m (m - a)) as (d' & -> & Hsp & Hat); [lia..|].
    exists d'. split; [done|]. split; [eapply sp_mono; [exact Hsp|lia..]|]. intros k.
    rewrite Hat. cases; try done; f_equal; lia. }
  destruct (rotateLoop_spec (Z.to_nat (m - a + (b - m))) d (a + (m - a)) (m - a) (b - m))
    as (d' & -> & Hsp & Hat); [lia..|].
  exists d'. split; [done|]. split; [eapply sp_mono; [exact Hsp|lia..]|]. intros k.
  rewrite Hat. cases; try done; f_equal; lia.
Qed.
