(** Correctness of insertion sort, heap sort and quick sort. *)
From Verif Require Import GoBase ModelSort ProofSort.

Section sorting.
Context (key : Z → Z) (lt ge : Z → Z → bool).
Hypothesis Hlt : ∀ x y, lt x y = (key x <? key y).
Hypothesis Hge : ∀ x y, ge x y = (key x >=? key y).

Notation K d k := (key (at_ d k)).

(** the segment [a, b) is in order *)
Definition srt (a b : Z) (d : list Z) : Prop :=
  ∀ x y, a <= x → x <= y → y < b → K d x <= K d y.

Lemma sp_outK a b d d' k : sp a b d d' → k < a ∨ b <= k → K d' k = K d k.
Proof. intros H Hk. by rewrite (sp_out _ _ _ _ k H Hk). Qed.
Lemma sp_allK a b d d' (P : Z → Prop) :
  sp a b d d' → (∀ k, a <= k < b → P (K d k)) → ∀ k, a <= k < b → P (K d' k).
Proof. intros H. by apply (sp_all a b d d' (λ x, P (key x))). Qed.
Lemma srt_out a b a' b' d d' :
  sp a' b' d d' → (b <= a' ∨ b' <= a) → srt a b d → srt a b d'.
Proof.
  intros H Hd HS x y H1 H2 H3.
  rewrite (sp_outK _ _ _ _ x H), (sp_outK _ _ _ _ y H) by lia. by apply HS.
Qed.

Lemma swapK d i j d' k :
  swap d i j = Some d' →
  K d' k = if k =? i then K d j else if k =? j then K d i else K d k.
Proof. intros H. apply swap_some in H as (_ & _ & _ & ->). by destruct (k =? i), (k =? j). Qed.

(** *** Insertion sort *)
Lemma insertLoop_spec n : ∀ d a j i,
  0 <= a → a <= j <= i → i < zlen d → j - a <= Z.of_nat n →
  (∀ x y, a <= x → x <= y → y <= i → y ≠ j → K d x <= K d y) →
  ∃ d', insertLoop lt n d a j = Some d' ∧ sp a (i + 1) d d' ∧ srt a (i + 1) d'.
Proof.
  induction n as [|n IH]; intros d a j i Ha Hj Hi Hn HS; cbn [insertLoop].
  { destruct (Z.gtb_spec j a); [lia|]. exists d. split; [done|]. split; [constructor|].
    intros x y Hx Hxy Hy. destruct (Z.eq_dec y j) as [->|]; [|apply HS; lia].
    replace x with j by lia. lia. }
  destruct (Z.gtb_spec j a) as [Hja|Hja].
  2:{ exists d. split; [done|]. split; [constructor|].
    intros x y Hx Hxy Hy. destruct (Z.eq_dec y j) as [->|]; [|apply HS; lia].
    replace x with j by lia. lia. }
  rewrite (zget_at d j), (zget_at d (j - 1)) by lia. rewrite Hlt.
  destruct (Z.ltb_spec (K d j) (K d (j - 1))) as [Hl|Hl].
  - destruct (swap_ok d j (j - 1)) as [d1 E]; [lia..|]. rewrite E.
    pose proof (swap_some _ _ _ _ E) as (_ & _ & Hlen & _).
    destruct (IH d1 a (j - 1) i) as (d' & -> & Hsp & Hs); [lia..| |].
    { intros x y Hx Hxy Hy Hne. rewrite !(swapK _ _ _ _ _ E).
      pose proof (HS x y). pose proof (HS x (j - 1)). pose proof (HS j y). pose proof (HS (j-1) y).
      cases; subst; lia. }
    exists d'. split; [done|]. split; [|done].
    eapply sp_step; [| |exact E|exact Hsp]; lia.
  - exists d. split; [done|]. split; [constructor|].
    intros x y Hx Hxy Hy. destruct (Z.eq_dec y j) as [->|]; [|apply HS; lia].
    destruct (Z.eq_dec x j) as [->|]; [lia|]. pose proof (HS x (j - 1)). lia.
Qed.

Lemma insertionLoop_spec n : ∀ d a i,
  0 <= a < i → i + Z.of_nat n <= zlen d → srt a i d →
  ∃ d', insertionLoop lt n d a i = Some d' ∧ sp a (i + Z.of_nat n) d d' ∧
        srt a (i + Z.of_nat n) d'.
Proof.
  induction n as [|n IH]; intros d a i Ha Hi HS; cbn [insertionLoop].
  { exists d. split; [done|]. split; [constructor|]. by rewrite Z.add_0_r. }
  destruct (insertLoop_spec (Z.to_nat (i - a)) d a i i) as (d1 & -> & Hsp & Hs); [lia..| |].
  { intros x y Hx Hxy Hy Hne. apply HS; lia. }
  destruct (IH d1 a (i + 1)) as (d' & -> & Hsp' & Hs');
    [lia|rewrite (sp_len _ _ _ _ Hsp); lia|done|].
  exists d'. split; [done|]. split.
  - eapply sp_trans; [eapply sp_mono; [exact Hsp|lia..]|eapply sp_mono; [exact Hsp'|lia..]].
  - by replace (i + Z.of_nat (S n)) with (i + 1 + Z.of_nat n) by lia.
Qed.

Lemma insertionSort_spec d a b :
  0 <= a → b <= zlen d →
  ∃ d', insertionSort lt d a b = Some d' ∧ sp a b d d' ∧ srt a b d'.
Proof.
  intros Ha Hb. unfold insertionSort. destruct (Z.le_gt_cases b (a + 1)) as [Hle|Hgt].
  - replace (Z.to_nat (b - (a + 1))) with 0%nat by lia. exists d. split; [done|].
    split; [constructor|]. intros x y ???. replace x with y by lia. lia.
  - destruct (insertionLoop_spec (Z.to_nat (b - (a + 1))) d a (a + 1))
      as (d' & -> & Hsp & Hs); [lia..| |].
    { intros x y ???. replace x with y by lia. lia. }
    replace (a + 1 + Z.of_nat (Z.to_nat (b - (a + 1)))) with b in * by lia. by exists d'.
Qed.

(** *** Heap sort *)

(** every node from [lo] on is at least as large as its children below [hi] *)
Definition heap (lo hi first : Z) (d : list Z) : Prop :=
  ∀ r c, lo <= r → c = 2 * r + 1 ∨ c = 2 * r + 2 → c < hi →
  K d (first + c) <= K d (first + r).

Lemma siftLoop_spec n : ∀ d lo root hi first,
  0 <= first → 0 <= lo <= root → first + hi <= zlen d → hi - root <= Z.of_nat n →
  (∀ r c, lo <= r → c = 2 * r + 1 ∨ c = 2 * r + 2 → c < hi → r ≠ root →
     K d (first + c) <= K d (first + r)) →
  (∀ r c, lo <= r → root = 2 * r + 1 ∨ root = 2 * r + 2 →
     c = 2 * root + 1 ∨ c = 2 * root + 2 → c < hi → K d (first + c) <= K d (first + r)) →
  ∃ d', siftLoop lt ge n d root hi first = Some d' ∧
        sp (first + root) (first + hi) d d' ∧ heap lo hi first d'.
Proof.
  induction n as [|n IH]; intros d lo root hi first Hf Hlo Hhi Hn H1 H2; cbn [siftLoop].
  { destruct (Z.geb_spec (2 * root + 1) hi); [|lia]. exists d. split; [done|].
    split; [constructor|]. intros r c Hr Hc Hch. apply H1; try done. lia. }
  destruct (Z.geb_spec (2 * root + 1) hi) as [Hc|Hc].
  { exists d. split; [done|]. split; [constructor|]. intros r c Hr Hcr Hch.
    apply H1; try done. lia. }
  assert (∃ child, (if 2 * root + 1 + 1 <? hi then
               match zget d (first + (2 * root + 1)), zget d (first + (2 * root + 1) + 1) with
               | Some x, Some y => Some (if lt x y then 2 * root + 1 + 1 else 2 * root + 1)
               | _, _ => None
               end
             else Some (2 * root + 1)) = Some child ∧
          (child = 2 * root + 1 ∨ child = 2 * root + 2) ∧ child < hi ∧
          (∀ c, c = 2 * root + 1 ∨ c = 2 * root + 2 → c < hi →
             K d (first + c) <= K d (first + child))) as (child & -> & Hch & Hchi & Hmax).
  { destruct (Z.ltb_spec (2 * root + 1 + 1) hi) as [Hr|Hr].
    - rewrite (zget_at d (first + (2 * root + 1))) by lia.
      rewrite (zget_at d (first + (2 * root + 1) + 1)) by lia. rewrite Hlt.
      replace (first + (2 * root + 1) + 1) with (first + (2 * root + 2)) by lia.
      destruct (Z.ltb_spec (K d (first + (2 * root + 1))) (K d (first + (2 * root + 2)))) as [Hl|Hl].
      + exists (2 * root + 1 + 1). repeat split; try lia.
        intros c [-> | ->] _; replace (2 * root + 1 + 1) with (2 * root + 2) by lia; lia.
      + exists (2 * root + 1). repeat split; try lia.
        intros c [-> | ->] _; lia.
    - exists (2 * root + 1). repeat split; try lia.
      intros c [-> | ->] Hcc; [lia|lia]. }
  rewrite (zget_at d (first + root)), (zget_at d (first + child)) by lia. rewrite Hge.
  destruct (Z.geb_spec (K d (first + root)) (K d (first + child))) as [Hg|Hg].
  { exists d. split; [done|]. split; [constructor|]. intros r c Hr Hcr Hchr.
    destruct (Z.eq_dec r root) as [->|Hne]; [|by apply H1].
    pose proof (Hmax c Hcr Hchr). lia. }
  destruct (swap_ok d (first + root) (first + child)) as [d1 E]; [lia..|]. rewrite E.
  pose proof (swap_some _ _ _ _ E) as (_ & _ & Hlen & _).
  destruct (IH d1 lo child hi first) as (d' & -> & Hsp & Hs); [lia..| | |].
  - intros r c Hr Hcr Hchr Hne. rewrite !(swapK _ _ _ _ _ E).
    pose proof (H1 r c Hr Hcr Hchr) as P1. pose proof (Hmax c) as P2.
    pose proof (H1 r root Hr) as P3. pose proof (H2 r child Hr) as P4.
    cases; try lia.
  - intros r c Hr Hroot Hcr Hchr. rewrite !(swapK _ _ _ _ _ E).
    pose proof (H1 child c ltac:(lia) Hcr Hchr ltac:(lia)) as P1.
    assert (r = root) as -> by lia.
    cases; try lia.
  - exists d'. split; [done|]. split; [|done].
    eapply sp_step; [| |exact E|]; [lia..|]. eapply sp_mono; [exact Hsp|lia..].
Qed.

Lemma siftDown_spec d lo hi first :
  0 <= first → 0 <= lo → first + hi <= zlen d →
  heap (lo + 1) hi first d →
  ∃ d', siftDown lt ge d lo hi first = Some d' ∧
        sp (first + lo) (first + hi) d d' ∧ heap lo hi first d'.
Proof.
  intros Hf Hlo Hhi Hh. unfold siftDown.
  destruct (Z.le_gt_cases hi lo) as [Hle|Hgt].
  - exists d. split.
    { destruct (Z.to_nat hi); cbn [siftLoop]; by destruct (Z.geb_spec (2 * lo + 1) hi); [|lia]. }
    split; [constructor|]. intros r c Hr Hc Hch. lia.
  - apply siftLoop_spec; try lia. intros r c Hr Hc Hch Hne. apply Hh; lia.
Qed.

Lemma heap_top hi first d : heap 0 hi first d →
  ∀ c, 0 <= c < hi → K d (first + c) <= K d (first + 0).
Proof.
  intros Hh. assert (∀ n : nat, ∀ c, c <= Z.of_nat n → 0 <= c < hi →
    K d (first + c) <= K d (first + 0)) as H.
  { induction n as [|n IH]; intros c Hn Hc.
    - replace c with 0 by lia. lia.
    - destruct (Z.eq_dec c 0) as [->|Hne]; [lia|].
      set (r := (c - 1) / 2).
      assert (2 * r <= c - 1 < 2 * r + 2) as Hr.
      { pose proof (Z.div_mod (c - 1) 2 ltac:(lia)) as Hd.
        pose proof (Z.mod_pos_bound (c - 1) 2 ltac:(lia)). unfold r. lia. }
      pose proof (IH r ltac:(lia) ltac:(lia)).
      pose proof (Hh r c ltac:(lia) ltac:(lia) ltac:(lia)). lia. }
  intros c Hc. apply (H (Z.to_nat c)); lia.
Qed.

Lemma heapifyLoop_spec n : ∀ d hi first,
  0 <= first → first + hi <= zlen d → heap (Z.of_nat n) hi first d →
  ∃ d', heapifyLoop lt ge n d hi first = Some d' ∧
        sp first (first + hi) d d' ∧ heap 0 hi first d'.
Proof.
  induction n as [|n IH]; intros d hi first Hf Hhi Hh; cbn [heapifyLoop].
  { exists d. split; [done|]. split; [constructor|done]. }
  destruct (siftDown_spec d (Z.of_nat n) hi first) as (d1 & -> & Hsp & Hh1); [lia..| |].
  { by replace (Z.of_nat n + 1) with (Z.of_nat (S n)) by lia. }
  destruct (IH d1 hi first) as (d' & -> & Hsp' & Hh'); [done|rewrite (sp_len _ _ _ _ Hsp); lia|done|].
  exists d'. split; [done|]. split; [|done].
  eapply sp_trans; [eapply sp_mono; [exact Hsp|lia..]|exact Hsp'].
Qed.

Lemma extractLoop_spec n : ∀ d first b,
  0 <= first → first + Z.of_nat n <= b → b <= zlen d → heap 0 (Z.of_nat n) first d →
  srt (first + Z.of_nat n) b d →
  (∀ x y, first <= x < first + Z.of_nat n → first + Z.of_nat n <= y < b → K d x <= K d y) →
  ∃ d', extractLoop lt ge n d first = Some d' ∧ sp first b d d' ∧ srt first b d'.
Proof.
  induction n as [|n IH]; intros d first b Hf Hn Hb Hh Hs Hle; cbn [extractLoop].
  { exists d. split; [done|]. split; [constructor|]. by rewrite Z.add_0_r in Hs. }
  destruct (swap_ok d first (first + Z.of_nat n)) as [d1 E]; [lia..|]. rewrite E.
  pose proof (swap_some _ _ _ _ E) as (_ & _ & Hlen & _).
  pose proof (heap_top _ _ _ Hh) as Htop.
  destruct (siftDown_spec d1 0 (Z.of_nat n) first) as (d2 & -> & Hsp & Hh2); [lia..| |].
  { intros r c Hr Hc Hch. rewrite !(swapK _ _ _ _ _ E).
    pose proof (Hh r c ltac:(lia) Hc ltac:(lia)). cases; lia. }
  rewrite Z.add_0_r in Hsp. rewrite Z.add_0_r in Htop.
  assert (Hd1 : ∀ x, first <= x < first + Z.of_nat n → K d1 x <= K d first).
  { intros x Hx. rewrite (swapK _ _ _ _ _ E).
    pose proof (Htop (x - first) ltac:(lia)) as P.
    replace (first + (x - first)) with x in P by lia.
    pose proof (Htop (Z.of_nat n) ltac:(lia)). cases; lia. }
  assert (Hd2 : ∀ x, first <= x < first + Z.of_nat n → K d2 x <= K d first).
  { intros x Hx. by apply (sp_allK _ _ _ _ (λ z, z <= K d first) Hsp Hd1). }
  assert (Hup : ∀ y, first + Z.of_nat n <= y < b →
     K d2 y = if y =? first + Z.of_nat n then K d first else K d y).
  { intros y Hy. rewrite (sp_outK _ _ _ _ y Hsp) by lia. rewrite (swapK _ _ _ _ _ E).
    cases; subst; try done; f_equal; f_equal; lia. }
  assert (Hl : ∀ y, first + Z.of_nat n <= y < b → K d first <= K d2 y).
  { intros y Hy. rewrite (Hup y Hy). cases; [lia|].
    apply Hle; lia. }
  destruct (IH d2 first b) as (d' & -> & Hsp' & Hs'); [done|lia| |done| | |].
  - rewrite (sp_len _ _ _ _ Hsp). lia.
  - intros x y Hx Hxy Hy. destruct (Z.eq_dec x (first + Z.of_nat n)) as [->|Hne].
    + rewrite (Hup (first + Z.of_nat n)) by lia. rewrite Z.eqb_refl. apply Hl. lia.
    + rewrite !Hup by lia. cases. apply Hs; lia.
  - intros x y Hx Hy. pose proof (Hd2 x Hx). pose proof (Hl y Hy). lia.
  - exists d'. split; [done|]. split; [|done].
    eapply sp_step; [| |exact E|]; [lia..|].
    eapply sp_trans; [eapply sp_mono; [exact Hsp|lia..]|exact Hsp'].
Qed.

Lemma heapSort_spec d a b :
  0 <= a <= b → b <= zlen d →
  ∃ d', heapSort lt ge d a b = Some d' ∧ sp a b d d' ∧ srt a b d'.
Proof.
  intros Ha Hb. unfold heapSort.
  assert (Hq : b - a <= 2 * Z.of_nat (Z.to_nat (Z.quot (b - a - 1) 2 + 1))).
  { destruct (Z.eq_dec b a) as [->|Hne]; [lia|].
    rewrite Z.quot_div_nonneg by lia.
    pose proof (Z.div_mod (b - a - 1) 2 ltac:(lia)).
    pose proof (Z.mod_pos_bound (b - a - 1) 2 ltac:(lia)). lia. }
  destruct (heapifyLoop_spec (Z.to_nat (Z.quot (b - a - 1) 2 + 1)) d (b - a) a)
    as (d1 & -> & Hsp & Hh); [lia..| |].
  { intros r c Hr Hc Hch. lia. }
  replace (a + (b - a)) with b in Hsp by lia.
  destruct (extractLoop_spec (Z.to_nat (b - a)) d1 a b) as (d' & -> & Hsp' & Hs); try lia.
  - rewrite (sp_len _ _ _ _ Hsp). lia.
  - by rewrite Z2Nat.id by lia.
  - intros x y Hx Hxy Hy. lia.
  - exists d'. split; [done|]. split; [|done]. by eapply sp_trans.
Qed.

(** *** Quick sort *)
Lemma condSwap_spec d i j lo hi :
  lo <= i < hi → lo <= j < hi → 0 <= lo → hi <= zlen d →
  ∃ d', condSwap lt d i j = Some d' ∧ sp lo hi d d'.
Proof.
  intros Hi Hj Hlo Hhi. unfold condSwap. rewrite (zget_at d i), (zget_at d j) by lia.
  destruct (lt _ _).
  - destruct (swap_ok d i j) as [d1 E]; [lia..|]. exists d1. split; [done|].
    by eapply sp_one; [| |exact E].
  - exists d. split; [done|constructor].
Qed.

Lemma medianOfThree_spec d m1 m0 m2 lo hi :
  lo <= m1 < hi → lo <= m0 < hi → lo <= m2 < hi → 0 <= lo → hi <= zlen d →
  ∃ d', medianOfThree lt d m1 m0 m2 = Some d' ∧ sp lo hi d d'.
Proof.
  intros H1 H0 H2 Hlo Hhi. unfold medianOfThree.
  destruct (condSwap_spec d m1 m0 lo hi) as (d1 & -> & S1); [lia..|].
  pose proof (sp_len _ _ _ _ S1).
  destruct (condSwap_spec d1 m2 m1 lo hi) as (d2 & -> & S2); [lia..|].
  pose proof (sp_len _ _ _ _ S2).
  destruct (condSwap_spec d2 m1 m0 lo hi) as (d3 & -> & S3); [lia..|].
  exists d3. split; [done|]. eapply sp_trans; [exact S1|]. by eapply sp_trans.
Qed.

Lemma choosePivot_spec d lo hi :
  0 <= lo < hi → hi <= zlen d →
  ∃ d', choosePivot lt d lo hi = Some d' ∧ sp lo hi d d'.
Proof.
  intros Hlo Hhi. unfold choosePivot.
  rewrite !Z.quot_div_nonneg by lia.
  pose proof (Z.div_mod (hi - lo) 2 ltac:(lia)) as D2.
  pose proof (Z.mod_pos_bound (hi - lo) 2 ltac:(lia)) as B2.
  pose proof (Z.div_mod (hi - lo) 8 ltac:(lia)) as D8.
  pose proof (Z.mod_pos_bound (hi - lo) 8 ltac:(lia)) as B8.
  set (h := (hi - lo) / 2) in *. set (s := (hi - lo) / 8) in *. clearbody h s.
  assert (∃ d1, (if hi - lo >? 40 then
           match medianOfThree lt d lo (lo + s) (lo + 2 * s) with
           | Some d1 => match medianOfThree lt d1 (lo + h) (lo + h - s) (lo + h + s) with
                        | Some d2 => medianOfThree lt d2 (hi - 1) (hi - 1 - s) (hi - 1 - 2 * s)
                        | None => None
                        end
           | None => None
           end
         else Some d) = Some d1 ∧ sp lo hi d d1) as (d1 & Ed1 & S).
  { destruct (Z.gtb_spec (hi - lo) 40).
    - destruct (medianOfThree_spec d lo (lo + s) (lo + 2 * s) lo hi) as (d1 & -> & S1); [lia..|].
      pose proof (sp_len _ _ _ _ S1).
      destruct (medianOfThree_spec d1 (lo + h) (lo + h - s) (lo + h + s) lo hi)
        as (d2 & -> & S2); [lia..|].
      pose proof (sp_len _ _ _ _ S2).
      destruct (medianOfThree_spec d2 (hi - 1) (hi - 1 - s) (hi - 1 - 2 * s) lo hi)
        as (d3 & -> & S3); [lia..|].
      exists d3. split; [done|]. eapply sp_trans; [exact S1|]. by eapply sp_trans.
    - exists d. split; [done|constructor]. }
  cbv zeta. rewrite Ed1. pose proof (sp_len _ _ _ _ S).
  destruct (medianOfThree_spec d1 lo (lo + h) (hi - 1) lo hi) as (d2 & -> & S2); [lia..|].
  exists d2. split; [done|]. by eapply sp_trans.
Qed.

(** the state of the partition: [lo, a) equal to the pivot, [a, b) smaller,
    [c, e) larger, [e, hi) equal *)
Record part (lo hi p : Z) (d : list Z) (a b c e : Z) : Prop := {
  pt_lo : 0 <= lo; pt_la : lo < a; pt_ab : a <= b; pt_bc : b <= c; pt_ce : c <= e;
  pt_eh : e <= hi; pt_hi : hi <= zlen d;
  pt_eq1 : ∀ k, lo <= k < a → K d k = p;
  pt_lt : ∀ k, a <= k < b → K d k < p;
  pt_gt : ∀ k, c <= k < e → p < K d k;
  pt_eq2 : ∀ k, e <= k < hi → K d k = p }.

Lemma pivotUp_spec n : ∀ lo hi p d a b c e,
  part lo hi p d a b c e → c - b <= Z.of_nat n →
  ∃ d' a' b', pivotUp lt ge n d lo a b c = Some (d', a', b') ∧ sp lo hi d d' ∧
    part lo hi p d' a' b' c e ∧ b <= b' ∧ (b' < c → p < K d' b').
Proof.
  induction n as [|n IH]; intros lo hi p d a b c e [] Hn; cbn [pivotUp].
  { destruct (Z.ltb_spec b c); [lia|]. exists d, a, b. repeat split; try done; [constructor|lia..]. }
  destruct (Z.ltb_spec b c) as [Hbc|Hbc].
  2:{ exists d, a, b. repeat split; try done; [constructor|lia..]. }
  rewrite (zget_at d b), (zget_at d lo) by lia. rewrite Hlt, Hge.
  rewrite (pt_eq3 lo) by lia.
  destruct (Z.ltb_spec (K d b) p) as [Hl|Hl].
  { destruct (IH lo hi p d a (b + 1) c e) as (d' & a' & b' & -> & Hsp & Hp & Hb & Hpost); [|lia|].
    { constructor; try done; try lia. intros k Hk.
      destruct (Z.eq_dec k b) as [->|]; [done|]. apply pt_lt0. lia. }
    exists d', a', b'. split; [done|]. split; [done|]. split; [done|]. split; [lia|done]. }
  destruct (Z.geb_spec p (K d b)) as [Hg|Hg].
  - destruct (swap_ok d a b) as [d1 E]; [lia..|]. rewrite E.
    pose proof (swap_some _ _ _ _ E) as (_ & _ & Hlen & _).
    destruct (IH lo hi p d1 (a + 1) (b + 1) c e)
      as (d' & a' & b' & -> & Hsp & Hp & Hb & Hpost); [|lia|].
    { constructor; try lia; intros k Hk; rewrite (swapK _ _ _ _ k E);
        pose proof (pt_eq3 k); pose proof (pt_lt0 k); pose proof (pt_lt0 a);
        pose proof (pt_gt0 k); pose proof (pt_eq4 k); cases; subst; lia. }
    exists d', a', b'. split; [done|]. split.
    { eapply sp_step; [| |exact E|exact Hsp]; lia. }
    split; [done|]. split; [lia|done].
  - exists d, a, b. repeat split; try done; [constructor|lia..].
Qed.

Lemma pivotDown_spec n : ∀ lo hi p d a b c e,
  part lo hi p d a b c e → c - b <= Z.of_nat n →
  ∃ d' c' e', pivotDown lt ge n d lo b c e = Some (d', c', e') ∧ sp lo hi d d' ∧
    part lo hi p d' a b c' e' ∧ c' <= c ∧ (b < c' → K d' (c' - 1) < p) ∧
    (b < c' → K d' b = K d b).
Proof.
  induction n as [|n IH]; intros lo hi p d a b c e [] Hn; cbn [pivotDown].
  { destruct (Z.ltb_spec b c); [lia|]. exists d, c, e. repeat split; try done; [constructor|lia..]. }
  destruct (Z.ltb_spec b c) as [Hbc|Hbc].
  2:{ exists d, c, e. repeat split; try done; [constructor|lia..]. }
  rewrite (zget_at d lo), (zget_at d (c - 1)) by lia. rewrite Hlt, Hge.
  rewrite (pt_eq3 lo) by lia.
  destruct (Z.ltb_spec p (K d (c - 1))) as [Hl|Hl].
  { destruct (IH lo hi p d a b (c - 1) e) as (d' & c' & e' & -> & Hsp & Hp & Hc & Hpost & Hb); [|lia|].
    { constructor; try done; try lia. intros k Hk.
      destruct (Z.eq_dec k (c - 1)) as [->|]; [done|]. apply pt_gt0. lia. }
    exists d', c', e'. split; [done|]. split; [done|]. split; [done|]. split; [lia|done]. }
  destruct (Z.geb_spec (K d (c - 1)) p) as [Hg|Hg].
  - destruct (swap_ok d (c - 1) (e - 1)) as [d1 E]; [lia..|]. rewrite E.
    pose proof (swap_some _ _ _ _ E) as (_ & _ & Hlen & _).
    destruct (IH lo hi p d1 a b (c - 1) (e - 1))
      as (d' & c' & e' & -> & Hsp & Hp & Hc & Hpost & Hb); [|lia|].
    { constructor; try lia; intros k Hk; rewrite (swapK _ _ _ _ k E);
        pose proof (pt_eq3 k); pose proof (pt_lt0 k); pose proof (pt_gt0 (e - 1));
        pose proof (pt_gt0 k); pose proof (pt_eq4 k);
        (destruct (Z.eq_dec e c); [subst e|]); cases; subst; lia. }
    exists d', c', e'. split; [done|]. split.
    { eapply sp_step; [| |exact E|exact Hsp]; lia. }
    split; [done|]. split; [lia|]. split; [done|].
    intros Hbc'. rewrite (Hb Hbc'), (swapK _ _ _ _ b E). cases; done.
  - exists d, c, e. repeat split; try done; [constructor|lia..].
Qed.

Lemma pivotLoop_spec n : ∀ lo hi p d a b c e,
  part lo hi p d a b c e → c - b <= Z.of_nat n →
  ∃ d' a' b' e', pivotLoop lt ge n d lo a b c e = Some (d', a', b', b', e') ∧
    sp lo hi d d' ∧ part lo hi p d' a' b' b' e'.
Proof.
  induction n as [|n IH]; intros lo hi p d a b c e Hp Hn; cbn [pivotLoop].
  all: destruct (pivotUp_spec (Z.to_nat (c - b)) lo hi p d a b c e Hp ltac:(lia))
    as (d1 & a1 & b1 & -> & S1 & Hp1 & Hb1 & Hup).
  all: destruct (pivotDown_spec (Z.to_nat (c - b1)) lo hi p d1 a1 b1 c e Hp1 ltac:(lia))
    as (d2 & c1 & e1 & -> & S2 & Hp2 & Hc1 & Hdn & Hkeep).
  all: pose proof (pt_bc _ _ _ _ _ _ _ _ Hp2) as Hbc.
  all: destruct (Z.geb_spec b1 c1) as [Hge1|Hlt1];
    [assert (c1 = b1) as -> by lia; exists d2, a1, b1, e1; split; [done|]; split; [by eapply sp_trans|done]|].
  { pose proof (pt_bc _ _ _ _ _ _ _ _ Hp1). lia. }
  pose proof (Hkeep Hlt1) as Hk. pose proof (Hdn Hlt1) as Hk2. pose proof (Hup ltac:(lia)) as Hk3.
  assert (b1 ≠ c1 - 1). { intros Heq. rewrite <- Heq in Hk2. lia. }
  destruct Hp2 as [].
  destruct (swap_ok d2 b1 (c1 - 1)) as [d3 E]; [lia..|]. rewrite E.
  pose proof (swap_some _ _ _ _ E) as (_ & _ & Hlen & _).
  destruct (IH lo hi p d3 a1 (b1 + 1) (c1 - 1) e1) as (d' & a' & b' & e' & -> & S3 & Hp3); [|lia|].
  { constructor; try lia; intros k Hkk; rewrite (swapK _ _ _ _ k E);
        pose proof (pt_eq3 k); pose proof (pt_lt0 k);
        pose proof (pt_gt0 k); pose proof (pt_eq4 k); cases; subst; lia. }
  exists d', a', b', e'. split; [done|]. split; [|done].
  eapply sp_trans; [exact S1|]. eapply sp_trans; [exact S2|].
  eapply sp_step; [| |exact E|exact S3]; lia.
Qed.

Lemma min_min a b : min a b = Z.min a b.
Proof. unfold min. destruct (Z.ltb_spec a b); lia. Qed.

Lemma doPivot_spec d lo hi :
  0 <= lo < hi → hi <= zlen d →
  ∃ d' mlo mhi p, doPivot lt ge d lo hi = Some (d', mlo, mhi) ∧ sp lo hi d d' ∧
    lo <= mlo ∧ mlo < mhi ∧ mhi <= hi ∧
    (∀ k, lo <= k < mlo → K d' k < p) ∧ (∀ k, mlo <= k < mhi → K d' k = p) ∧
    (∀ k, mhi <= k < hi → p < K d' k).
Proof.
  intros Hlo Hhi. unfold doPivot.
  destruct (choosePivot_spec d lo hi) as (d0 & -> & S0); [lia..|].
  pose proof (sp_len _ _ _ _ S0) as L0.
  destruct (pivotLoop_spec (Z.to_nat (hi - lo)) lo hi (K d0 lo) d0 (lo + 1) (lo + 1) hi hi)
    as (d1 & a & b & e & -> & S1 & Hp); [|lia|].
  { constructor; try lia; intros k Hk; replace k with lo by lia; done. }
  pose proof (sp_len _ _ _ _ S1) as L1. destruct Hp as []. cbv zeta.
  rewrite !min_min.
  destruct (swapRange_spec d1 lo (b - Z.min (b - a) (a - lo)) (Z.min (b - a) (a - lo)))
    as (d2 & -> & S2 & A2); [lia..|].
  pose proof (sp_len _ _ _ _ S2) as L2.
  destruct (swapRange_spec d2 b (hi - Z.min (hi - e) (e - b)) (Z.min (hi - e) (e - b)))
    as (d3 & -> & S3 & A3); [lia..|].
  exists d3, (lo + b - a), (hi - (e - b)), (K d0 lo). split; [done|]. split.
  { eapply sp_trans; [exact S0|]. eapply sp_trans; [exact S1|].
    eapply sp_trans; [eapply sp_mono; [exact S2|lia..]|eapply sp_mono; [exact S3|lia..]]. }
  split; [lia|]. split; [lia|]. split; [lia|].
  assert (HK : ∀ k, lo <= k < hi →
    (k < lo + b - a → K d3 k < K d0 lo) ∧
    (lo + b - a <= k < hi - (e - b) → K d3 k = K d0 lo) ∧
    (hi - (e - b) <= k → K d0 lo < K d3 k)).
  { intros k Hk. rewrite A3, !A2. split; [|split]; intros Hk2.
    - cases; first [apply pt_lt0; lia | lia].
    - cases; first [apply pt_eq3; lia | apply pt_eq4; lia].
    - cases; first [apply pt_gt0; lia | lia]. }
  split; [|split]; intros k Hk; apply HK; lia.
Qed.

Lemma quickSort_spec n : ∀ d a b,
  0 <= a → b <= zlen d →
  ∃ d', quickSort lt ge n d a b = Some d' ∧ sp a b d d' ∧ srt a b d'.
Proof.
  assert (Hsmall : ∀ d a b, 0 <= a → b <= zlen d → ∃ d',
    (if b - a >? 1 then insertionSort lt d a b else Some d) = Some d' ∧ sp a b d d' ∧ srt a b d').
  { intros d a b Ha Hb. destruct (Z.gtb_spec (b - a) 1); [by apply insertionSort_spec|].
    exists d. split; [done|]. split; [constructor|]. intros x y ???. replace x with y by lia. lia. }
  induction n as [|n IH]; intros d a b Ha Hb; cbn [quickSort];
    (destruct (Z.gtb_spec (b - a) 7) as [H7|H7]; [|by apply Hsmall]).
  { apply heapSort_spec; lia. }
  destruct (doPivot_spec d a b) as (d1 & mlo & mhi & p & -> & S1 & Hm1 & Hm2 & Hm3 & Hl & He & Hg);
    [lia..|].
  pose proof (sp_len _ _ _ _ S1) as L1.
  assert (∃ d', (if mlo - a <? b - mhi then
              match quickSort lt ge n d1 a mlo with
              | Some d2 => quickSort lt ge n d2 mhi b
              | None => None
              end
            else
              match quickSort lt ge n d1 mhi b with
              | Some d2 => quickSort lt ge n d2 a mlo
              | None => None
              end) = Some d' ∧ ∃ d2, (sp a mlo d1 d2 ∧ sp mhi b d2 d' ∨ sp mhi b d1 d2 ∧ sp a mlo d2 d')
              ∧ srt a mlo d' ∧ srt mhi b d') as (d' & -> & d2 & Hsp & Hs1 & Hs2).
  { destruct (_ <? _).
    - destruct (IH d1 a mlo) as (d2 & -> & S2 & R2); [lia..|].
      pose proof (sp_len _ _ _ _ S2).
      destruct (IH d2 mhi b) as (d3 & -> & S3 & R3); [lia..|].
      exists d3. split; [done|]. exists d2. split; [by left|]. split; [|done].
      eapply srt_out; [exact S3| |exact R2]. lia.
    - destruct (IH d1 mhi b) as (d2 & -> & S2 & R2); [lia..|].
      pose proof (sp_len _ _ _ _ S2).
      destruct (IH d2 a mlo) as (d3 & -> & S3 & R3); [lia..|].
      exists d3. split; [done|]. exists d2. split; [by right|]. split; [done|].
      eapply srt_out; [exact S3| |exact R2]. lia. }
  assert ((∀ k, a <= k < mlo → K d' k < p) ∧ (∀ k, mlo <= k < mhi → K d' k = p) ∧
          (∀ k, mhi <= k < b → p < K d' k)) as (Hl' & He' & Hg').
  { destruct Hsp as [[S2 S3]|[S2 S3]]; (split; [|split]); intros k Hk.
    - rewrite (sp_outK _ _ _ _ k S3) by lia. by apply (sp_allK _ _ _ _ (λ z, z < p) S2).
    - rewrite (sp_outK _ _ _ _ k S3), (sp_outK _ _ _ _ k S2) by lia. by apply He.
    - apply (sp_allK _ _ _ _ (λ z, p < z) S3); [|lia].
      intros k' Hk'. rewrite (sp_outK _ _ _ _ k' S2) by lia. by apply Hg.
    - apply (sp_allK _ _ _ _ (λ z, z < p) S3); [|lia].
      intros k' Hk'. rewrite (sp_outK _ _ _ _ k' S2) by lia. by apply Hl.
    - rewrite (sp_outK _ _ _ _ k S3), (sp_outK _ _ _ _ k S2) by lia. by apply He.
    - rewrite (sp_outK _ _ _ _ k S3) by lia. by apply (sp_allK _ _ _ _ (λ z, p < z) S2). }
  exists d'. split; [done|]. split.
  - eapply sp_trans; [exact S1|].
    destruct Hsp as [[S2 S3]|[S2 S3]];
      (eapply sp_trans; [eapply sp_mono; [exact S2|lia..]|eapply sp_mono; [exact S3|lia..]]).
  - intros x y Hx Hxy Hy.
    destruct (Z.lt_ge_cases y mlo); [apply Hs1; lia|].
    destruct (Z.le_gt_cases mhi x); [apply Hs2; lia|].
    assert (K d' x <= p).
    { destruct (Z.lt_ge_cases x mlo); [pose proof (Hl' x); lia|pose proof (He' x); lia]. }
    assert (p <= K d' y).
    { destruct (Z.lt_ge_cases y mhi); [pose proof (He' y); lia|pose proof (Hg' y); lia]. }
    lia.
Qed.

Lemma sortAll_spec d :
  ∃ d', sortAll lt ge d = Some d' ∧ d' ≡ₚ d ∧ srt 0 (zlen d) d'.
Proof.
  destruct (quickSort_spec (2 * depthLoop (length d) (zlen d)) d 0 (zlen d))
    as (d' & E & S & R); [lia..|].
  exists d'. split; [exact E|]. split; [by eapply sp_perm|done].
Qed.

(** *** The test for order *)
Lemma isSortedLoop_spec n : ∀ d, Z.of_nat n < zlen d ∨ n = 0%nat →
  ∃ r, isSortedLoop lt n d = Some r ∧
    (r = true ↔ ∀ k, 0 < k <= Z.of_nat n → K d (k - 1) <= K d k).
Proof.
  induction n as [|n IH]; intros d Hn; cbn [isSortedLoop].
  { exists true. split; [done|]. split; [lia|done]. }
  rewrite (zget_at d (Z.of_nat (S n))), (zget_at d (Z.of_nat (S n) - 1)) by lia.
  rewrite Hlt. destruct (Z.ltb_spec (K d (Z.of_nat (S n))) (K d (Z.of_nat (S n) - 1))) as [Hl|Hl].
  - exists false. split; [done|]. split; [done|]. intros H.
    pose proof (H (Z.of_nat (S n)) ltac:(lia)). lia.
  - destruct (IH d) as (r & -> & Hr); [lia|]. exists r. split; [done|]. rewrite Hr. split.
    + intros H k Hk. destruct (Z.eq_dec k (Z.of_nat (S n))) as [->|]; [done|]. apply H. lia.
    + intros H k Hk. apply H. lia.
Qed.

Lemma isSorted_spec d :
  ∃ r, isSorted lt d = Some r ∧ (r = true ↔ srt 0 (zlen d) d).
Proof.
  unfold isSorted. pose proof (zlen_nonneg d).
  destruct (isSortedLoop_spec (Z.to_nat (zlen d - 1)) d) as (r & E & Hr); [lia|].
  exists r. split; [done|]. rewrite Hr. split.
  - intros Hk.
    assert (∀ n : nat, ∀ x, 0 <= x → x + Z.of_nat n < zlen d → K d x <= K d (x + Z.of_nat n)) as Hn.
    { induction n as [|n IH]; intros x Hx Hlen.
      - replace (x + Z.of_nat 0) with x by lia. lia.
      - pose proof (IH x Hx ltac:(lia)).
        pose proof (Hk (x + Z.of_nat (S n)) ltac:(lia)) as P.
        replace (x + Z.of_nat (S n) - 1) with (x + Z.of_nat n) in P by lia. lia. }
    intros x y Hx Hxy Hy. pose proof (Hn (Z.to_nat (y - x)) x Hx ltac:(lia)) as P.
    by replace (x + Z.of_nat (Z.to_nat (y - x))) with y in P by lia.
  - intros H2 k Hk. apply H2; lia.
Qed.
End sorting.
