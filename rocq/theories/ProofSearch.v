(** Correctness of the position search (core/indexer.go:690-721). *)
From Verif Require Import ModelIndexer.

Lemma zget_sorted ids i j x y :
  StronglySorted slt ids → i < j → zget ids i = Some x → zget ids j = Some y → slt x y.
Proof.
  intros Hs Hij [Hi1 Hi2]%zget_Some [Hj1 Hj2]%zget_Some.
  eapply (StronglySorted_lookup slt ids (Z.to_nat i) (Z.to_nat j)); eauto. lia.
Qed.

Lemma zget_sorted_inv ids i j x y :
  StronglySorted slt ids → zget ids i = Some x → zget ids j = Some y → slt x y → i < j.
Proof.
  intros Hs [Hi1 Hi2]%zget_Some [Hj1 Hj2]%zget_Some Hxy.
  pose proof (StronglySorted_lookup_inv ids _ _ _ _ Hs Hi2 Hj2 Hxy). lia.
Qed.

(** [p] is the place of [id] in the range [start..end_] of [ids]; [b] tells whether
    [id] itself is there. *)
Definition is_place (ids : list string) (start end_ : Z) (id : string) (p : Z) (b : bool) : Prop :=
  start <= p <= end_ + 1 ∧
  (∀ i x, start <= i < p → zget ids i = Some x → slt x id) ∧
  (∀ i x, p < i <= end_ → zget ids i = Some x → slt id x) ∧
  (if b then p <= end_ ∧ zget ids p = Some id
   else ∀ x, p <= end_ → zget ids p = Some x → slt id x).

Lemma searchLoop_spec fuel ids start end_ id xs xe :
  StronglySorted slt ids →
  0 <= start → start < end_ → end_ < zlen ids → (Z.to_nat (end_ - start) ≤ S fuel)%nat →
  zget ids start = Some xs → slt xs id →
  zget ids end_ = Some xe → slt id xe →
  ∃ p b, searchLoop fuel ids start end_ id = Some (p, b) ∧ is_place ids start end_ id p b.
Proof.
  intros Hs. revert start end_ xs xe.
  induction fuel as [|fuel IH]; intros start end_ xs xe H0 Hse Hend Hfuel Hxs Hlt Hxe Hgt.
  - simpl. destruct (Z.gtb_spec (end_ - start) 1); [lia|].
    exists end_, false. split; [done|]. repeat split; [lia|lia|..].
    + intros i x Hi Hx. assert (i = start) as -> by lia. congruence.
    + intros i x Hi. lia.
    + intros x _ Hx. congruence.
  - simpl. destruct (Z.gtb_spec (end_ - start) 1) as [Hgap|Hgap]; cycle 1.
    { exists end_, false. split; [done|]. repeat split; [lia|lia|..].
      + intros i x Hi Hx. assert (i = start) as -> by lia. congruence.
      + intros i x Hi. lia.
      + intros x _ Hx. congruence. }
    rewrite Z.quot_div_nonneg by lia.
    set (mid := (start + end_) / 2).
    assert (start < mid < end_) as [Hm1 Hm2].
    { subst mid. pose proof (Z.div_mod (start + end_) 2). 
      pose proof (Z.mod_pos_bound (start + end_) 2). lia. }
    destruct (zget_in ids mid) as [xm Hxm]; [lia|]. rewrite Hxm. simpl.
    destruct (seqb id xm) eqn:Eeq.
    { apply seqb_eq in Eeq as <-. exists mid, true. split; [done|].
      repeat split; try lia.
      + intros i x Hi Hx. eapply zget_sorted; [done| |exact Hx|exact Hxm]. lia.
      + intros i x Hi Hx. eapply zget_sorted; [done| |exact Hxm|exact Hx]. lia.
      + done. }
    apply seqb_neq in Eeq.
    destruct (sltb xm id) eqn:Elt.
    + destruct (IH mid end_ xm xe) as (p & b & Hrun & (Hp & H1 & H2 & H3)); try done; try lia.
      exists p, b. split; [done|]. repeat split; try lia.
      * intros i x Hi Hx. destruct (decide (i < mid)).
        -- trans xm; [|done]. eapply zget_sorted; [done| |exact Hx|exact Hxm]. lia.
        -- eapply H1; [|done]. lia.
      * done.
      * done.
    + apply sltb_false in Elt. assert (slt id xm) by (destruct (slt_trich xm id) as [|[|]]; naive_solver).
      destruct (IH start mid xs xm) as (p & b & Hrun & (Hp & H1 & H2 & H3)); try done; try lia.
      exists p, b. split; [done|]. repeat split; try lia.
      * done.
      * intros i x Hi Hx. destruct (decide (i <= mid)).
        -- eapply H2; [|done]. lia.
        -- trans xm; [done|]. eapply zget_sorted; [done| |exact Hxm|exact Hx]. lia.
      * destruct b.
        -- destruct H3. split; [lia|done].
        -- intros x Hpe Hx. destruct (decide (p <= mid)); [by apply H3|].
           trans xm; [done|]. eapply zget_sorted; [done| |exact Hxm|exact Hx]. lia.
Qed.

Lemma searchIndex_spec ids start end_ id :
  StronglySorted slt ids →
  0 <= start <= end_ → end_ < zlen ids →
  ∃ p b, searchIndex ids start end_ id = Some (p, b) ∧ is_place ids start end_ id p b.
Proof.
  intros Hs Hse Hend. unfold searchIndex.
  destruct (Z.eqb_spec (zlen ids) start); [lia|].
  destruct (zget_in ids start) as [xs Hxs]; [lia|]. rewrite Hxs. simpl.
  destruct (sltb id xs) eqn:E1.
  { exists start, false. split; [done|]. apply sltb_true in E1. repeat split; try lia.
    - intros i x Hi Hx. trans xs; [done|]. eapply zget_sorted; [done| |exact Hxs|exact Hx]. lia.
    - intros x _ Hx. congruence. }
  destruct (seqb id xs) eqn:E2.
  { apply seqb_eq in E2 as <-. exists start, true. split; [done|]. repeat split; try lia.
    - intros i x Hi Hx. eapply zget_sorted; [done| |exact Hxs|exact Hx]. lia.
    - done. }
  apply sltb_false in E1. apply seqb_neq in E2.
  assert (slt xs id) by (destruct (slt_trich xs id) as [|[|]]; naive_solver).
  destruct (zget_in ids end_) as [xe Hxe]; [lia|]. rewrite Hxe. simpl.
  destruct (sltb xe id) eqn:E3.
  { apply sltb_true in E3. exists (end_ + 1), false. split; [done|]. repeat split; try lia.
    intros i x Hi Hx. destruct (decide (i = end_)) as [->|]; [congruence|].
    trans xe; [|done]. eapply zget_sorted; [done| |exact Hx|exact Hxe]. lia. }
  destruct (seqb id xe) eqn:E4.
  { apply seqb_eq in E4 as <-. exists end_, true. split; [done|]. repeat split; try lia.
    - intros i x Hi Hx. eapply zget_sorted; [done| |exact Hx|exact Hxe]. lia.
    - done. }
  apply sltb_false in E3. apply seqb_neq in E4.
  assert (slt id xe) by (destruct (slt_trich xe id) as [|[|]]; naive_solver).
  assert (start < end_).
  { destruct (decide (start = end_)) as [->|]; [|lia]. exfalso.
    assert (xs = xe) as -> by congruence. by eapply slt_asym. }
  eapply (searchLoop_spec _ ids start end_ id xs xe); try done; lia.
Qed.

(** Whole row: found iff present. *)
Lemma searchIndex_full ids id :
  StronglySorted slt ids → ids ≠ [] →
  ∃ p, searchIndex ids 0 (zlen ids - 1) id = Some (p, bool_decide (id ∈ ids)) ∧
       is_place ids 0 (zlen ids - 1) id p (bool_decide (id ∈ ids)).
Proof.
  intros Hs Hne.
  assert (0 < zlen ids) by (destruct ids; [done|rewrite zlen_cons; pose proof (zlen_nonneg ids); lia]).
  destruct (searchIndex_spec ids 0 (zlen ids - 1) id) as (p & b & Hrun & Hpl); [done|lia|lia|].
  assert (b = bool_decide (id ∈ ids)) as ->.
  { destruct Hpl as (Hp & H1 & H2 & H3). destruct b.
    - symmetry. apply bool_decide_eq_true. destruct H3 as [_ H3].
      by eapply zget_elem.
    - symmetry. apply bool_decide_eq_false. intros [i Hi]%elem_of_list_lookup.
      pose proof (lookup_lt_Some _ _ _ Hi) as Hlen.
      assert (Hz : zget ids (Z.of_nat i) = Some id) by by rewrite zget_nat.
      destruct (Z.lt_trichotomy (Z.of_nat i) p) as [|[|]].
      + eapply slt_irrefl, H1; [|done]. lia.
      + subst p. eapply slt_irrefl, H3; [|done]. unfold zlen. lia.
      + eapply slt_irrefl, H2; [|done]. unfold zlen. lia. }
  by exists p.
Qed.
