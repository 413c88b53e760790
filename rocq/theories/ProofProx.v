(** Token proximity (core/indexer.go:732-813). *)
From Verif Require Import ModelLookup SpecProx.

Section Token.
  Variables (cur curMin next : list Z) (len : Z).
  Hypothesis Hlen : length curMin = length cur.
  Hypothesis Hnext : next ≠ [].
  Hypothesis Hcur : cur ≠ [].

  (** the value computed by [update] *)
  Definition pval (mf cf nt : Z) : Z := int64 (mf + AbsInt (int64 (int64 (nt - cf) - len))).

  Definition lens_ok (np : list Z * list Z) : Prop :=
    length np.1 = length next ∧ length np.2 = length next.

  (** the outcome of one update *)
  Definition updated (from : nat) (to : Z) (mf cf : Z) (np np' : list Z * list Z) : Prop :=
    match zget next to with
    | None => np' = np
    | Some nt =>
      ∃ old, np.1 !! Z.to_nat to = Some old ∧
      if (old =? -1) || (pval mf cf nt <? old)
      then np' = (<[Z.to_nat to := pval mf cf nt]> np.1, <[Z.to_nat to := Z.of_nat from]> np.2)
      else np' = np
    end.

  Lemma proxUpdate_spec from to mf cf np :
    lens_ok np → 0 <= to → cur !! from = Some cf → curMin !! from = Some mf →
    ∃ np', proxUpdate cur next curMin len (Z.of_nat from) to np = Some np' ∧
      lens_ok np' ∧ updated from to mf cf np np'.
  Proof.
    intros [Hl1 Hl2] Hto Hcf Hmf. unfold proxUpdate, updated.
    destruct (Z.leb_spec (zlen next) to) as [Hge|Hlt].
    - exists np. split; [done|]. split; [done|].
      destruct (zget next to) eqn:E; [apply zget_lt in E; lia|done].
    - destruct np as [nm path]. simpl in *.
      destruct (zget_in next to) as [nt Hnt]; [lia|]. rewrite Hnt, bind_Some_eq.
      rewrite !zget_nat, Hcf, bind_Some_eq, Hmf, bind_Some_eq. cbv zeta. fold (pval mf cf nt).
      destruct (zget_in nm to) as [old Hold]; [unfold zlen in *; lia|].
      rewrite Hold, bind_Some_eq.
      assert (Hold' : nm !! Z.to_nat to = Some old) by (by apply zget_Some in Hold as [_ ?]).
      destruct ((old =? -1) || (pval mf cf nt <? old)) eqn:E.
      + rewrite !zset_in by (unfold zlen in *; lia). rewrite !bind_Some_eq.
        eexists. split; [done|]. split; [by split; simpl; rewrite insert_length|].
        exists old. split; [done|]. by rewrite E.
      + exists (nm, path). split; [done|]. split; [done|]. exists old. split; [done|]. by rewrite E.
  Qed.

  Lemma proxAdvance_spec fuel c iNext :
    0 <= iNext < zlen next → (Z.to_nat (zlen next - iNext) ≤ S fuel)%nat →
    ∃ a, proxAdvance fuel next c iNext = Some a ∧ iNext <= a < zlen next ∧
      (a = iNext ∨ ∃ x, zget next a = Some x ∧ x < c) ∧
      (∀ x, zget next (a + 1) = Some x → c <= x).
  Proof.
    revert iNext. induction fuel as [|fuel IH]; intros iNext Hi Hf.
    - simpl. destruct (Z.ltb_spec (iNext + 1) (zlen next)); [lia|].
      exists iNext. split; [done|]. split; [lia|]. split; [by left|].
      intros x Hx. apply zget_lt in Hx. lia.
    - simpl. destruct (Z.ltb_spec (iNext + 1) (zlen next)) as [Hlt|Hge].
      + destruct (zget_in next (iNext + 1)) as [x Hx]; [lia|]. rewrite Hx, bind_Some_eq.
        destruct (Z.ltb_spec x c) as [Hxc|Hxc].
        * destruct (IH (iNext + 1)) as (a & Ha & Hr & Hor & Hn); [lia|lia|].
          exists a. split; [done|]. split; [lia|]. split; [|done]. right.
          destruct Hor as [->|?]; [by exists x|done].
        * exists iNext. split; [done|]. split; [lia|]. split; [by left|].
          intros y Hy. congruence.
      + exists iNext. split; [done|]. split; [lia|]. split; [by left|].
        intros x Hx. apply zget_lt in Hx. lia.
  Qed.

  (** * Invariants of the loop over the current locations *)

  (** every recorded value is realised by its path entry *)
  Definition realised (np : list Z * list Z) : Prop :=
    ∀ to v, np.1 !! to = Some v → v ≠ -1 →
      ∃ from mf cf nt, np.2 !! to = Some (Z.of_nat from) ∧ cur !! from = Some cf ∧
        curMin !! from = Some mf ∧ mf ≠ -1 ∧ next !! to = Some nt ∧ v = pval mf cf nt.
  Definition path_range (np : list Z * list Z) : Prop :=
    ∀ to f, np.2 !! to = Some f → 0 <= f < zlen cur.

  Lemma updated_realised from to mf cf np np' :
    lens_ok np → 0 <= to → cur !! from = Some cf → curMin !! from = Some mf → mf ≠ -1 →
    updated from to mf cf np np' → realised np → realised np'.
  Proof.
    intros [Hl1 Hl2] Hto Hcf Hmf Hne Hup HR. unfold updated in Hup.
    destruct (zget next to) as [nt|] eqn:Ent; [|by subst].
    destruct Hup as (old & Hold & Hup).
    destruct ((old =? -1) || _); [|by subst]. subst np'. intros t v Hv Hv1. simpl in *.
    apply zget_Some in Ent as [_ Ent].
    destruct (decide (Z.to_nat to = t)) as [<-|Hnt].
    - rewrite list_lookup_insert in Hv by (rewrite Hl1; by eapply lookup_lt_Some).
      injection Hv as <-. exists from, mf, cf, nt.
      rewrite list_lookup_insert by (rewrite Hl2; by eapply lookup_lt_Some). done.
    - rewrite list_lookup_insert_ne in Hv by done. rewrite list_lookup_insert_ne by done. by apply HR.
  Qed.

  Lemma updated_range from to mf cf np np' :
    (from < length cur)%nat → updated from to mf cf np np' → path_range np → path_range np'.
  Proof.
    intros Hf Hup HR. unfold updated in Hup.
    destruct (zget next to) as [nt|] eqn:Ent; [|by subst].
    destruct Hup as (old & Hold & Hup).
    destruct ((old =? -1) || _); [|by subst]. subst np'. intros t f Ht. simpl in *.
    destruct (decide (Z.to_nat to = t)) as [<-|Hnt].
    - apply list_lookup_insert_Some in Ht as [(_ & <- & _)|[? _]]; [unfold zlen; lia|done].
    - rewrite list_lookup_insert_ne in Ht by done. by apply (HR t).
  Qed.

  (** all computed values are non-negative (no wrap-around) *)
  Definition nonneg : Prop :=
    ∀ from to mf cf nt, curMin !! from = Some mf → mf ≠ -1 → cur !! from = Some cf →
      next !! to = Some nt → 0 <= pval mf cf nt.

  Definition values_ok (np : list Z * list Z) : Prop := ∀ t v, np.1 !! t = Some v → v = -1 ∨ 0 <= v.

  (** [below np t w]: cell t holds a real value not above w *)
  Definition below (np : list Z * list Z) (t : nat) (w : Z) : Prop :=
    ∃ v, np.1 !! t = Some v ∧ 0 <= v <= w.

  Lemma updated_mono from to mf cf np np' :
    nonneg → lens_ok np → cur !! from = Some cf → curMin !! from = Some mf → mf ≠ -1 →
    updated from to mf cf np np' → values_ok np →
    values_ok np' ∧ (∀ t w, below np t w → below np' t w) ∧
    (∀ nt, zget next to = Some nt → below np' (Z.to_nat to) (pval mf cf nt)).
  Proof.
    intros Hnn [Hl1 Hl2] Hcf Hmf Hne Hup HV. unfold updated in Hup.
    destruct (zget next to) as [nt|] eqn:Ent.
    2:{ subst np'. split; [done|]. split; [done|]. intros ? [=]. }
    destruct Hup as (old & Hold & Hup). apply zget_Some in Ent as [Hto Ent].
    pose proof (Hnn _ _ _ _ _ Hmf Hne Hcf Ent) as Hp.
    assert (Hin : (Z.to_nat to < length np.1)%nat) by by eapply lookup_lt_Some.
    destruct ((old =? -1) || (pval mf cf nt <? old)) eqn:E; subst np'.
    - split; [|split].
      + intros t v Ht. simpl in Ht. apply list_lookup_insert_Some in Ht as [(_ & <- & _)|[_ ?]]; [by right|by eapply HV].
      + intros t w (v & Hv & Hvw). unfold below. simpl.
        destruct (decide (Z.to_nat to = t)) as [<-|Hnt].
        * exists (pval mf cf nt). rewrite list_lookup_insert by done. split; [done|].
          assert (v = old) as -> by congruence. apply orb_true_iff in E as [E|E].
          -- apply Z.eqb_eq in E. lia.
          -- apply Z.ltb_lt in E. lia.
        * exists v. by rewrite list_lookup_insert_ne.
      + intros nt' [= <-]. exists (pval mf cf nt). simpl. rewrite list_lookup_insert by done. split; [done|lia].
    - split; [done|]. split; [done|]. intros nt' [= <-]. exists old. split; [done|].
      apply orb_false_iff in E as [E1 E2]. apply Z.eqb_neq in E1. apply Z.ltb_ge in E2.
      destruct (HV _ _ Hold); lia.
  Qed.

  (** one iteration *)
  Lemma proxStep_spec k iNext np cf :
    cur !! k = Some cf → lens_ok np → 0 <= iNext < zlen next → realised np → path_range np →
    ∃ a np', proxStep cur next curMin len (iNext, np) k = Some (a, np') ∧
      lens_ok np' ∧ iNext <= a < zlen next ∧ realised np' ∧ path_range np' ∧
      ((curMin !! k = Some (-1) ∧ a = iNext ∧ np' = np) ∨
       ∃ mf, curMin !! k = Some mf ∧ mf ≠ -1 ∧
        (a = iNext ∨ ∃ x, zget next a = Some x ∧ x < cf) ∧
        (∀ x, zget next (a + 1) = Some x → cf <= x) ∧
        (nonneg → values_ok np →
           values_ok np' ∧ (∀ t w, below np t w → below np' t w) ∧
           ∀ i nt, i = a ∨ i = a + 1 → zget next i = Some nt → below np' (Z.to_nat i) (pval mf cf nt))).
  Proof.
    intros Hcf Hl Hi HR HP. unfold proxStep.
    assert (Hk : (k < length cur)%nat) by by eapply lookup_lt_Some.
    destruct (lookup_lt_is_Some_2 curMin k) as [mf Hmf]; [lia|]. rewrite Hmf, bind_Some_eq.
    destruct (Z.eqb_spec mf (-1)) as [->|Hne].
    - exists iNext, np. split; [done|]. split; [done|]. split; [lia|]. split; [done|]. split; [done|]. left. done.
    - rewrite Hcf, bind_Some_eq.
      destruct (proxAdvance_spec (length next) cf iNext) as (a & -> & Ha & Hor & Hn); [done|unfold zlen; lia|].
      rewrite bind_Some_eq.
      destruct (proxUpdate_spec k a mf cf np) as (np1 & -> & Hl1 & Hu1); [done|lia|done|done|].
      rewrite bind_Some_eq.
      destruct (proxUpdate_spec k (a + 1) mf cf np1) as (np2 & -> & Hl2 & Hu2); [done|lia|done|done|].
      rewrite bind_Some_eq.
      assert (HR1 : realised np1) by (eapply updated_realised; [exact Hl| |done..]; lia).
      exists a, np2. split; [done|]. split; [done|]. split; [lia|].
      split; [eapply updated_realised; [exact Hl1| |done..]; lia|].
      split; [eapply updated_range; [exact Hk|exact Hu2|]; eapply updated_range; [exact Hk|exact Hu1|done]|].
      right. exists mf. split; [done|]. split; [done|]. split; [done|]. split; [done|].
      intros Hnn HV.
      destruct (updated_mono k a mf cf np np1 Hnn Hl Hcf Hmf Hne Hu1 HV) as (HV1 & Hm1 & Hb1).
      destruct (updated_mono k (a + 1) mf cf np1 np2 Hnn Hl1 Hcf Hmf Hne Hu2 HV1) as (HV2 & Hm2 & Hb2).
      split; [done|]. split; [auto|]. intros i nt [->| ->] Hnt; auto.
  Qed.

  (** what the loop has covered so far *)
  Definition covered (np : list Z * list Z) (k : nat) : Prop :=
    ∀ from cf mf, (from < k)%nat → cur !! from = Some cf → curMin !! from = Some mf → mf ≠ -1 →
      ∃ a, 0 <= a < zlen next ∧
        (StronglySorted Z.le cur → a = 0 ∨ ∃ x, zget next a = Some x ∧ x < cf) ∧
        (∀ x, zget next (a + 1) = Some x → cf <= x) ∧
        ∀ i nt, i = a ∨ i = a + 1 → zget next i = Some nt → below np (Z.to_nat i) (pval mf cf nt).

  Lemma proxLoop_spec n : ∀ k iNext np,
    (k + n = length cur)%nat → lens_ok np → 0 <= iNext < zlen next → realised np → path_range np →
    (nonneg → values_ok np ∧ covered np k) →
    (iNext = 0 ∨ ∃ i c x, (i < k)%nat ∧ cur !! i = Some c ∧ zget next iNext = Some x ∧ x < c) →
    ∃ iN np', foldlM (proxStep cur next curMin len) (seq k n) (iNext, np) = Some (iN, np') ∧
      lens_ok np' ∧ realised np' ∧ path_range np' ∧ (nonneg → values_ok np' ∧ covered np' (length cur)).
  Proof.
    induction n as [|n IH]; intros k iNext np Hk Hl Hi HR HP Hc Hp.
    - exists iNext, np. replace (length cur) with k by lia. done.
    - cbn [seq foldlM].
      destruct (lookup_lt_is_Some_2 cur k) as [cf Hcf]; [lia|].
      destruct (proxStep_spec k iNext np cf) as (a & np' & -> & Hl' & Ha & HR' & HP' & Hcase); [done..|].
      rewrite bind_Some_eq.
      assert (Hsk : ∀ i c, StronglySorted Z.le cur → (i < k)%nat → cur !! i = Some c → c <= cf).
      { intros i c Hs Hik Hc'. by eapply (StronglySorted_lookup Z.le cur i k). }
      apply IH; try done.
      + lia.
      + lia.
      + intros Hnn. destruct (Hc Hnn) as [HV Hcov].
        destruct Hcase as [(Hm1 & -> & ->)|(mf & Hmf & Hne & Hor & Hn & Hval)].
        * split; [done|]. intros from c mf Hf Hfc Hfm Hne. destruct (decide (from = k)) as [->|].
          -- congruence.
          -- eapply Hcov; try done. lia.
        * destruct (Hval Hnn HV) as (HV' & Hmono & Hnew). split; [done|].
          intros from c m Hf Hfc Hfm Hne'. destruct (decide (from = k)) as [->|Hfk].
          -- simplify_eq. exists a. split; [lia|]. split; [|split; [done|done]].
             intros Hs. destruct Hor as [->|?]; [|by right].
             destruct Hp as [->|(i & c & x & Hik & Hic & Hx & Hxc)]; [by left|]. right.
             exists x. split; [done|]. pose proof (Hsk i c Hs Hik Hic). lia.
          -- destruct (Hcov from c m) as (a' & Ha' & Hor' & Hn' & Hb'); [lia|done..|].
             exists a'. split; [done|]. split; [done|]. split; [done|].
             intros i nt Hi' Hnt. apply Hmono. by eapply Hb'.
      + destruct Hcase as [(Hm1 & -> & ->)|(mf & Hmf & Hne & Hor & Hn & Hval)].
        * destruct Hp as [->|(i & c & x & Hik & Hic & Hx & Hxc)]; [by left|]. right.
          exists i, c, x. split; [lia|done].
        * destruct Hor as [->|(x & Hx & Hxc)].
          -- destruct Hp as [->|(i & c & x & Hik & Hic & Hx & Hxc)]; [by left|]. right.
             exists i, c, x. split; [lia|done].
          -- right. exists k, cf, x. split; [lia|done].
  Qed.

  Lemma proxToken_spec :
    ∃ nm path, proxToken cur curMin next len = Some (nm, path) ∧
      length nm = length next ∧ length path = length next ∧
      realised (nm, path) ∧ path_range (nm, path) ∧
      (nonneg → values_ok (nm, path) ∧ covered (nm, path) (length cur)).
  Proof.
    unfold proxToken.
    assert (0 < zlen next) by (destruct next; [done|rewrite zlen_cons; pose proof (zlen_nonneg l); lia]).
    assert (0 < zlen cur) by (destruct cur; [done|rewrite zlen_cons; pose proof (zlen_nonneg l); lia]).
    destruct (proxLoop_spec (length cur) 0 0 (replicate (length next) (-1), replicate (length next) 0))
      as (iN & np & -> & Hl & HR & HP & Hc).
    - done.
    - split; simpl; by rewrite replicate_length.
    - lia.
    - intros t v Hv Hne. simpl in Hv. apply lookup_replicate in Hv as [-> _]. done.
    - intros t f Hf. simpl in Hf. apply lookup_replicate in Hf as [-> _]. lia.
    - intros _. split.
      + intros t v Hv. simpl in Hv. apply lookup_replicate in Hv as [-> _]. by left.
      + intros from cf mf Hf. lia.
    - by left.
    - rewrite bind_Some_eq. destruct np as [nm path]. destruct Hl as [Hl1 Hl2].
      exists nm, path. done.
  Qed.
End Token.
