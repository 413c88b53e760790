(** Plain search: the pointer loop computes a list comprehension. *)
From Verif Require Import ModelLookup SpecIndexer ProofSearch ProofTable ProofIndexer ProofCache ProofHistory.

(** Position of an id in a list of ids. *)
Definition posOf (ids : list string) (id : string) : Z :=
  match list_find (λ x, x = id) ids with Some (i, _) => Z.of_nat i | None => 0 end.

Lemma posOf_in ids id : id ∈ ids → zget ids (posOf ids id) = Some id.
Proof.
  intros Hin. unfold posOf.
  destruct (list_find_elem_of (λ x, x = id) ids id Hin eq_refl) as [[i x] Hf]. rewrite Hf.
  apply list_find_Some in Hf as (Hi & -> & _). by rewrite zget_nat.
Qed.

Lemma posOf_unique ids id p :
  StronglySorted slt ids → zget ids p = Some id → p = posOf ids id.
Proof.
  intros Hs Hp. assert (id ∈ ids) as Hin by by eapply zget_elem.
  pose proof (posOf_in ids id Hin) as Hq.
  destruct (Z.lt_trichotomy p (posOf ids id)) as [H|[H|H]]; [|done|].
  - exfalso. eapply slt_irrefl. by eapply zget_sorted.
  - exfalso. eapply slt_irrefl. by eapply zget_sorted.
Qed.

(** Pointers: everything above the pointer is larger than [b]. *)
Definition ptr_ok (b : string) (r : KeywordIndices) (p : Z) : Prop :=
  0 <= p < zlen (docIds r) ∧ ∀ i x, p < i → zget (docIds r) i = Some x → slt b x.

Lemma ptr_ok_mono b b' r p : slt b' b → ptr_ok b r p → ptr_ok b' r p.
Proof. intros Hb [Hp Ha]. split; [done|]. intros i x Hi Hx. trans b; [done|]. eauto. Qed.

Definition row_good (r : KeywordIndices) : Prop :=
  StronglySorted slt (docIds r) ∧ docIds r ≠ [].

Lemma innerSearch_spec rows : ∀ ptrs base,
  Forall row_good rows → Forall2 (ptr_ok base) rows ptrs →
  ∃ res, innerSearch rows ptrs base = Some res ∧
  match res with
  | AllFound ps => (∀ r, r ∈ rows → base ∈ docIds r) ∧ ps = ((λ r, posOf (docIds r) base) <$> rows) ∧
                   Forall2 (ptr_ok base) rows ps
  | Miss ps => (∃ r, r ∈ rows ∧ base ∉ docIds r) ∧ Forall2 (ptr_ok base) rows ps
  | Stop => ∃ r, r ∈ rows ∧ ∀ x, x ∈ docIds r → slt base x
  end.
Proof.
  induction rows as [|r rows IH]; intros ptrs base Hg Hp.
  - inversion Hp; subst. exists (AllFound []). split; [done|]. split; [|done].
    by intros r ?%elem_of_nil.
  - inversion Hp as [|? p ? ptrs' Hpr Hps]; subst. inversion Hg as [|? ? [Hs Hne] Hgs]; subst.
    destruct Hpr as [Hp1 Hp2]. simpl.
    destruct (searchIndex_spec (docIds r) 0 p base) as (pos & b & Hrun & Hpl); [done|lia|lia|].
    rewrite Hrun, bind_Some_eq. destruct Hpl as (Hpos & H1 & H2 & H3). destruct b.
    + destruct H3 as [H3 H4]. destruct (IH ptrs' base Hgs Hps) as (res & -> & Hres).
      rewrite bind_Some_eq. eexists. split; [done|].
      assert (Hok : ptr_ok base r pos).
      { split; [apply zget_lt in H4; lia|]. intros i x Hi Hx.
        eapply zget_sorted; [done| |exact H4|exact Hx]. lia. }
      destruct res as [ps|ps|].
      * destruct Hres as (Hin & -> & Hok'). split; [|split].
        -- intros r' [->|?]%elem_of_cons; [by eapply zget_elem|auto].
        -- cbn. f_equal. by apply posOf_unique.
        -- by constructor.
      * destruct Hres as ((r' & Hr' & Hn) & Hok'). split; [|by constructor].
        exists r'. split; [by right|done].
      * destruct Hres as (r' & Hr' & Hn). exists r'. split; [by right|done].
    + assert (Hnone : ∀ i x, zget (docIds r) i = Some x → (i < pos → slt x base) ∧ (pos <= i → slt base x)).
      { intros i x Hx. split.
        - intros Hi. apply (H1 i); [apply zget_lt in Hx; lia|done].
        - intros Hi. destruct (Z.lt_ge_cases p i); [by eapply Hp2|].
          destruct (decide (i = pos)) as [->|]; [by apply H3|]. eapply H2; [|done]. lia. }
      destruct (Z.eqb_spec pos 0) as [->|Hne0].
      * exists Stop. split; [done|]. exists r. split; [by left|].
        intros x [i Hi]%elem_of_list_lookup. apply (Hnone (Z.of_nat i)); [by rewrite zget_nat|lia].
      * exists (Miss (pos - 1 :: ptrs')). split; [done|]. split.
        -- exists r. split; [by left|]. intros [i Hi]%elem_of_list_lookup.
           destruct (Hnone (Z.of_nat i) base) as [Ha Hb]; [by rewrite zget_nat|].
           eapply slt_irrefl. destruct (Z.lt_ge_cases (Z.of_nat i) pos); [by apply Ha|by apply Hb].
        -- constructor; [|done]. split; [lia|]. intros i x Hi Hx. apply (Hnone i x Hx). lia.
Qed.

Section Loop.
  Variable log2 : F → F.

  (** What is reported for the hit [id]. *)
  Definition report (s : Indexer) (tokens : list string) (rows : list KeywordIndices) (id : string)
      : option IndexedDoc :=
    hitDoc log2 s tokens (take (length tokens) rows)
      (take (length tokens) ((λ r, posOf (docIds r) id) <$> rows)) id.

  (** The hits among a list of candidate ids. *)
  Definition is_hit (s : Indexer) (flt : option (gset string)) (rows : list KeywordIndices)
      (id : string) : Prop :=
    passes flt id ∧ (∀ r, r ∈ rows → id ∈ docIds r) ∧ HasDoc s id = true.
  Global Instance is_hit_dec s flt rows id : Decision (is_hit s flt rows id).
  Proof.
    unfold is_hit, passes. apply and_dec; [destruct flt; apply _|]. apply and_dec; [|apply _].
    destruct (decide (Forall (λ r, id ∈ docIds r) rows)) as [H|H].
    - left. by rewrite Forall_forall in H.
    - right. intros H'. apply H. by rewrite Forall_forall.
  Defined.

  Definition hitsOf (s : Indexer) (flt : option (gset string)) (rows : list KeywordIndices)
      (cands : list string) : list string := filter (is_hit s flt rows) cands.

  Lemma take_S_reverse {A} (l : list A) n x :
    l !! n = Some x → reverse (take (S n) l) = x :: reverse (take n l).
  Proof. intros H. rewrite (take_S_r _ _ x) by done. by rewrite reverse_app. Qed.

  Lemma lookupLoop_spec s tokens flt countOnly row0 rows n : ∀ ptrs,
    row_good row0 → Forall row_good rows → (n ≤ length (docIds row0))%nat →
    (∀ b, b ∈ take n (docIds row0) → Forall2 (ptr_ok b) rows ptrs) →
    lookupLoop log2 s tokens flt countOnly row0 rows n ptrs =
      (l ← mapM (report s tokens (row0 :: rows))
             (hitsOf s flt (row0 :: rows) (reverse (take n (docIds row0))));
       Some (if countOnly then [] else l, zlen l)).
  Proof.
    induction n as [|n IH]; intros ptrs Hg0 Hg Hn Hp.
    - rewrite take_0. unfold hitsOf. simpl. by destruct countOnly.
    - destruct Hg0 as [Hs0 Hne0].
      destruct (lookup_lt_is_Some_2 (docIds row0) n) as [base Hbase]; [lia|].
      assert (Hlt : ∀ b, b ∈ take n (docIds row0) → slt b base).
      { intros b (i & Hi)%elem_of_list_lookup. apply lookup_take_Some in Hi as [Hi Hin].
        eapply (StronglySorted_lookup slt (docIds row0) i n); done. }
      assert (Hbt : base ∈ take (S n) (docIds row0)).
      { apply elem_of_list_lookup. exists n. by rewrite lookup_take by lia. }
      assert (Hprest : ∀ ps, Forall2 (ptr_ok base) rows ps →
                ∀ b, b ∈ take n (docIds row0) → Forall2 (ptr_ok b) rows ps).
      { intros ps Hps b Hb. eapply Forall2_impl; [exact Hps|]. intros r p. apply ptr_ok_mono. auto. }
      rewrite (take_S_reverse _ _ _ Hbase). cbn [lookupLoop]. rewrite Hbase, bind_Some_eq.
      unfold hitsOf. rewrite filter_cons. fold (hitsOf s flt (row0 :: rows) (reverse (take n (docIds row0)))).
      assert (Hskip : ¬ is_hit s flt (row0 :: rows) base → ∀ ps, Forall2 (ptr_ok base) rows ps →
        lookupLoop log2 s tokens flt countOnly row0 rows n ps =
        (l ← mapM (report s tokens (row0 :: rows))
               (if decide (is_hit s flt (row0 :: rows) base)
                then base :: hitsOf s flt (row0 :: rows) (reverse (take n (docIds row0)))
                else hitsOf s flt (row0 :: rows) (reverse (take n (docIds row0))));
         Some (if countOnly then [] else l, zlen l))).
      { intros Hnh ps Hps. rewrite decide_False by done. apply IH; [done|done|lia|]. by apply Hprest. }
      destruct (match flt with Some f => negb (bool_decide (base ∈ f)) | None => false end) eqn:EF.
      { apply Hskip; [|by apply Hp]. intros [Hpass _]. unfold passes in Hpass. destruct flt; [|done].
        by rewrite bool_decide_eq_true_2 in EF. }
      assert (Hpass : passes flt base).
      { unfold passes. destruct flt; [|done]. apply negb_false_iff, bool_decide_eq_true in EF. done. }
      destruct (innerSearch_spec rows ptrs base Hg (Hp base Hbt)) as (res & -> & Hres).
      rewrite bind_Some_eq. destruct res as [ps|ps|].
      + destruct Hres as (Hin & Hps & Hok). destruct (HasDoc s base) eqn:EH.
        * rewrite decide_True.
          2:{ split; [done|]. split; [|done]. intros r [->|?]%elem_of_cons; [|auto].
              by eapply elem_of_list_lookup_2. }
          cbn [mapM].
          assert (report s tokens (row0 :: rows) base =
            hitDoc log2 s tokens (take (length tokens) (row0 :: rows))
              (take (length tokens) (Z.of_nat n :: ps)) base) as ->.
          { unfold report. rewrite fmap_cons, <- Hps.
            assert (posOf (docIds row0) base = Z.of_nat n) as ->; [|done].
            symmetry. apply posOf_unique; [done|]. by rewrite zget_nat. }
          rewrite (IH ps) by (done || lia || by apply Hprest).
          destruct (hitDoc _ _ _ _ _ _) as [d|]; [|done]. rewrite !bind_Some_eq.
          destruct (mapM _ _) as [l|]; [|done]. rewrite !bind_Some_eq.
          rewrite zlen_cons. f_equal. f_equal; [by destruct countOnly|lia].
        * apply Hskip; [|done]. intros (_ & _ & ?). congruence.
      + destruct Hres as ((r & Hr & Hn') & Hok). apply Hskip; [|done].
        intros (_ & Hall & _). apply Hn', Hall. by right.
      + destruct Hres as (r & Hr & Hall).
        assert (Hnil : hitsOf s flt (row0 :: rows) (reverse (take n (docIds row0))) = []).
        { unfold hitsOf. apply elem_of_nil_inv. intros id [(_ & Hid & _) Hin]%elem_of_list_filter.
          rewrite elem_of_reverse in Hin. specialize (Hid r (elem_of_list_further _ _ _ Hr)).
          apply Hall in Hid. apply Hlt in Hin. by eapply slt_asym. }
        rewrite Hnil. rewrite decide_False.
        * simpl. by destruct countOnly.
        * intros (_ & Hall' & _). specialize (Hall' r (elem_of_list_further _ _ _ Hr)).
          apply Hall in Hall'. by eapply slt_irrefl.
  Qed.

  Lemma internalLookup_spec s keywords tokens flt countOnly rows :
    mapM (λ k, table s !! k) keywords = Some rows → Forall row_good rows →
    internalLookup log2 s keywords tokens flt countOnly =
      match rows with
      | [] => Some ([], 0)
      | row0 :: _ =>
        l ← mapM (report s tokens rows) (hitsOf s flt rows (reverse (docIds row0)));
        Some (if countOnly then [] else l, zlen l)
      end.
  Proof.
    intros HM Hg. unfold internalLookup. rewrite HM. destruct rows as [|row0 rows]; [done|].
    inversion Hg as [|? ? Hg0 Hgs]; subst.
    rewrite lookupLoop_spec; [|done|done|lia|].
    - by rewrite take_ge by lia.
    - intros b Hb. clear -Hgs. induction rows as [|r rows IH]; [constructor|].
      inversion Hgs as [|? ? [Hs Hne] Hgs']; subst. rewrite fmap_cons. constructor; [|by apply IH].
      split.
      + destruct (docIds r); [done|]. rewrite zlen_cons. pose proof (zlen_nonneg l). lia.
      + intros i x Hi Hx. apply zget_lt in Hx. lia.
  Qed.
End Loop.
