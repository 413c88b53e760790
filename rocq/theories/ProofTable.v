(** The inverted index as a representation of a finite map of documents. *)
From Verif Require Import ModelIndexer ProofSearch.

(** * Rows as lists of entries *)

Notation entry := (string * KeywordIndex)%type.

Definition row_of (ity : Z) (es : list entry) : KeywordIndices :=
  mkRow (fst <$> es)
        (if ity =? FrequenciesIndex then (λ e, Frequency (snd e)) <$> es else [])
        (if ity =? LocsIndex then (λ e, Starts (snd e)) <$> es else []).

Definition texts (d : DocIndex) : list string := Text <$> Keywords d.

Definition find_kw (k : string) (kws : list KeywordIndex) : option KeywordIndex :=
  find (λ kw, seqb (Text kw) k) kws.

Definition kwOf (D : gmap string DocIndex) (k : string) (id : string) : option KeywordIndex :=
  d ← D !! id; find_kw k (Keywords d).

(** [r] is the row of a keyword whose entries are given by [g]. *)
Definition row_ok (ity : Z) (g : string → option KeywordIndex) (r : KeywordIndices) : Prop :=
  ∃ es, r = row_of ity es ∧ es ≠ [] ∧ StronglySorted slt (fst <$> es) ∧
        (∀ id kw, (id, kw) ∈ es ↔ g id = Some kw).

Definition table_ok (ity : Z) (D : gmap string DocIndex) (T : gmap string KeywordIndices) : Prop :=
  ∀ k, match T !! k with
       | Some r => row_ok ity (kwOf D k) r
       | None => ∀ id, kwOf D k id = None
       end.

Lemma row_ok_ext ity g g' r : (∀ id, g id = g' id) → row_ok ity g r → row_ok ity g' r.
Proof.
  intros Hg (es & -> & Hne & Hs & Hes). exists es. repeat split; try done; intros; [|].
  - rewrite <- Hg. by apply Hes.
  - apply Hes. by rewrite Hg.
Qed.

Lemma row_ok_ids ity g r id : row_ok ity g r → id ∈ docIds r ↔ is_Some (g id).
Proof.
  intros (es & -> & _ & _ & Hes). simpl. rewrite elem_of_list_fmap. split.
  - intros ([id' kw] & -> & Hin). apply Hes in Hin. simpl. eauto.
  - intros [kw Hkw]. exists (id, kw). split; [done|]. by apply Hes.
Qed.

Lemma row_ok_sorted ity g r : row_ok ity g r → StronglySorted slt (docIds r).
Proof. by intros (es & -> & _ & Hs & _). Qed.

Lemma row_ok_nonempty ity g r : row_ok ity g r → docIds r ≠ [].
Proof. intros (es & -> & Hne & _) H. simpl in H. by apply fmap_nil_inv in H. Qed.

(** * find_kw *)

Lemma find_kw_Some k kws kw : find_kw k kws = Some kw → kw ∈ kws ∧ Text kw = k.
Proof.
  unfold find_kw. intros [Hin Heq]%find_some. apply seqb_eq in Heq.
  split; [|done]. by apply elem_of_list_In.
Qed.

Lemma find_kw_None k kws : find_kw k kws = None ↔ k ∉ (Text <$> kws).
Proof.
  unfold find_kw. split.
  - intros Hnone (kw & -> & Hin)%elem_of_list_fmap.
    apply elem_of_list_In in Hin. eapply find_none in Hnone; [|done].
    simpl in Hnone. by rewrite seqb_refl in Hnone.
  - intros Hnin. destruct (find _ kws) eqn:E; [|done]. exfalso. apply Hnin.
    apply find_kw_Some in E as [Hin <-]. by apply elem_of_list_fmap_1.
Qed.

Lemma find_kw_app k l1 l2 :
  find_kw k (l1 ++ l2) = match find_kw k l1 with Some kw => Some kw | None => find_kw k l2 end.
Proof.
  unfold find_kw. induction l1 as [|kw l1 IH]; simpl; [done|]. by destruct (seqb _ _).
Qed.

(** * go_insert on rows *)

Lemma insertRow_row_of ity id kw q es :
  0 <= q <= zlen es →
  insertRow ity id kw q (row_of ity es) =
    Some (row_of ity (take (Z.to_nat q) es ++ (id, kw) :: drop (Z.to_nat q) es)).
Proof.
  intros Hq. unfold insertRow, row_of. simpl.
  assert (Hcol : ∀ A (f : entry → A) d v, f (id, kw) = v →
    go_insert (f <$> es) q d v =
      Some (f <$> (take (Z.to_nat q) es ++ (id, kw) :: drop (Z.to_nat q) es))).
  { intros A f d v Hv. rewrite go_insert_spec by (unfold zlen in *; rewrite fmap_length; lia).
    rewrite fmap_app, fmap_cons, fmap_take, fmap_drop, Hv. done. }
  destruct (ity =? LocsIndex) eqn:EL, (ity =? FrequenciesIndex) eqn:EF.
  - unfold LocsIndex, FrequenciesIndex in *. apply Z.eqb_eq in EL, EF. lia.
  - rewrite (Hcol _ (λ e, Starts (snd e)) _ (Starts kw)) by done. simpl.
    by rewrite (Hcol _ fst _ id).
  - simpl. rewrite (Hcol _ (λ e, Frequency (snd e)) _ (Frequency kw)) by done. simpl.
    by rewrite (Hcol _ fst _ id).
  - simpl. by rewrite (Hcol _ fst _ id).
Qed.

(** * Adding one keyword *)

(** The insertion hints: everything before the hint is smaller than [id]. *)
Definition ptrs_ok (T : gmap string KeywordIndices) (ptrs : gmap string Z) (id : string) : Prop :=
  ∀ k p, ptrs !! k = Some p →
    ∃ r, T !! k = Some r ∧ 0 <= p < zlen (docIds r) ∧
         ∀ i x, i < p → zget (docIds r) i = Some x → slt x id.

Lemma kwOf_insert_same D id d k : kwOf (<[id:=d]> D) k id = find_kw k (Keywords d).
Proof. unfold kwOf. by rewrite lookup_insert. Qed.
Lemma kwOf_insert_ne D id d k id' : id ≠ id' → kwOf (<[id:=d]> D) k id' = kwOf D k id'.
Proof. intros. unfold kwOf. by rewrite lookup_insert_ne. Qed.

Lemma kwOf_extend D id tl pre kw k id' :
  Text kw ∉ (Text <$> pre) → Text kw ≠ k →
  kwOf (<[id:=mkDoc id tl (pre ++ [kw])]> D) k id' = kwOf (<[id:=mkDoc id tl pre]> D) k id'.
Proof.
  intros Hnin Hk. destruct (decide (id = id')) as [->|].
  - rewrite !kwOf_insert_same. simpl. rewrite find_kw_app.
    destruct (find_kw k pre); [done|]. unfold find_kw. simpl.
    by rewrite (proj2 (seqb_neq _ _)).
  - by rewrite !kwOf_insert_ne.
Qed.

Lemma addKeyword_ok ity D id tl pre kw T ptrs :
  Text kw ∉ (Text <$> pre) →
  table_ok ity (<[id:=mkDoc id tl pre]> D) T → ptrs_ok T ptrs id →
  ∃ T' ptrs', addKeyword ity id (T, ptrs) kw = Some (T', ptrs') ∧
    table_ok ity (<[id:=mkDoc id tl (pre ++ [kw])]> D) T' ∧ ptrs_ok T' ptrs' id.
Proof.
  intros Hnin HT Hptrs. unfold addKeyword.
  assert (Hid : kwOf (<[id:=mkDoc id tl pre]> D) (Text kw) id = None).
  { rewrite kwOf_insert_same. by apply find_kw_None. }
  assert (Hid' : kwOf (<[id:=mkDoc id tl (pre ++ [kw])]> D) (Text kw) id = Some kw).
  { rewrite kwOf_insert_same. simpl. rewrite find_kw_app.
    rewrite (proj2 (find_kw_None _ _)) by done. unfold find_kw. simpl. by rewrite seqb_refl. }
  assert (Hother : ∀ id', id' ≠ id →
     kwOf (<[id:=mkDoc id tl (pre ++ [kw])]> D) (Text kw) id' =
     kwOf (<[id:=mkDoc id tl pre]> D) (Text kw) id').
  { intros id' Hne. by rewrite !kwOf_insert_ne. }
  assert (Hrest : ∀ T' r, T' = <[Text kw := r]> T →
     row_ok ity (kwOf (<[id:=mkDoc id tl (pre ++ [kw])]> D) (Text kw)) r →
     table_ok ity (<[id:=mkDoc id tl (pre ++ [kw])]> D) T').
  { intros T' r -> Hr k. destruct (decide (Text kw = k)) as [<-|Hk].
    - by rewrite lookup_insert.
    - rewrite lookup_insert_ne by done. specialize (HT k). destruct (T !! k).
      + eapply row_ok_ext; [|done]. intros id'. by rewrite kwOf_extend.
      + intros id'. by rewrite kwOf_extend. }
  pose proof (HT (Text kw)) as HTk.
  destruct (T !! Text kw) as [r|] eqn:ETk.
  - destruct HTk as (es & -> & Hne & Hs & Hes).
    set (p0 := default 0 (ptrs !! Text kw)).
    assert (Hlen : zlen (fst <$> es) = zlen es) by (unfold zlen; by rewrite fmap_length).
    assert (Hpos : 0 < zlen es).
    { destruct es; [done|]. rewrite zlen_cons. pose proof (zlen_nonneg es). lia. }
    assert (Hp0 : 0 <= p0 < zlen es ∧
              ∀ i x, i < p0 → zget (fst <$> es) i = Some x → slt x id).
    { subst p0. destruct (ptrs !! Text kw) as [p|] eqn:Ep; simpl.
      - destruct (Hptrs _ _ Ep) as (r & Hr & Hp & Hlt). simplify_eq. simpl in *.
        rewrite Hlen in Hp. done.
      - split; [lia|]. intros i x Hi Hx. apply zget_lt in Hx. lia. }
    destruct Hp0 as [Hp0 Hbefore].
    simpl docIds. rewrite Hlen.
    destruct (searchIndex_spec (fst <$> es) p0 (zlen es - 1) id)
      as (q & b & Hrun & (Hq & Hlow & Hhigh & Hb)); [done|lia|lia|].
    rewrite Hrun. simpl.
    assert (b = false) as ->.
    { destruct b; [|done]. exfalso. destruct Hb as [_ Hb%zget_elem].
      apply elem_of_list_fmap in Hb as ([id' kw'] & ? & Hin). simpl in *. subst id'.
      apply Hes in Hin. congruence. }
    rewrite insertRow_row_of by lia. simpl.
    set (es' := take (Z.to_nat q) es ++ (id, kw) :: drop (Z.to_nat q) es).
    assert (Hlow' : ∀ i x, i < q → zget (fst <$> es) i = Some x → slt x id).
    { intros i x Hi Hx. destruct (decide (i < p0)); [by eapply Hbefore|].
      eapply Hlow; [|done]. lia. }
    assert (Hhigh' : ∀ i x, q <= i → zget (fst <$> es) i = Some x → slt id x).
    { intros i x Hi Hx. pose proof (zget_lt _ _ _ Hx). rewrite Hlen in *.
      destruct (decide (i = q)) as [->|]; [eapply Hb; [lia|done]|].
      eapply Hhigh; [|done]. lia. }
    assert (Hsorted : StronglySorted slt (fst <$> es')).
    { subst es'. rewrite fmap_app, fmap_cons, fmap_take, fmap_drop. simpl.
      apply StronglySorted_app_iff.
      assert (Hs' := Hs). rewrite <- (take_drop (Z.to_nat q) (fst <$> es)) in Hs'.
      apply StronglySorted_app_iff in Hs' as (H1 & H2 & H3).
      assert (Hd : ∀ y, y ∈ drop (Z.to_nat q) (fst <$> es) → slt id y).
      { intros y [i Hi]%elem_of_list_lookup. rewrite lookup_drop in Hi.
        apply (Hhigh' (Z.of_nat (Z.to_nat q + i))); [lia|]. by rewrite zget_nat. }
      assert (Ht : ∀ y, y ∈ take (Z.to_nat q) (fst <$> es) → slt y id).
      { intros y [i Hi]%elem_of_list_lookup. apply lookup_take_Some in Hi as [Hi ?].
        apply (Hlow' (Z.of_nat i)); [lia|]. by rewrite zget_nat. }
      split; [done|]. split.
      - constructor; [done|]. apply Forall_forall. done.
      - intros x y Hx [->|Hy]%elem_of_cons; [by apply Ht|]. by apply H3. }
    eexists _, _. split; [done|]. split.
    + eapply Hrest; [done|]. exists es'. repeat split; [..|].
      * subst es'. by intros [_ ?]%app_eq_nil.
      * done.
      * subst es'. rewrite elem_of_app, elem_of_cons.
        assert (∀ e, e ∈ es ↔ e ∈ take (Z.to_nat q) es ∨ e ∈ drop (Z.to_nat q) es) as Hsplit.
        { intros e. rewrite <- (take_drop (Z.to_nat q) es) at 1. by rewrite elem_of_app. }
        intros [?|[?|?]]; simplify_eq; [|done|].
        -- assert ((id0, kw0) ∈ es) as Hin by (apply Hsplit; by left).
           apply Hes in Hin. rewrite Hother; [done|]. intros ->. congruence.
        -- assert ((id0, kw0) ∈ es) as Hin by (apply Hsplit; by right).
           apply Hes in Hin. rewrite Hother; [done|]. intros ->. congruence.
      * intros Hk. subst es'. rewrite elem_of_app, elem_of_cons.
        destruct (decide (id0 = id)) as [->|Hne'].
        -- rewrite Hid' in Hk. simplify_eq. by right; left.
        -- rewrite Hother in Hk by done. apply Hes in Hk.
           rewrite <- (take_drop (Z.to_nat q) es) in Hk.
           apply elem_of_app in Hk as [?|?]; eauto.
    + intros k p. destruct (decide (Text kw = k)) as [<-|Hk].
      * rewrite !lookup_insert. intros [= <-]. eexists. split; [done|]. simpl. split.
        -- split; [lia|]. unfold zlen, es'. rewrite fmap_length, app_length. simpl.
           rewrite take_length, drop_length. unfold zlen in *. lia.
        -- intros i x Hi Hx. apply (Hlow' i x Hi). subst es'.
           rewrite fmap_app, fmap_take in Hx. apply zget_Some in Hx as [Hi0 Hx].
           apply zget_Some. split; [done|].
           rewrite lookup_app_l in Hx; [by apply lookup_take_Some in Hx as [??]|].
           rewrite take_length, fmap_length. unfold zlen in *. lia.
      * rewrite !lookup_insert_ne by done. apply Hptrs.
  - eexists _, _. split; [done|]. split.
    + eapply Hrest; [done|]. exists [(id, kw)]. repeat split; [done|..].
      * simpl. repeat constructor.
      * intros [= -> ->]%elem_of_list_singleton. done.
      * intros Hk. apply elem_of_list_singleton. destruct (decide (id0 = id)) as [->|].
        -- rewrite Hid' in Hk. by simplify_eq.
        -- rewrite Hother in Hk by done. by rewrite HTk in Hk.
    + intros k p Hp. destruct (decide (Text kw = k)) as [<-|Hk].
      * destruct (Hptrs _ _ Hp) as (r & Hr & _). congruence.
      * rewrite lookup_insert_ne by done. by apply Hptrs.
Qed.

Lemma addKeywords_ok ity D id tl kws : ∀ pre T ptrs,
  NoDup (Text <$> (pre ++ kws)) →
  table_ok ity (<[id:=mkDoc id tl pre]> D) T → ptrs_ok T ptrs id →
  ∃ T' ptrs', foldlM (addKeyword ity id) kws (T, ptrs) = Some (T', ptrs') ∧
    table_ok ity (<[id:=mkDoc id tl (pre ++ kws)]> D) T' ∧ ptrs_ok T' ptrs' id.
Proof.
  induction kws as [|kw kws IH]; intros pre T ptrs Hnd HT Hp.
  - rewrite app_nil_r. eauto.
  - cbn [foldlM]. destruct (addKeyword_ok ity D id tl pre kw T ptrs) as (T1 & p1 & -> & HT1 & Hp1);
      [|done|done|].
    { rewrite fmap_app, fmap_cons in Hnd. apply NoDup_app in Hnd as (_ & Hd & _).
      intros Hin. apply (Hd _ Hin). left. }
    cbn [mbind option_bind]. replace (pre ++ kw :: kws) with ((pre ++ [kw]) ++ kws) in *
      by (by rewrite <- app_assoc).
    by apply IH.
Qed.

Lemma ptrs_ok_mono T ptrs id id' : sle id id' → ptrs_ok T ptrs id → ptrs_ok T ptrs id'.
Proof.
  intros Hle H k p Hk. destruct (H k p Hk) as (r & ? & ? & Hlt). exists r. repeat split; try done; try lia.
  intros i x Hi Hx. eapply slt_sle_trans; [by eapply Hlt|done].
Qed.

Lemma table_ok_insert_empty ity D T id tl :
  D !! id = None → table_ok ity D T → table_ok ity (<[id:=mkDoc id tl []]> D) T.
Proof.
  intros Hid HT k. specialize (HT k).
  assert (Heq : ∀ id', kwOf D k id' = kwOf (<[id:=mkDoc id tl []]> D) k id').
  { intros id'. destruct (decide (id = id')) as [<-|].
    - rewrite kwOf_insert_same. unfold kwOf. by rewrite Hid.
    - by rewrite kwOf_insert_ne. }
  destruct (T !! k).
  - by eapply row_ok_ext.
  - intros id'. rewrite <- Heq. apply HT.
Qed.

(** Adding a whole document. *)
Lemma addDocKeywords_ok ity D d T ptrs :
  D !! DocId d = None → NoDup (texts d) → table_ok ity D T → ptrs_ok T ptrs (DocId d) →
  ∃ T' ptrs', foldlM (addKeyword ity (DocId d)) (Keywords d) (T, ptrs) = Some (T', ptrs') ∧
    table_ok ity (<[DocId d:=d]> D) T' ∧ ptrs_ok T' ptrs' (DocId d).
Proof.
  intros Hid Hnd HT Hp.
  destruct (addKeywords_ok ity D (DocId d) (TokenLen d) (Keywords d) [] T ptrs)
    as (T' & p' & Hrun & HT' & Hp'); [done|by apply table_ok_insert_empty|done|].
  exists T', p'. split; [done|]. split; [|done]. by destruct d.
Qed.

(** * Removing from one row *)

Lemma sortSearch_spec fuel docs first i j :
  StronglySorted sle docs →
  0 <= i <= j → j <= zlen docs → (Z.to_nat (j - i) ≤ fuel)%nat →
  (∀ n x, n < i → zget docs n = Some x → slt x first) →
  ∃ dp, sortSearch fuel docs first i j = Some dp ∧ i <= dp <= j ∧
    (∀ n x, n < dp → zget docs n = Some x → slt x first).
Proof.
  intros Hs. revert i j. induction fuel as [|fuel IH]; intros i j Hij Hj Hf Hlow; simpl.
  - destruct (Z.ltb_spec i j); [lia|]. exists i. split; [done|]. split; [lia|done].
  - destruct (Z.ltb_spec i j) as [Hlt|]; cycle 1.
    { exists i. split; [done|]. split; [lia|done]. }
    rewrite Z.quot_div_nonneg by lia. set (h := (i + j) / 2).
    assert (i <= h < j).
    { subst h. pose proof (Z.div_mod (i + j) 2). pose proof (Z.mod_pos_bound (i + j) 2). lia. }
    destruct (zget_in docs h) as [x Hx]; [lia|]. rewrite Hx. simpl.
    destruct (sltb x first) eqn:E.
    + destruct (IH (h + 1) j) as (dp & ? & ? & ?); try lia.
      { intros n y Hn Hy. destruct (decide (n = h)) as [->|]; [congruence|].
        destruct (decide (n < i)); [by eapply Hlow|].
        apply zget_Some in Hx as [? Hx], Hy as [? Hy].
        eapply sle_slt_trans; [|exact E].
        eapply (StronglySorted_lookup sle docs (Z.to_nat n) (Z.to_nat h)); eauto. lia. }
      exists dp. split; [done|]. split; [lia|done].
    + destruct (IH i h) as (dp & ? & ? & ?); try lia; [done|].
      exists dp. split; [done|]. split; [lia|done].
Qed.

Lemma zget_app_mid {A} (l1 l2 : list A) x i : i = zlen l1 → zget (l1 ++ x :: l2) i = Some x.
Proof.
  intros ->. unfold zlen. rewrite zget_nat. by apply list_lookup_middle.
Qed.
Lemma zset_app_mid {A} (l1 l2 : list A) x y i :
  i = zlen l1 → zset (l1 ++ x :: l2) i y = Some (l1 ++ y :: l2).
Proof.
  intros ->. rewrite zset_in.
  - f_equal. unfold zlen. rewrite Nat2Z.id. by rewrite insert_app_r_alt, Nat.sub_diag by lia.
  - rewrite zlen_app, zlen_cons. pose proof (zlen_nonneg l1). pose proof (zlen_nonneg l2). lia.
Qed.

Lemma moveEntry_row_of ity kept mid x rest :
  moveEntry ity (zlen kept) (zlen kept + zlen mid) (row_of ity (kept ++ mid ++ x :: rest)) =
  Some (row_of ity (match mid with
                    | [] => kept ++ x :: rest
                    | _ :: mid' => kept ++ x :: mid' ++ x :: rest end)).
Proof.
  unfold moveEntry. destruct mid as [|m mid].
  { rewrite zlen_nil. destruct (Z.eqb_spec (zlen kept) (zlen kept + 0)); [done|lia]. }
  rewrite zlen_cons. pose proof (zlen_nonneg mid).
  destruct (Z.eqb_spec (zlen kept) (zlen kept + (1 + zlen mid))); [lia|].
  assert (Hcol : ∀ A (f : entry → A),
    (y ← zget (f <$> kept ++ (m :: mid) ++ x :: rest) (zlen kept + (1 + zlen mid));
     zset (f <$> kept ++ (m :: mid) ++ x :: rest) (zlen kept) y) =
    Some (f <$> kept ++ x :: mid ++ x :: rest)).
  { intros A f. rewrite !fmap_app, !fmap_cons, !fmap_app, !fmap_cons.
    rewrite app_assoc. rewrite (zget_app_mid _ _ (f x)).
    2:{ rewrite zlen_app, zlen_cons. unfold zlen. by rewrite !fmap_length. }
    simpl. rewrite <- app_assoc. simpl. rewrite zset_app_mid; [done|].
    unfold zlen. by rewrite fmap_length. }
  unfold row_of. cbn [docIds frequencies locations].
  destruct (ity =? LocsIndex) eqn:EL, (ity =? FrequenciesIndex) eqn:EF.
  - unfold LocsIndex, FrequenciesIndex in *. apply Z.eqb_eq in EL, EF. lia.
  - rewrite (Hcol _ (λ e, Starts (snd e))), !bind_Some_eq. by rewrite (Hcol _ fst).
  - rewrite bind_Some_eq, (Hcol _ (λ e, Frequency (snd e))), bind_Some_eq. by rewrite (Hcol _ fst).
  - rewrite !bind_Some_eq. by rewrite (Hcol _ fst).
Qed.

Definition keepE (docs : list string) (es : list entry) : list entry :=
  filter (λ e, fst e ∉ docs) es.

Lemma keepE_id docs es : (∀ e, e ∈ es → fst e ∉ docs) → keepE docs es = es.
Proof.
  unfold keepE. induction es as [|e es IH]; intros H; [done|].
  rewrite filter_cons_True by (apply H; left). f_equal. apply IH. intros ??. apply H. by right.
Qed.

Lemma compactLoop_spec fuel ity : ∀ done_ todo kept mid rest,
  StronglySorted sle (done_ ++ todo) →
  StronglySorted slt (fst <$> rest) →
  (∀ y e, y ∈ done_ → e ∈ rest → y ≠ fst e) →
  (length todo + length rest ≤ fuel)%nat →
  ∃ kept' mid' rest',
    compactLoop fuel ity (done_ ++ todo) (row_of ity (kept ++ mid ++ rest))
       (zlen kept) (zlen kept + zlen mid) (zlen done_) =
      Some (row_of ity (kept' ++ mid' ++ rest'), zlen kept', zlen kept' + zlen mid') ∧
    kept' ++ rest' = kept ++ keepE (done_ ++ todo) rest.
Proof.
  induction fuel as [|fuel IH]; intros done_ todo kept mid rest Hsd Hsr Hdone Hfuel.
  - destruct todo, rest; simpl in Hfuel; try lia. simpl.
    rewrite app_nil_r. destruct (Z.ltb_spec (zlen done_) (zlen done_)); [lia|]. simpl.
    exists kept, mid, []. by rewrite app_nil_r.
  - destruct todo as [|y todo].
    { cbn [compactLoop]. rewrite app_nil_r.
      destruct (Z.ltb_spec (zlen done_) (zlen done_)); [lia|]. cbn [andb].
      exists kept, mid, rest. split; [done|]. f_equal. rewrite keepE_id; [done|].
      intros e He Hin. by eapply Hdone. }
    destruct rest as [|x rest].
    { cbn [compactLoop].
      assert (zlen kept + zlen mid <? zlen (docIds (row_of ity (kept ++ mid ++ []))) = false) as ->.
      { apply Z.ltb_ge. simpl. unfold zlen. rewrite fmap_length, !app_length. simpl. lia. }
      rewrite andb_false_r. exists kept, mid, []. split; [done|]. done. }
    cbn [compactLoop].
    assert (zlen done_ <? zlen (done_ ++ y :: todo) = true) as ->.
    { apply Z.ltb_lt. rewrite zlen_app, zlen_cons. pose proof (zlen_nonneg todo). lia. }
    assert (zlen kept + zlen mid <? zlen (docIds (row_of ity (kept ++ mid ++ x :: rest))) = true) as ->.
    { apply Z.ltb_lt. simpl. unfold zlen. rewrite fmap_length, !app_length. simpl. lia. }
    cbn [andb].
    assert (zget (docIds (row_of ity (kept ++ mid ++ x :: rest))) (zlen kept + zlen mid) = Some (fst x)) as ->.
    { simpl. rewrite !fmap_app, fmap_cons, app_assoc. apply zget_app_mid.
      rewrite zlen_app. unfold zlen. by rewrite !fmap_length. }
    rewrite (zget_app_mid done_ todo y) by done. cbn [mbind option_bind].
    rewrite fmap_cons in Hsr. apply StronglySorted_inv in Hsr as [Hsr Hxr].
    rewrite Forall_forall in Hxr.
    assert (Hxr' : ∀ e, e ∈ rest → slt (fst x) (fst e)).
    { intros e He. apply Hxr. by apply elem_of_list_fmap_1. }
    assert (Htodo : ∀ z, z ∈ todo → sle y z).
    { intros z Hz. apply StronglySorted_app_iff in Hsd as (_ & Hsd & _).
      apply StronglySorted_inv in Hsd as [_ Hsd]. rewrite Forall_forall in Hsd. by apply Hsd. }
    cbn [length] in Hfuel.
    destruct (sltb (fst x) y) eqn:Elt.
    + rewrite moveEntry_row_of. cbn [mbind option_bind].
      set (mid1 := match mid with [] => [] | _ :: mid' => mid' ++ [x] end).
      assert (Hlen1 : zlen mid1 = zlen mid).
      { subst mid1. destruct mid; [done|]. rewrite zlen_app, !zlen_cons, zlen_nil. lia. }
      destruct (IH done_ (y :: todo) (kept ++ [x]) mid1 rest) as (k' & m' & r' & Hrun & Heq);
        [done|done| |cbn [length]; lia|].
      { intros z e Hz He. apply Hdone; [done|by right]. }
      exists k', m', r'. split.
      * rewrite <- Hrun. f_equal.
        -- f_equal. subst mid1. destruct mid as [|m mid]; by repeat (rewrite <- app_assoc; simpl).
        -- rewrite zlen_app, zlen_cons, zlen_nil. lia.
        -- rewrite zlen_app, zlen_cons, zlen_nil. lia.
      * rewrite Heq, <- app_assoc. simpl. f_equal. unfold keepE.
        rewrite filter_cons_True; [done|].
        rewrite elem_of_app, elem_of_cons. intros [Hin|[Hin|Hin]].
        -- eapply Hdone; [done|left|done].
        -- subst y. by eapply slt_irrefl.
        -- eapply (Htodo _ Hin). done.
    + apply sltb_false in Elt. destruct (seqb (fst x) y) eqn:Eeq.
      * apply seqb_eq in Eeq. subst y.
        destruct (IH (done_ ++ [fst x]) todo kept (mid ++ [x]) rest) as (k' & m' & r' & Hrun & Heq);
          [by rewrite <- app_assoc|done| |lia|].
        { intros z e [Hz|Hz]%elem_of_app He.
          - apply Hdone; [done|by right].
          - apply elem_of_list_singleton in Hz as ->. by apply slt_ne, Hxr'. }
        exists k', m', r'. split.
        -- rewrite <- Hrun. rewrite <- !app_assoc. simpl. f_equal.
           ++ rewrite !zlen_app, zlen_cons, zlen_nil. lia.
           ++ rewrite !zlen_app, zlen_cons, zlen_nil. lia.
        -- rewrite Heq. f_equal. rewrite <- app_assoc. simpl. unfold keepE.
           rewrite filter_cons_False; [done|].
           intros Hn. apply Hn. rewrite elem_of_app, elem_of_cons. auto.
      * apply seqb_neq in Eeq.
        assert (slt y (fst x)) by (destruct (slt_trich (fst x) y) as [|[|]]; naive_solver).
        destruct (IH (done_ ++ [y]) todo kept mid (x :: rest)) as (k' & m' & r' & Hrun & Heq);
          [by rewrite <- app_assoc| | |cbn [length]; lia|].
        { rewrite fmap_cons. constructor; [done|]. by apply Forall_forall. }
        { intros z e [Hz|Hz]%elem_of_app He; [by apply Hdone|].
          apply elem_of_list_singleton in Hz as ->.
          apply elem_of_cons in He as [->|He]; [by apply slt_ne|].
          apply slt_ne. trans (fst x); [done|]. by apply Hxr'. }
        exists k', m', r'. split.
        -- rewrite <- Hrun. rewrite <- !app_assoc. simpl. f_equal.
           rewrite !zlen_app, zlen_cons, zlen_nil. lia.
        -- rewrite Heq. f_equal. by rewrite <- app_assoc.
Qed.

Lemma zslice_ok {A} (l : list A) i j :
  0 <= i <= j → j <= zlen l →
  zslice l i j = Some (take (Z.to_nat (j - i)) (drop (Z.to_nat i) l)).
Proof.
  intros. unfold zslice.
  destruct (Z.leb_spec 0 i), (Z.leb_spec i j), (Z.leb_spec j (zlen l)); simpl; done || lia.
Qed.

Lemma cutCol_app {A} (l1 l2 l3 : list A) top p :
  top = zlen l1 → p = zlen l1 + zlen l2 → cutCol (l1 ++ l2 ++ l3) top p = Some (l1 ++ l3).
Proof.
  intros -> ->. unfold cutCol. pose proof (zlen_nonneg l1). pose proof (zlen_nonneg l2).
  pose proof (zlen_nonneg l3).
  rewrite !zslice_ok; rewrite ?zlen_app; try lia. simpl. f_equal. f_equal.
  - unfold zlen. rewrite Z.sub_0_r, Nat2Z.id. change (Z.to_nat 0) with 0%nat. by rewrite drop_0, take_app.
  - rewrite app_assoc, drop_app_alt.
    + rewrite take_ge; [done|]. unfold zlen. lia.
    + rewrite app_length. unfold zlen. lia.
Qed.

Lemma removeFromRow_spec ity docs es :
  StronglySorted sle docs → StronglySorted slt (fst <$> es) → es ≠ [] →
  removeFromRow ity docs (row_of ity es) =
    Some (match keepE docs es with [] => None | es' => Some (row_of ity es') end).
Proof.
  intros Hsd Hse Hne. unfold removeFromRow.
  assert (∃ dp, (match docs with
        | [] => Some 0
        | _ => first ← zget (docIds (row_of ity es)) 0;
               sortSearch (length docs) docs first 0 (zlen docs)
        end) = Some dp ∧ 0 <= dp <= zlen docs ∧
       ∀ n x e, n < dp → zget docs n = Some x → e ∈ es → x ≠ fst e) as (dp & -> & Hdp & Hlow).
  { destruct docs as [|d docs].
    { exists 0. split; [done|]. split; [done|]. intros n x e Hn Hx. apply zget_lt in Hx. lia. }
    destruct es as [|e0 es]; [done|]. simpl (docIds _).
    change (zget ((e0 :: es).*1) 0) with (Some (fst e0)). cbn [mbind option_bind].
    destruct (sortSearch_spec (length (d :: docs)) (d :: docs) (fst e0) 0 (zlen (d :: docs)))
      as (dp & Hrun & Hdp & Hlow); [done|..].
    - pose proof (zlen_nonneg (d :: docs)). lia.
    - lia.
    - unfold zlen. lia.
    - intros n x Hn Hx. apply zget_lt in Hx. lia.
    - exists dp. split; [done|]. split; [done|]. intros n x e Hn Hx He.
      apply slt_ne. specialize (Hlow _ _ Hn Hx).
      apply elem_of_cons in He as [->|He]; [done|].
      rewrite fmap_cons in Hse. apply StronglySorted_inv in Hse as [_ Hse].
      rewrite Forall_forall in Hse. trans (fst e0); [done|]. apply Hse.
      by apply elem_of_list_fmap_1. }
  cbn [mbind option_bind].
  rewrite <- (take_drop (Z.to_nat dp) docs) at 2.
  destruct (compactLoop_spec (length docs + length (docIds (row_of ity es))) ity
      (take (Z.to_nat dp) docs) (drop (Z.to_nat dp) docs) [] [] es) as (k' & m' & r' & Hrun & Heq).
  - by rewrite take_drop.
  - done.
  - intros y e [i Hi]%elem_of_list_lookup He. apply lookup_take_Some in Hi as [Hi ?].
    eapply (Hlow (Z.of_nat i)); [lia| |done]. by rewrite zget_nat.
  - rewrite drop_length. simpl. rewrite fmap_length. lia.
  - simpl app in Hrun. rewrite zlen_nil, Z.add_0_r in Hrun.
    assert (zlen (take (Z.to_nat dp) docs) = dp) as Hl.
    { unfold zlen in *. rewrite take_length. lia. }
    rewrite Hl in Hrun. rewrite Hrun. cbn [mbind option_bind]. clear Hrun.
    rewrite take_drop in Heq. simpl in Heq.
    destruct (Z.eqb_spec (zlen k') (zlen k' + zlen m')) as [Ez|Ez].
    + assert (m' = []) as -> by (destruct m'; [done|]; rewrite zlen_cons in Ez;
        pose proof (zlen_nonneg m'); lia).
      simpl app. rewrite Heq. cbn [mbind option_bind]. by destruct (keepE docs es).
    + assert (Hcut : ∀ A (f : entry → A),
        cutCol (f <$> k' ++ m' ++ r') (zlen k') (zlen k' + zlen m') = Some (f <$> keepE docs es)).
      { intros A f. rewrite <- Heq, !fmap_app. apply cutCol_app; unfold zlen; by rewrite !fmap_length. }
      unfold row_of at 1 2 3 4 5. cbn [docIds frequencies locations].
      destruct (ity =? LocsIndex) eqn:EL, (ity =? FrequenciesIndex) eqn:EF.
      * unfold LocsIndex, FrequenciesIndex in *. apply Z.eqb_eq in EL, EF. lia.
      * rewrite (Hcut _ (λ e, Starts (snd e))). cbn [mbind option_bind].
        rewrite (Hcut _ fst). cbn [mbind option_bind docIds].
        destruct (keepE docs es); [done|]. simpl. unfold row_of. by rewrite EL, EF.
      * cbn [mbind option_bind]. rewrite (Hcut _ (λ e, Frequency (snd e))). cbn [mbind option_bind].
        rewrite (Hcut _ fst). cbn [mbind option_bind docIds].
        destruct (keepE docs es); [done|]. simpl. unfold row_of. by rewrite EL, EF.
      * cbn [mbind option_bind]. rewrite (Hcut _ fst). cbn [mbind option_bind docIds].
        destruct (keepE docs es); [done|]. simpl. unfold row_of. by rewrite EL, EF.
Qed.

Lemma keepE_elem docs es e : e ∈ keepE docs es ↔ fst e ∉ docs ∧ e ∈ es.
Proof. unfold keepE. by rewrite elem_of_list_filter. Qed.

Lemma keepE_sorted docs es :
  StronglySorted slt (fst <$> es) → StronglySorted slt (fst <$> keepE docs es).
Proof.
  unfold keepE. induction es as [|e es IH]; intros Hs; [constructor|].
  rewrite fmap_cons in Hs. apply StronglySorted_inv in Hs as [Hs Hx].
  rewrite filter_cons. destruct (decide (fst e ∉ docs)); [|by apply IH].
  rewrite fmap_cons. constructor; [by apply IH|].
  rewrite Forall_forall in *. intros y ([] & -> & Hy)%elem_of_list_fmap.
  apply elem_of_list_filter in Hy as [_ Hy]. apply Hx. by eapply elem_of_list_fmap_1.
Qed.

(** Documents of [D] whose id is not in [docs]. *)
Definition without (docs : list string) (D : gmap string DocIndex) : gmap string DocIndex :=
  filter (λ p, p.1 ∉ docs) D.

Lemma without_lookup docs D id :
  without docs D !! id = if decide (id ∈ docs) then None else D !! id.
Proof.
  unfold without. destruct (D !! id) eqn:E.
  - destruct (decide (id ∈ docs)).
    + apply map_filter_lookup_None. right. intros x Hx Hn. simpl in Hn. done.
    + apply map_filter_lookup_Some. split; done.
  - rewrite (proj2 (map_filter_lookup_None _ _ _)) by (by left). by destruct (decide _).
Qed.

Lemma kwOf_without docs D k id :
  kwOf (without docs D) k id = if decide (id ∈ docs) then None else kwOf D k id.
Proof. unfold kwOf. rewrite without_lookup. by destruct (decide (id ∈ docs)). Qed.

Lemma removeRows_ok ity docs D T :
  StronglySorted sle docs → table_ok ity D T →
  map_Forall (λ _ r, is_Some (removeFromRow ity docs r)) T ∧
  table_ok ity (without docs D) (omap (λ r, removeFromRow ity docs r ≫= id) T).
Proof.
  intros Hs HT. split.
  - intros k r Hk. specialize (HT k). rewrite Hk in HT.
    destruct HT as (es & -> & Hne & Hse & _). rewrite removeFromRow_spec by done. eauto.
  - intros k. rewrite lookup_omap. specialize (HT k). destruct (T !! k) as [r|]; simpl.
    + destruct HT as (es & -> & Hne & Hse & Hes). rewrite removeFromRow_spec by done. simpl.
      assert (Hin : ∀ id kw, (id, kw) ∈ keepE docs es ↔ kwOf (without docs D) k id = Some kw).
      { intros id kw. rewrite keepE_elem, kwOf_without, Hes. simpl.
        destruct (decide (id ∈ docs)); naive_solver. }
      destruct (keepE docs es) as [|e es'] eqn:E; simpl.
      * intros id. destruct (kwOf _ k id) eqn:Ek; [|done]. apply Hin in Ek.
        by apply elem_of_nil in Ek.
      * exists (e :: es'). split; [done|]. split; [done|]. split; [|done].
        rewrite <- E. by apply keepE_sorted.
    + intros id. rewrite kwOf_without. destruct (decide _); [done|]. apply HT.
Qed.
