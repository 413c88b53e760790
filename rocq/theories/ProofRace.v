(** Data races of a shard (C111). *)
From Verif Require Import SpecRace ProofLocks ProofGhost ProofSeqEq ProofFine ProofFineSim ProofFineThms ProofFineSee.

Definition xinv (c : cstate) : Prop := linv c ∧ (shTab (cShard c) ≠ None → shReaders (cShard c) = []).

Section Race.
  Context (log2 : F → F) (sortDocs : list DocIndex → list DocIndex).
  Notation tstep := (tstep log2 sortDocs).
  Notation cstep := (cstep log2 sortDocs).
  Notation conc := (conc log2 sortDocs).

  Lemma tstep_excl t p s p' s' : tstep t p s = Some (p', s') → p' = Crash ∨
    ((shTab s ≠ None → shReaders s = []) → shTab s' ≠ None → shReaders s' = []).
  Proof.
    intros H. destruct p; cbn [ModelLocks.tstep] in H; cbv zeta in H;
      repeat match goal with
      | H : Some _ = Some _ |- _ => injection H as <- <-
      | H : None = Some _ |- _ => discriminate H
      | H : match ?x with _ => _ end = Some _ |- _ => destruct x eqn:?
      end; try (by left); try (right; cbn; by auto); right; cbn; intros Hx Hy;
      try (match goal with H : tabFree _ = true |- _ => apply tabFree_spec in H as [_ ?] end; done).
    - match goal with H : isFree _ = true |- _ => apply isFree_None in H end. done.
    - rewrite Hx by done. done.
  Qed.
  Lemma xinv_step c c' : conc c c' → xinv c → crashed c' ∨ xinv c'.
  Proof.
    intros Hs [Hl Hx]. destruct (linv_step log2 sortDocs _ _ Hs Hl) as [?|Hl']; [by left|].
    destruct Hs as [t H]. apply cstep_inv in H as (th & Hth & [(c0 & cs & E & _ & ->)|(p' & sh & _ & H & ->)]).
    - right. by split.
    - apply tstep_excl in H as [-> |H]; [left; by eapply crashed_insert|]. right. split; [done|]. cbn. by apply H.
  Qed.
  Lemma xinv_reach c c' : rtc conc c c' → xinv c → crashed c' ∨ xinv c'.
  Proof.
    intros H. induction H as [|s1 s2 s3 H12 H23 IH]; [by right|]. intros Hl.
    destruct (xinv_step _ _ H12 Hl) as [Hc|Hl2]; [left; by eapply crashed_reach|auto].
  Qed.
  Lemma xinv_start x stale adds rems looks : xinv (shardStart x stale adds rems looks).
  Proof. split; [apply linv_start|done]. Qed.
End Race.

(** * Which variables can be raced for *)
Lemma same_owner holds l c t u p q : owner holds l (cThreads c) → pc_of t c = Some p → pc_of u c = Some q →
  holds p = true → holds q = true → t = u.
Proof.
  unfold pc_of. intros Ho Hp Hq H1 H2. apply fmap_Some in Hp as (th & Ht & ->), Hq as (uh & Hu & ->).
  assert (l = Some t) by (apply Ho; eauto). assert (l = Some u) by (apply Ho; eauto). congruence.
Qed.
Lemma tab_reader c t u p q : xinv c → pc_of t c = Some p → pc_of u c = Some q → holdsTab p = true → reads q = true → False.
Proof.
  intros [Hl Hx] Hp Hq H1 H2. unfold pc_of in *. apply fmap_Some in Hp as (th & Ht & ->), Hq as (uh & Hu & ->).
  assert (shTab (cShard c) = Some t) as Et by (apply (li_tab _ Hl); eauto).
  assert (u ∈ shReaders (cShard c)) as Eu by (apply (li_rd _ Hl); eauto).
  rewrite Hx in Eu by (by rewrite Et). by apply elem_of_nil in Eu.
Qed.
Lemma role_of c t p : rinv c → pc_of t c = Some p → role t p.
Proof. intros Hr Hp. apply fmap_Some in Hp as (th & Ht & ->). by apply Hr. Qed.

Lemma race_cells c t u l : xinv c → rinv c → racing c t u l →
  (∃ i, l = RemCell i) ∧ ((t = 0 ∧ u = 1) ∨ (t = 1 ∧ u = 0))%nat.
Proof.
  intros Hx Hr (Hne & p & q & a & b & Hp & Hq & Ha & Hb & Hc).
  pose proof (role_of _ _ _ Hr Hp) as Rp. pose proof (role_of _ _ _ Hr Hq) as Rq.
  assert (HA : holdsAdd p = true → holdsAdd q = true → False) by (intros; apply Hne; by eapply same_owner; [apply (li_add _ (proj1 Hx))|..]).
  assert (HR : holdsRem p = true → holdsRem q = true → False) by (intros; apply Hne; by eapply same_owner; [apply (li_rem _ (proj1 Hx))|..]).
  assert (HT : holdsTab p = true → holdsTab q = true → False) by (intros; apply Hne; by eapply same_owner; [apply (li_tab _ (proj1 Hx))|..]).
  assert (H1 : holdsTab p = true → reads q = true → False) by (by apply tab_reader with (c := c) (t := t) (u := u)).
  assert (H2 : reads p = true → holdsTab q = true → False) by (intros; by apply tab_reader with (c := c) (t := u) (u := t) (p := q) (q := p)).
  clear Hp Hq Hx Hr.
  destruct l as [| | |i|]; destruct p; cbn in Ha; try discriminate Ha; destruct q; cbn in Hb; try discriminate Hb;
    cbn in HA, HR, HT, H1, H2; try (exfalso; by auto);
    try (destruct Hc as [-> | ->]; congruence);
    destruct t as [|[|t]]; cbn in Rp; try done; destruct u as [|[|u]]; cbn in Rq; try done; try (exfalso; by auto); try (split; [eauto|auto]).
Qed.

Lemma race_only_cells log2 sortDocs x stale adds rems looks c t u l :
  conc_reach log2 sortDocs (shardStart x stale adds rems looks) c → ¬ crashed c → racing c t u l →
  (∃ i, l = RemCell i) ∧ ((t = 0 ∧ u = 1) ∨ (t = 1 ∧ u = 0))%nat.
Proof.
  intros H Hc. apply race_cells.
  - destruct (xinv_reach _ _ _ _ H (xinv_start _ _ _ _ _)); done.
  - eapply rinv_reach; [exact H|]. apply rinv_start.
Qed.

(** * What a step writes *)
Lemma pushed_ptr x s : (removeCache x = removeCache (shIx s) ∨ ∃ id, removeCache x = removeCache (shIx s) ++ [id]) →
  ∀ i, i ≠ remPtr s → shArray (shPushed x s) !! i = shArray s !! i.
Proof.
  unfold shArray, remPtr. intros [E|(id & E)] i Hi; cbn; rewrite E.
  - replace (_ - _)%nat with 0%nat by lia. by rewrite drop_0.
  - rewrite app_length. cbn. replace (_ - _)%nat with 1%nat by lia.
    destruct (decide (i < length (removeCache (shIx s)))%nat).
    + rewrite <- app_assoc, !lookup_app_l; done.
    + rewrite (lookup_app_r (_ ++ _)) by (rewrite app_length; cbn; lia). rewrite lookup_app_r by lia.
      rewrite lookup_drop, app_length. cbn. f_equal. lia.
Qed.
Lemma sorted_cells n s i : (n <= i)%nat → shArray (shSetArray (sortIds (take n (shArray s)) ++ drop n (shArray s)) s) !! i = shArray s !! i.
Proof.
  intros Hi. unfold shArray at 1. cbn. rewrite take_drop.
  assert (E : length (sortIds (take n (shArray s))) = length (take n (shArray s))) by (unfold sortIds; by rewrite merge_sort_Permutation).
  rewrite <- (take_drop n (shArray s)) at 3. rewrite !lookup_app_r; rewrite ?E; [done|..]; rewrite take_length; lia.
Qed.
Lemma AddDocs_caches docs x x' : AddDocs docs x = Some x' → addCache x' = addCache x ∧ removeCache x' = removeCache x.
Proof. intros (_ & ? & ? & _)%AddDocs_inv. done. Qed.

Lemma pushAdd_more d x x' : pushAdd d x = Some x' → removeCache x' = removeCache x ∧
  table x' = table x ∧ docsState x' = docsState x ∧ numDocs x' = numDocs x ∧ totalTokenLen x' = totalTokenLen x ∧ docTokenLens x' = docTokenLens x.
Proof.
  unfold pushAdd. destruct d as [d|].
  - destruct (zlen (addCache x) <? DocCacheSize (initOptions x)); [|done]. by intros [= <-].
  - by intros [= <-].
Qed.
Lemma step_writes log2 sortDocs t p s p' s' l : tstep log2 sortDocs t p s = Some (p', s') →
  touches p s l ≠ Some Wr → same_at l s s'.
Proof.
  intros H Ht.
  assert (Hrefl : same_at l s s) by (by destruct l; cbn; try done; intros; congruence).
  destruct p; cbn [ModelLocks.tstep] in H; cbv zeta in H;
    repeat match goal with
    | H : Some _ = Some _ |- _ => injection H as <- <-
    | H : None = Some _ |- _ => discriminate H
    | H : match ?x with _ => _ end = Some _ |- _ => destruct x eqn:?
    end; try exact Hrefl; clear Hrefl.
  - apply pushAdd_more in Heqo as (Hr & Htab). destruct l; cbn in Ht |- *; try (by destruct Ht); by rewrite ?Hr.
  - apply pushAdd_more in Heqo as (Hr & Htab). destruct l; cbn in Ht |- *; try (by destruct Ht); by rewrite ?Hr.
  - apply scanStep_inv in Heqo0 as (d' & Hd & Hp & Hm & Hrc & _). rewrite Heqo in Hd. injection Hd as <-.
    assert (Hrc' : removeCache i0 = removeCache (shIx s)) by (apply Hrc; intros E; by rewrite E in Heqb).
    destruct l; cbn in Ht |- *; try (by destruct Ht); try (by rewrite Hrc'). by rewrite Hp.
  - apply scanStep_inv in Heqo as (d' & Hd & Hp & Hm & _ & _).
    destruct l as [| | |j|]; cbn in Ht |- *; try (by destruct Ht); [by rewrite Hp|].
    destruct (decide (j = remPtr s)); [by destruct Ht|]. apply (pushed_ptr i0 s); [|done]. destruct (mk_rc _ _ Hm) as [|(id & _ & ?)]; eauto.
  - apply markRemove_inv in Heqo as (Hp & Hm).
    destruct l as [| | |j|]; cbn in Ht |- *; try (by destruct Ht); [by rewrite Hp|rewrite Hp; congruence|].
    destruct (decide (j = remPtr s)); [by destruct Ht|]. apply (pushed_ptr i s); [|done]. destruct (mk_rc _ _ Hm) as [|(id & _ & ?)]; eauto.
  - destruct l; cbn in Ht |- *; try (by destruct Ht); try done; congruence.
  - destruct l as [| | |j|]; cbn [same_at]; try done.
    + cbn. congruence.
    + cbn. rewrite take_length, app_length. unfold sortIds. rewrite merge_sort_Permutation, <- app_length, take_drop. unfold shArray. rewrite app_length. lia.
    + cbn in Ht. destruct (decide (j < n)%nat); [by destruct Ht|]. apply (sorted_cells n s). lia.
  - apply RemoveDocs_inv in Heqo as (_ & Ha & Hr & _). destruct l; cbn in Ht |- *; try (by destruct Ht); rewrite ?Ha, ?Hr; try done. congruence.
  - destruct l; cbn in Ht |- *; try (by destruct Ht); try done. intros j d d' H1 H2. pose proof (zslice_split _ _ _ _ Heqo Heqo0) as E.
    rewrite E, lookup_app_l in H1 by (by eapply lookup_lt_Some). congruence.
  - apply AddDocs_caches in Heqo as (Ha & Hr). destruct l; cbn in Ht |- *; try (by destruct Ht); rewrite ?Ha, ?Hr; try done. congruence.
Qed.

(** * What a step reads *)
Definition tabEq (x y : Indexer) : Prop :=
  table y = table x ∧ docsState y = docsState x ∧ numDocs y = numDocs x ∧
  totalTokenLen y = totalTokenLen x ∧ docTokenLens y = docTokenLens x ∧ initOptions y = initOptions x.
Notation put a r x := (setAddCache a (setRemoveCache r x)).
Lemma tabEq_put x y : tabEq x y → y = put (addCache y) (removeCache y) x.
Proof. intros (? & ? & ? & ? & ? & ?). destruct x, y; cbn in *; by subst. Qed.
Lemma addOneDoc_put a r d nx x ptrs : addOneDoc d nx (put a r x, ptrs) = '(y, q) ← addOneDoc d nx (x, ptrs); Some (put a r y, q).
Proof.
  unfold addOneDoc. cbn [docsState setAddCache setRemoveCache initOptions table docTokenLens totalTokenLen numDocs addCache removeCache].
  destruct (match nx with Some d0 => _ | None => _ end); [done|]. destruct (match docsState x !! DocId d with Some z => _ | None => _ end); [done|]. cbv zeta.
  destruct (foldlM _ _ _) as [[T q]|]; done.
Qed.
Lemma AddDocs_put a r docs x : AddDocs docs (put a r x) = y ← AddDocs docs x; Some (put a r y).
Proof.
  unfold AddDocs. generalize (∅ : gmap string Z). revert x. induction docs as [|d docs IH]; intros x ptrs; [done|].
  cbn [addDocsLoop]. rewrite addOneDoc_put. destruct (addOneDoc d (head docs) (x, ptrs)) as [[y q]|]; [|done]. rewrite !bind_Some_eq. apply IH.
Qed.
Lemma removeStates_put a r docs x : removeStates docs (put a r x) = put a r (removeStates docs x).
Proof. unfold removeStates. revert x. induction docs as [|d docs IH]; intros x; [done|]. cbn [foldl]. by rewrite <- IH. Qed.
Lemma RemoveDocs_put a r docs x : RemoveDocs docs (put a r x) = y ← RemoveDocs docs x; Some (put a r y).
Proof.
  unfold RemoveDocs. cbv zeta. rewrite removeStates_put. cbn [initOptions setAddCache setRemoveCache table docsState numDocs totalTokenLen docTokenLens addCache removeCache].
  destruct (decide _); done.
Qed.
Lemma Lookup_put log2 a r x tokens labels flt c lg : Lookup log2 (put a r x) tokens labels flt c lg = Lookup log2 x tokens labels flt c lg.
Proof. by apply Lookup_ext. Qed.
(** with the same documents waiting and as many removals waiting *)
Lemma pushRemove_put r id x : length r = length (removeCache x) →
  pushRemove id (setRemoveCache r x) = y ← pushRemove id x; Some (setRemoveCache (r ++ [id]) y).
Proof. intros E. unfold pushRemove, zlen. cbn. rewrite E. by destruct (_ <? _). Qed.
Lemma setAdd_setRemove a r x : setAddCache a (setRemoveCache r x) = setRemoveCache r (setAddCache a x).
Proof. done. Qed.
Lemma put_same x r : put (addCache x) r x = setRemoveCache r x.
Proof. by destruct x. Qed.
Lemma scanStep_put r x pos i : (∀ d, addCache x !! i = Some d → docsState x !! DocId d = Some 0 → length r = length (removeCache x)) →
  match scanStep (x, pos) i, scanStep (setRemoveCache r x, pos) i with
  | Some (y, p1), Some (y2, p2) => p1 = p2 ∧ ∃ r', y2 = setRemoveCache r' y ∧
      (r' = r ∧ removeCache y = removeCache x ∨ ∃ id, r' = r ++ [id] ∧ removeCache y = removeCache x ++ [id])
  | None, None => True | _, _ => False end.
Proof.
  intros E. unfold scanStep. cbn [addCache setRemoveCache docsState].
  destruct (addCache x !! i) as [d|]; [|done]. rewrite !bind_Some_eq. specialize (E d eq_refl). destruct (docsState x !! DocId d) as [z|].
  2:{ split; [done|]. exists r. split; [done|]. by left. }
  destruct (z <=? 1). 2:{ split; [done|]. exists r. split; [done|]. by left. }
  destruct (zget (addCache x) pos) as [o|]; [|done]. rewrite !bind_Some_eq. destruct (zset (addCache x) pos d) as [c1|]; [|done]. rewrite !bind_Some_eq. cbv zeta.
  destruct (Z.eqb_spec z 0) as [->|].
  - specialize (E eq_refl). rewrite setAdd_setRemove, pushRemove_put by done. destruct (pushRemove _ _) as [y|] eqn:Ep; [|done]. rewrite !bind_Some_eq.
    split; [done|]. exists (r ++ [DocId d]). split; [done|]. right. exists (DocId d). split; [done|]. by apply pushRemove_inv in Ep as [-> _].
  - rewrite !bind_Some_eq. split; [done|]. exists r. split; [done|]. by left.
Qed.
Lemma markRemove_put a r id x : length r = length (removeCache x) →
  match markRemove id x, markRemove id (put a r x) with
  | Some y, Some y2 => ∃ r', y2 = put a r' y ∧
      (r' = r ∧ removeCache y = removeCache x ∨ r' = r ++ [id] ∧ removeCache y = removeCache x ++ [id])
  | None, None => True | _, _ => False end.
Proof.
  intros E. unfold markRemove. destruct (seqb id "0"). { exists r. split; [done|]. by left. }
  cbn [docsState setAddCache setRemoveCache].
  destruct (docsState x !! id) as [z|]; [|exists r; split; [done|]; by left].
  destruct (decide (z = 0)) as [->|H0].
  { unfold pushRemove, zlen. cbn. rewrite E. destruct (_ <? _); [|done]. cbn. exists (r ++ [id]). split; [done|]. by right. }
  destruct (decide (z = 2)) as [->|H2]; [exists r; split; [done|]; by left|].
  replace (match z with 0 => _ | 2 => _ | _ => _ end) with (Some x) by (destruct z as [|[[]|[]|]|]; done).
  replace (match z with 0 => _ | 2 => _ | _ => _ end) with (Some (put a r x)) by (destruct z as [|[[]|[]|]|]; done).
  exists r. split; [done|]. by left.
Qed.
Lemma cells_eq {A} (l k : list A) : length k = length l → (∀ i d d', l !! i = Some d → k !! i = Some d' → d' = d) → k = l.
Proof.
  intros E H. apply list_eq_same_length with (n := length l); [done..|]. intros i x y _ Hx Hy. by apply (H i).
Qed.
Lemma take_cells {A} (n : nat) (l k : list A) : (∀ i, (i < n)%nat → k !! i = l !! i) → take n k = take n l.
Proof. intros H. apply list_eq. intros i. destruct (decide (i < n)%nat); [rewrite !lookup_take by done; auto|]. rewrite !lookup_take_ge by lia. done. Qed.

Lemma pushed_same x1 x2 st1 st2 y r' ra rb rc rd l1 l2 i (s1 := mkShard x1 st1 ra rb rc rd l1) (s2 := mkShard x2 st2 ra rb rc rd l2) y2 :
  length (removeCache x2) = length (removeCache x1) → removeCache y2 = r' →
  (r' = removeCache x2 ∧ removeCache y = removeCache x1 ∨ ∃ id, r' = removeCache x2 ++ [id] ∧ removeCache y = removeCache x1 ++ [id]) →
  ((∃ d, shArray s1 !! i = Some d) ∨ True) → shArray s2 !! i = shArray s1 !! i → i = length (removeCache x1) →
  shArray (shPushed y2 s2) !! i = shArray (shPushed y s1) !! i.
Proof.
  intros E E2 Hc _ He ->. unfold shArray in *. cbn in *. rewrite E2. destruct Hc as [[-> ->]|(id & -> & ->)].
  - rewrite E, Nat.sub_diag, !drop_0. done.
  - rewrite <- !app_assoc. cbn [app]. transitivity (Some id); [|symmetry]; by apply list_lookup_middle.
Qed.
Lemma step_reads log2 sortDocs t p s1 s2 : alike p s1 s2 →
  same_outcome p s1 s2 (tstep log2 sortDocs t p s1) (tstep log2 sortDocs t p s2).
Proof.
  intros [Hl Hs]. destruct s1 as [x1 st1 a1 r1 t1 rd1 lg1], s2 as [x2 st2 a2 r2 t2 rd2 lg2].
  destruct Hl as (Ea & Er & Et & Erd & Eo). cbn in Ea, Er, Et, Erd, Eo. subst a2 r2 t2 rd2.
  assert (Hlog : ∀ l1 l2 : list (query * option (list IndexedDoc * Z)), ∃ new, l1 = l1 ++ new ∧ l2 = l2 ++ new) by (intros; exists []; by rewrite !app_nil_r).
  assert (HLk : ∀ z1 z2 u1 u2 b1 b2 b3 b4, initOptions z2 = initOptions z1 → same_locks (mkShard z1 u1 b1 b2 b3 b4 lg1) (mkShard z2 u2 b1 b2 b3 b4 lg2)) by done.
  assert (Hkeep : ∀ q b1 b2 b3 b4, (∀ l, touches p (mkShard x1 st1 a1 r1 t1 rd1 lg1) l ≠ None → same_at l (mkShard x1 st1 a1 r1 t1 rd1 lg1) (mkShard x2 st2 a1 r1 t1 rd1 lg2)) →
    same_outcome p (mkShard x1 st1 a1 r1 t1 rd1 lg1) (mkShard x2 st2 a1 r1 t1 rd1 lg2)
      (Some (q, mkShard x1 st1 b1 b2 b3 b4 lg1)) (Some (q, mkShard x2 st2 b1 b2 b3 b4 lg2))).
  { intros q b1 b2 b3 b4 H. split; [done|]. split; [by apply HLk|]. split; [|apply Hlog]. intros l Hl. specialize (H l Hl). by destruct l. }
  assert (HT : touches p (mkShard x1 st1 a1 r1 t1 rd1 lg1) Table ≠ None → x2 = put (addCache x2) (removeCache x2) x1).
  { intros H. destruct (Hs Table H) as (? & ? & ? & ? & ?). by apply tabEq_put. }
  assert (HA : touches p (mkShard x1 st1 a1 r1 t1 rd1 lg1) AddPtr ≠ None → touches p (mkShard x1 st1 a1 r1 t1 rd1 lg1) AddCells ≠ None → addCache x2 = addCache x1).
  { intros H1 H2. pose proof (Hs AddPtr H1) as E1. pose proof (Hs AddCells H2) as E2. cbn in E1, E2. by apply cells_eq. }
  assert (HR : touches p (mkShard x1 st1 a1 r1 t1 rd1 lg1) RemPtr ≠ None → length (removeCache x2) = length (removeCache x1)).
  { intros H1. exact (Hs RemPtr H1). }
  destruct p; try done.
  - (* AddLock *) cbn [tstep ModelLocks.shAdd]. destruct (isFree a1); [|done]. apply (Hkeep _ _ _ _ _ Hs).
  - (* AddPush *) cbn [tstep]. cbn [shIx]. assert (HAe : addCache x2 = addCache x1) by by apply HA.
    unfold pushAdd. destruct doc as [d|].
    + rewrite HAe, Eo. destruct (_ <? _); [|by apply Hkeep].
      cbn [setAddCache initOptions addCache]. rewrite Eo. destruct (_ || _); (split; [done|split; [by apply HLk|split; [|apply Hlog]]]);
        intros l Hl; destruct l; cbn in Hl |- *; try done; intros; congruence.
    + rewrite HAe, Eo. destruct (_ || _); (split; [done|split; [by apply HLk|split; [|apply Hlog]]]);
        intros l Hl; destruct l; cbn in Hl |- *; try done; rewrite HAe; intros; congruence.
  - cbn [tstep]. unfold tabFree. cbn [ModelLocks.shTab shReaders]. destruct (_ && _); [|done]. by apply Hkeep.
  - (* AddScan *) cbn [tstep shIx]. assert (E2 : x2 = setRemoveCache (removeCache x2) x1).
    { rewrite (HT ltac:(done)) at 1. rewrite (HA ltac:(done) ltac:(done)). apply put_same. }
    remember (removeCache x2) as rc eqn:Erc. clear Erc. subst x2.
    change (addCache (setRemoveCache rc x1)) with (addCache x1). change (docsState (setRemoveCache rc x1)) with (docsState x1).
    destruct (addCache x1 !! i) as [d|] eqn:Ed; [|by apply Hkeep].
    destruct (match docsState x1 !! DocId d with Some 0 => true | _ => false end) eqn:Ez; [by apply Hkeep|].
    pose proof (scanStep_put rc x1 position i) as H. destruct (scanStep (x1, position) i) as [[y p1]|] eqn:E1.
    + destruct (scanStep (setRemoveCache rc x1, position) i) as [[y2 p2]|]; [|destruct H; intros d0 Hd; rewrite Ed in Hd; injection Hd as <-; intros E; by rewrite E in Ez].
      destruct H as (<- & r' & -> & Hr); [intros d0 Hd; rewrite Ed in Hd; injection Hd as <-; intros E; by rewrite E in Ez|].
      split; [done|]. split; [by apply HLk|]. split; [|apply Hlog]. intros l Hl. destruct l; cbn in Hl |- *; try done; intros; congruence.
    + destruct (scanStep (setRemoveCache rc x1, position) i) as [[y2 p2]|]; [|by apply Hkeep].
      exfalso; apply H. intros d0 Hd; rewrite Ed in Hd; injection Hd as <-; intros E; by rewrite E in Ez.
  - cbn [tstep ModelLocks.shRem]. destruct (isFree r1); [|done]. by apply Hkeep.
  - (* AddRemPush *) cbn [tstep shIx]. assert (E2 : x2 = setRemoveCache (removeCache x2) x1).
    { rewrite (HT ltac:(done)) at 1. rewrite (HA ltac:(done) ltac:(done)). apply put_same. }
    specialize (HR ltac:(done)).
    remember (removeCache x2) as rc eqn:Erc. clear Erc. subst x2.
    pose proof (scanStep_put rc x1 position i (λ _ _ _, HR)) as H. destruct (scanStep (x1, position) i) as [[y p1]|] eqn:E1;
      destruct (scanStep (setRemoveCache rc x1, position) i) as [[y2 p2]|]; try done; try (by apply Hkeep).
    destruct H as (<- & r' & -> & Hr). split; [done|]. split; [by apply HLk|]. split; [|apply Hlog]. intros l Hl. destruct l as [| | |j|]; try done.
    + cbn. intros; congruence.
    + cbn. destruct Hr as [[-> ->]|(id & -> & ->)]; rewrite ?app_length; lia.
    + pose proof (Hs (RemCell j) Hl) as Hj. cbn in Hl. unfold remPtr in Hl. cbn in Hl. destruct (decide (j = _)); [|done]. 
      apply (pushed_same x1 (setRemoveCache rc x1) st1 st2 y r' a1 r1 t1 rd1 lg1 lg2 j (setRemoveCache r' y)); try done; auto.
  - cbn [tstep ModelLocks.shRem]. destruct (isFree r1); [|done]. destruct (seqb docId "0"); by apply Hkeep.
  - cbn [tstep]. unfold tabFree. cbn [ModelLocks.shTab shReaders]. destruct (_ && _); [|done]. by apply Hkeep.
  - (* RemMark *) cbn [tstep shIx]. pose proof (HT ltac:(done)) as E2. specialize (HR ltac:(done)).
    remember (removeCache x2) as rc eqn:Erc. clear Erc. remember (addCache x2) as ac eqn:Eac. clear Eac. subst x2.
    pose proof (markRemove_put ac rc docId x1 HR) as H. destruct (markRemove docId x1) as [y|] eqn:E1;
      destruct (markRemove docId (put ac rc x1)) as [y2|]; try done; try (by apply Hkeep).
    destruct H as (r' & -> & Hr). split; [done|]. split; [by apply HLk|]. split; [|apply Hlog]. intros l Hl. destruct l as [| | |j|]; try done.
    + cbn. destruct Hr as [[-> ->]|(-> & ->)]; rewrite ?app_length; lia.
    + pose proof (Hs (RemCell j) Hl) as Hj. cbn in Hl. unfold remPtr in Hl. cbn in Hl. destruct (decide (j = _)); [|done].
      apply (pushed_same x1 (put ac rc x1) st1 st2 y r' a1 r1 t1 rd1 lg1 lg2 j (put ac r' y)); try done; auto.
      destruct Hr as [?|?]; [by left|right; eauto].
  - (* RemTake *) cbn [tstep shIx]. cbv zeta. specialize (HR ltac:(done)). rewrite HR, Eo.
    destruct (_ && _).
    + split; [done|]. split; [by apply HLk|]. split; [|apply Hlog]. intros l Hl. by destruct l.
    + by apply Hkeep.
  - (* RemSort *) cbn [tstep]. split; [done|]. split; [by apply HLk|]. split; [|apply Hlog]. intros l Hl. destruct l as [| | |j|]; try done.
    pose proof (Hs (RemCell j) Hl) as Hj. cbn in Hl. destruct (decide (j < n)%nat) as [Hn|]; [|done].
    assert (Et : take n (removeCache x2 ++ st2) = take n (removeCache x1 ++ st1)).
    { apply take_cells. intros j' Hj'. assert (H' : same_at (RemCell j') (mkShard x1 st1 a1 r1 t1 rd1 lg1) (mkShard x2 st2 a1 r1 t1 rd1 lg2)); [|exact H'].
      apply Hs. cbn. by destruct (decide (j' < n)%nat). }
    unfold shSetArray, shArray. cbn. rewrite !take_drop, Et.
    pose proof (merge_sort_Permutation sle (take n (removeCache x1 ++ st1))) as Hp. apply Permutation_length in Hp.
    unfold sortIds. remember (take n (removeCache x1 ++ st1)) as T eqn:ET. clear Hs HT HA HR Hkeep HLk.
    destruct (decide (j < length T)%nat) as [Hlt|Hge]; [rewrite !lookup_app_l by lia; done|].
    assert (length T < n)%nat as Hsh by lia.
    assert (Hl1 : length T = length (removeCache x1 ++ st1)) by (rewrite ET, take_length in *; lia).
    assert (Hl2 : length T = length (removeCache x2 ++ st2)) by (rewrite <- Et, take_length in *; lia).
    rewrite !lookup_ge_None_2; [done|..]; rewrite app_length, drop_length, Hp; lia.
  - cbn [tstep]. unfold tabFree. cbn [ModelLocks.shTab shReaders]. destruct (_ && _); [|done]. by apply Hkeep.
  - (* RemDocsRun *) cbn [tstep shIx]. unfold shArray. cbn [shIx shStale].
    assert (Et : take n (removeCache x2 ++ st2) = take n (removeCache x1 ++ st1)).
    { apply take_cells. intros j' Hj'. assert (H' : same_at (RemCell j') (mkShard x1 st1 a1 r1 t1 rd1 lg1) (mkShard x2 st2 a1 r1 t1 rd1 lg2)); [|exact H'].
      apply Hs. cbn. by destruct (decide (j' < n)%nat). }
    rewrite Et. pose proof (HT ltac:(done)) as E2. pose proof (RemoveDocs_put (addCache x2) (removeCache x2) (take n (removeCache x1 ++ st1)) x1) as H. rewrite <- E2 in H. rewrite H.
    destruct (RemoveDocs _ x1) as [y|] eqn:Ey; [|by apply Hkeep]. cbn [mbind option_bind].
    apply RemoveDocs_inv in Ey as (Ei & _ & Er & _).
    split; [done|]. split; [by apply HLk|]. split; [|apply Hlog]. intros l Hl. destruct l as [| | |j|]; try done.
    pose proof (Hs (RemCell j) Hl) as Hj. cbn in Hj |- *. by rewrite Er.
  - (* AddTake *) cbn [tstep shIx]. rewrite (HA ltac:(done) ltac:(done)).
    destruct (zslice _ _ _) as [docs|]; [|by apply Hkeep]. destruct (zslice _ _ _) as [kept|]; [|by apply Hkeep].
    split; [done|]. split; [by apply HLk|]. split; [|apply Hlog]. intros pl Hpl. destruct pl as [| | |j|]; try done. cbn. intros; congruence.
  - cbn [tstep]. unfold tabFree. cbn [ModelLocks.shTab shReaders]. destruct (_ && _); [|done]. by apply Hkeep.
  - (* AddDocsRun *) cbn [tstep shIx]. pose proof (HT ltac:(done)) as E2.
    pose proof (AddDocs_put (addCache x2) (removeCache x2) (sortDocs docs) x1) as H. rewrite <- E2 in H. rewrite H.
    destruct (AddDocs _ x1) as [y|] eqn:Ey; [|by apply Hkeep]. cbn [mbind option_bind].
    apply AddDocs_inv in Ey as (Ei & Eac & _).
    split; [done|]. split; [by apply HLk|]. split; [|apply Hlog]. intros l Hl. destruct l as [| | |j|]; try done.
    pose proof (Hs AddCells Hl) as Hj. cbn in Hj |- *. by rewrite Eac.
  - cbn [tstep ModelLocks.shTab]. destruct (isFree t1); [|done]. by apply Hkeep.
  - (* LookRun *) cbn [tstep shIx]. cbv zeta. pose proof (HT ltac:(done)) as E2.
    pose proof (Lookup_put log2 (addCache x2) (removeCache x2) x1 (qTokens q) (qLabels q) (qFilter q) (qCountOnly q) (qLogic q)) as H. rewrite <- E2 in H. rewrite H.
    split; [done|]. split; [done|]. split; [|by eexists]. intros l Hl. destruct l as [| | |j|]; try done. exact (Hs Table Hl).
Qed.

(** * The engine *)
Section FineRace.
  Context (murmur : string → Z) (n : Z) (only reqsFirst : bool) (cap : chan → nat) (log2 : F → F) (sortDocs : list DocIndex → list DocIndex).
  Context (nseg : nat) (progs : list (list ecall)) (x0 : Indexer) (stale : list string) (looks : nat → list (list query)).
  Notation reachf := (fine_reach murmur n only reqsFirst cap log2 sortDocs nseg progs x0 stale looks).

  Definition fxinv (s : fine) : Prop := ∀ i sh, fShards s !! i = Some sh → (xinv (fsC sh) ∧ rinv (fsC sh)) ∨ crashed (fsC sh).
  Lemma fxinv_reach s : reachf s → fxinv s.
  Proof.
    intros H. revert s H. apply (rtc_ind_r fxinv (fineInit n nseg progs x0 stale looks)).
    - intros i sh Hi. cbn [fShards fineInit] in Hi. rewrite list_lookup_fmap in Hi. apply fmap_Some in Hi as (j & _ & ->).
      left. cbn [fsC]. split; [apply xinv_start|apply rinv_start].
    - intros s1 s2 _ [m H12] IH i sh' Hi.
      destruct (fine_cases murmur n only reqsFirst cap log2 sortDocs _ _ _ H12 _ _ Hi) as (sh & Hsh & [E|[[t Ht]|(o & Ho & E)]]).
      + rewrite E. by apply (IH i).
      + destruct (IH _ _ Hsh) as [[Hx Hr]|Hc].
        * destruct (xinv_step log2 sortDocs _ _ (ex_intro _ t Ht) Hx) as [|Hx']; [by right|]. left. split; [done|].
          eapply rinv_step; [by exists t|done].
        * right. eapply crashed_step; [by exists t|done].
      + rewrite E. destruct (IH _ _ Hsh) as [[[Hl Hx] Hr]|Hc]; [left|right; by eapply start_crashed].
        split; [split; [by eapply start_linv|exact Hx]|]. apply start_rinv; eauto.
  Qed.
  Lemma fine_race_cells s i sh t u l : reachf s → fShards s !! i = Some sh → ¬ crashed (fsC sh) → racing (fsC sh) t u l →
    (∃ j, l = RemCell j) ∧ ((t = 0 ∧ u = 1) ∨ (t = 1 ∧ u = 0))%nat.
  Proof. intros Hr Hi Hc. destruct (fxinv_reach s Hr i sh Hi) as [[Hx Hr']|]; [by apply race_cells|done]. Qed.
  Lemma fine_no_race (Hn : 1 <= n < 2^32) (Hap : kept_apart progs) s i sh t u l :
    reachf s → fShards s !! i = Some sh → ¬ crashed (fsC sh) → ¬ racing (fsC sh) t u l.
  Proof.
    intros Hr Hi Hc HR. destruct (fine_race_cells s i sh t u l Hr Hi Hc HR) as [_ Htu].
    destruct HR as (_ & p & q & a & b & Hp & Hq & Ha & Hb & _).
    destruct (fineInv_reach murmur n only reqsFirst cap log2 sortDocs Hn nseg progs Hap x0 stale looks s Hr) as (_ & _ & Hinv).
    destruct (Hinv i sh Hi) as (_ & Hcase).
    assert (Hq0 : ∀ v, v = t ∨ v = u → ¬ quiet v (fsC sh)).
    { unfold quiet, pc_of in *. intros v [-> | ->] E; rewrite E in *; [injection Hp as <-|injection Hq as <-]; done. }
    destruct Hcase as [((_ & _ & Q0 & _) & _)|(k0 & o & _ & _ & HQ & _)].
    - apply (Hq0 0%nat); [lia|exact Q0].
    - apply (Hq0 (1 - sideOf o)%nat); [destruct o; cbn; lia|exact HQ].
  Qed.
End FineRace.

(** A goroutine's variables are not changed by a step of another one, the cells of the queue of
    removals excepted. *)
Lemma undisturbed log2 sortDocs c t u p q q' s' l : xinv c → rinv c → t ≠ u → pc_of t c = Some p → pc_of u c = Some q →
  tstep log2 sortDocs u q (cShard c) = Some (q', s') → touches p (cShard c) l ≠ None → (∀ i, l ≠ RemCell i) → same_at l (cShard c) s'.
Proof.
  intros Hx Hr Hne Hp Hq Hs Ht Hl. eapply step_writes; [exact Hs|]. intros Hw.
  destruct (touches p (cShard c) l) as [a|] eqn:Ea; [|done].
  destruct (race_cells c t u l Hx Hr) as [[i Hi] _]; [|by apply (Hl i)].
  split; [done|]. exists p, q, a, Wr. split_and!; try done. by right.
Qed.
Lemma reach_undisturbed log2 sortDocs x stale adds rems looks c t u p q q' s' l :
  conc_reach log2 sortDocs (shardStart x stale adds rems looks) c → ¬ crashed c → t ≠ u → pc_of t c = Some p → pc_of u c = Some q →
  tstep log2 sortDocs u q (cShard c) = Some (q', s') → touches p (cShard c) l ≠ None → (∀ i, l ≠ RemCell i) → same_at l (cShard c) s'.
Proof.
  intros H Hc. apply undisturbed.
  - destruct (xinv_reach _ _ _ _ H (xinv_start _ _ _ _ _)); done.
  - eapply rinv_reach; [exact H|]. apply rinv_start.
Qed.
