(** AddDocToCache: the scan of the add cache and the whole call. *)
From Verif Require Import ModelIndexer ProofSearch ProofTable ProofIndexer.

Definition within (l : list string) (D : docmap) : docmap := filter (λ p, p.1 ∈ l) D.

Lemma within_lookup l D id : within l D !! id = if decide (id ∈ l) then D !! id else None.
Proof.
  unfold within. destruct (D !! id) eqn:E.
  - destruct (decide (id ∈ l)).
    + apply map_filter_lookup_Some. split; done.
    + apply map_filter_lookup_None. right. intros x Hx Hn. simpl in Hn. done.
  - rewrite (proj2 (map_filter_lookup_None _ _ _)) by (by left). by destruct (decide _).
Qed.

(** The maps after a flush has looked at the waiting documents [W]. *)
Definition live1 (W : list DocIndex) (live : docmap) : docmap := without (ids W) live.
Definition dying1 (W : list DocIndex) (live dying : docmap) : docmap :=
  dying ∪ within (ids W) live.

Lemma live1_lookup W live id :
  live1 W live !! id = if decide (id ∈ ids W) then None else live !! id.
Proof. apply without_lookup. Qed.

Lemma dying1_lookup W live dying id :
  dying1 W live dying !! id =
  match dying !! id with
  | Some d => Some d
  | None => if decide (id ∈ ids W) then live !! id else None
  end.
Proof.
  unfold dying1. destruct (dying !! id) eqn:E.
  - by apply lookup_union_Some_l.
  - rewrite lookup_union_r by done. apply within_lookup.
Qed.

Lemma elem_ids_cons d W id : id ∈ ids (d :: W) ↔ id = DocId d ∨ id ∈ ids W.
Proof. unfold ids. rewrite fmap_cons. apply elem_of_cons. Qed.

Lemma scan_spec todo : ∀ kept other s live dying p2,
  addCache s = kept ++ other ++ todo →
  Core s live dying p2 →
  (∀ d, d ∈ kept → is_Some (dying !! DocId d)) →
  (∀ d, d ∈ other → DocId d ∈ p2) →
  zlen (removeCache s) + zlen todo <= 2 * cap s →
  ∃ s' kept' other' p2',
    foldlM scanStep (seq (length kept + length other) (length todo)) (s, zlen kept)
      = Some (s', zlen kept') ∧
    addCache s' = kept' ++ other' ∧ kept' ++ other' ≡ₚ kept ++ other ++ todo ∧
    initOptions s' = initOptions s ∧
    Core s' (live1 todo live) (dying1 todo live dying) p2' ∧
    (∀ d, d ∈ kept' → is_Some (dying1 todo live dying !! DocId d)) ∧
    (∀ d, d ∈ other' → DocId d ∈ p2') ∧
    (∀ id, id ∈ p2' → id ∈ p2 ∨ id ∈ ids todo).
Proof.
  induction todo as [|d todo IH]; intros kept other s live dying p2 Hc HC Hk Ho Hcap.
  - exists s, kept, other, p2. split; [done|]. rewrite app_nil_r in *.
    split; [done|]. split; [done|]. split; [done|].
    assert (live1 [] live = live) as ->.
    { apply map_eq. intros id. rewrite live1_lookup. rewrite decide_False; [done|].
      by intros ?%elem_of_nil. }
    assert (dying1 [] live dying = dying) as ->.
    { apply map_eq. intros id. rewrite dying1_lookup. rewrite decide_False by (by intros ?%elem_of_nil).
      by destruct (dying !! id). }
    split; [done|]. split; [done|]. split; [done|]. by left.
  - cbn [length seq foldlM]. unfold scanStep at 2.
    assert (addCache s !! (length kept + length other)%nat = Some d) as ->.
    { rewrite Hc, app_assoc. rewrite <- app_length. by apply list_lookup_middle. }
    rewrite bind_Some_eq. rewrite (core_state _ _ _ _ HC). unfold stateOf.
    rewrite zlen_cons in Hcap.
    (* the swap *)
    assert (Hswap : ∃ other1,
      (o ← zget (addCache s) (zlen kept); c1 ← zset (addCache s) (zlen kept) d;
       Some (<[(length kept + length other)%nat := o]> c1)) = Some ((kept ++ [d]) ++ other1 ++ todo) ∧
      other1 ≡ₚ other).
    { rewrite Hc. destruct other as [|o other].
      - exists []. simpl app. rewrite (zget_app_mid kept todo d) by done. rewrite bind_Some_eq.
        rewrite (zset_app_mid kept todo d d) by done. rewrite bind_Some_eq.
        split; [|done]. f_equal. rewrite <- app_assoc. simpl.
        rewrite Nat.add_0_r, list_insert_id by by apply list_lookup_middle. done.
      - exists (other ++ [o]). cbn [app length]. rewrite (zget_app_mid kept _ o) by done.
        rewrite bind_Some_eq. rewrite (zset_app_mid kept _ o d) by done. rewrite bind_Some_eq.
        split; [|by rewrite Permutation_app_comm]. f_equal.
        replace (kept ++ d :: other ++ d :: todo) with ((kept ++ d :: other) ++ d :: todo)
          by (by rewrite <- app_assoc).
        rewrite insert_app_r_alt by (rewrite app_length; cbn [length]; lia).
        rewrite app_length. cbn [length].
        replace (length kept + S (length other) - (length kept + S (length other)))%nat with 0%nat by lia.
        simpl. repeat (rewrite <- app_assoc; simpl). done. }
    destruct Hswap as (other1 & Hswap & Hperm).
    assert (Hswap' : ∃ o c1, zget (addCache s) (zlen kept) = Some o ∧
        zset (addCache s) (zlen kept) d = Some c1 ∧
        <[(length kept + length other)%nat := o]> c1 = (kept ++ [d]) ++ other1 ++ todo).
    { destruct (zget (addCache s) (zlen kept)) as [o|] eqn:E1; [|done]. rewrite bind_Some_eq in Hswap.
      destruct (zset (addCache s) (zlen kept) d) as [c1|] eqn:E2; [|done].
      rewrite bind_Some_eq in Hswap. exists o, c1. by simplify_eq. }
    clear Hswap. destruct Hswap' as (o & c1 & Hg & Hz & Hins).
    assert (Hlen1 : length other1 = length other) by by rewrite Hperm.
    assert (Hidx : S (length kept + length other) = (length (kept ++ [d]) + length other1)%nat).
    { rewrite app_length, Hlen1. cbn [length]. lia. }
    assert (Hpos : zlen kept + 1 = zlen (kept ++ [d])).
    { rewrite zlen_app, zlen_cons, zlen_nil. lia. }
    assert (Hperm2 : kept ++ other ++ d :: todo ≡ₚ (kept ++ [d]) ++ other1 ++ todo).
    { rewrite Hperm. rewrite <- app_assoc. f_equiv. simpl. by rewrite Permutation_middle. }
    destruct (live !! DocId d) as [dl|] eqn:El.
    + (* the document is live: queue its removal *)
      change (0 <=? 1) with true. cbv iota. rewrite Hg, bind_Some_eq, Hz, bind_Some_eq.
      change (0 =? 0) with true. cbv iota zeta. rewrite Hins.
      rewrite pushRemove_ok.
      2:{ simpl. unfold cap in *. simpl. pose proof (zlen_nonneg todo). lia. }
      rewrite !bind_Some_eq.
      set (s1 := setState (DocId d) 1 (-1) _).
      assert (HC1 : Core s1 (delete (DocId d) live) (<[DocId d := dl]> dying) p2).
      { pose proof (core_kill s live dying p2 (DocId d) dl HC El) as HK.
        destruct HK. by split. }
      assert (Hl' : live1 todo (delete (DocId d) live) = live1 (d :: todo) live).
      { apply map_eq. intros id. rewrite !live1_lookup.
        destruct (decide (id ∈ ids todo)) as [Hin|Hnin].
        - rewrite decide_True by (apply elem_ids_cons; by right). done.
        - destruct (decide (id = DocId d)) as [->|Hne].
          + rewrite decide_True by (apply elem_ids_cons; by left). by rewrite lookup_delete.
          + rewrite decide_False by (rewrite elem_ids_cons; naive_solver).
            by rewrite lookup_delete_ne. }
      assert (Hd' : dying1 todo (delete (DocId d) live) (<[DocId d := dl]> dying)
                    = dying1 (d :: todo) live dying).
      { apply map_eq. intros id. rewrite !dying1_lookup.
        destruct (decide (id = DocId d)) as [->|Hne].
        - rewrite lookup_insert. rewrite decide_True by (apply elem_ids_cons; by left).
          assert (dying !! DocId d = None) as -> by (eapply map_disjoint_Some_l; [apply HC|done]).
          by rewrite El.
        - rewrite lookup_insert_ne, lookup_delete_ne by done.
          destruct (dying !! id); [done|].
          destruct (decide (id ∈ ids todo)) as [Hin|Hnin].
          + rewrite decide_True by (apply elem_ids_cons; by right). done.
          + rewrite decide_False by (rewrite elem_ids_cons; naive_solver). done. }
      destruct (IH (kept ++ [d]) other1 s1 (delete (DocId d) live) (<[DocId d:=dl]> dying) p2)
        as (s' & kept' & other' & p2' & Hrun & Hc' & Hp' & Ho' & HC' & Hk' & Hot' & Hp2').
      * done.
      * done.
      * intros d' [Hd''|Hd'']%elem_of_app.
        -- destruct (decide (DocId d = DocId d')) as [E|].
           ++ rewrite E, lookup_insert. eauto.
           ++ rewrite lookup_insert_ne by done. by apply Hk.
        -- apply elem_of_list_singleton in Hd'' as ->. rewrite lookup_insert. eauto.
      * intros d' Hd''. apply Ho. by rewrite <- Hperm.
      * simpl. rewrite zlen_app, zlen_cons, zlen_nil. unfold cap in *. simpl. lia.
      * exists s', kept', other', p2'. rewrite Hidx, Hpos, Hrun.
        split; [done|]. split; [done|]. split; [by rewrite Hp', Hperm2|].
        split; [done|]. rewrite Hl', Hd' in HC'. rewrite Hd' in Hk'.
        split; [done|]. split; [done|]. split; [done|].
        intros id Hid. apply Hp2' in Hid as [?|?]; [by left|]. right. apply elem_ids_cons. by right.
    + destruct (dying !! DocId d) as [dd|] eqn:Ed.
      * (* waiting for deletion *)
        change (1 <=? 1) with true. cbv iota. rewrite Hg, bind_Some_eq, Hz, bind_Some_eq.
        change (1 =? 0) with false. cbv iota zeta. rewrite Hins. rewrite !bind_Some_eq.
        set (s1 := setAddCache _ s).
        assert (Hl' : live1 todo live = live1 (d :: todo) live).
        { apply map_eq. intros id. rewrite !live1_lookup.
          destruct (decide (id ∈ ids todo)) as [Hin|Hnin].
          - rewrite decide_True by (apply elem_ids_cons; by right). done.
          - destruct (decide (id = DocId d)) as [->|Hne].
            + rewrite decide_True by (apply elem_ids_cons; by left). done.
            + rewrite decide_False by (rewrite elem_ids_cons; naive_solver). done. }
        assert (Hd' : dying1 todo live dying = dying1 (d :: todo) live dying).
        { apply map_eq. intros id. rewrite !dying1_lookup.
          destruct (decide (id = DocId d)) as [->|Hne]; [by rewrite Ed|].
          destruct (dying !! id); [done|].
          destruct (decide (id ∈ ids todo)) as [Hin|Hnin].
          - rewrite decide_True by (apply elem_ids_cons; by right). done.
          - rewrite decide_False by (rewrite elem_ids_cons; naive_solver). done. }
        destruct (IH (kept ++ [d]) other1 s1 live dying p2)
          as (s' & kept' & other' & p2' & Hrun & Hc' & Hp' & Ho' & HC' & Hk' & Hot' & Hp2').
        -- done.
        -- destruct HC. by split.
        -- intros d' [Hd''|Hd'']%elem_of_app; [by apply Hk|].
           apply elem_of_list_singleton in Hd'' as ->. rewrite Ed. eauto.
        -- intros d' Hd''. apply Ho. by rewrite <- Hperm.
        -- simpl. unfold cap in *. simpl. lia.
        -- exists s', kept', other', p2'. rewrite Hidx, Hpos, Hrun.
           split; [done|]. split; [done|]. split; [by rewrite Hp', Hperm2|].
           split; [done|]. rewrite Hl', Hd' in HC'. rewrite Hd' in Hk'.
           split; [done|]. split; [done|]. split; [done|].
           intros id Hid. apply Hp2' in Hid as [?|?]; [by left|]. right. apply elem_ids_cons. by right.
      * (* unknown, or already marked as waiting to be added *)
        assert (Hl' : live1 todo live = live1 (d :: todo) live).
        { apply map_eq. intros id. rewrite !live1_lookup.
          destruct (decide (id ∈ ids todo)) as [Hin|Hnin].
          - rewrite decide_True by (apply elem_ids_cons; by right). done.
          - destruct (decide (id = DocId d)) as [->|Hne].
            + rewrite decide_True by (apply elem_ids_cons; by left). done.
            + rewrite decide_False by (rewrite elem_ids_cons; naive_solver). done. }
        assert (Hd' : dying1 todo live dying = dying1 (d :: todo) live dying).
        { apply map_eq. intros id. rewrite !dying1_lookup.
          destruct (decide (id = DocId d)) as [->|Hne].
          - rewrite Ed. rewrite (decide_True (P := DocId d ∈ ids (d :: todo)))
              by (apply elem_ids_cons; by left).
            rewrite El. by destruct (decide _).
          - destruct (dying !! id); [done|].
            destruct (decide (id ∈ ids todo)) as [Hin|Hnin].
            + rewrite decide_True by (apply elem_ids_cons; by right). done.
            + rewrite decide_False by (rewrite elem_ids_cons; naive_solver). done. }
        set (p2a := p2 ∪ {[DocId d]}).
        set (s1 := if decide (DocId d ∈ p2) then s else setState (DocId d) 2 0 s).
        assert (HC1 : Core s1 live dying p2a).
        { subst s1 p2a. destruct (decide (DocId d ∈ p2)) as [Hin|Hnin].
          - replace (p2 ∪ {[DocId d]}) with p2 by set_solver. done.
          - pose proof (core_p2 _ _ _ _ HC) as Hcp2. pose proof (core_state _ _ _ _ HC) as Hcst. destruct HC. split; simpl; try done.
            + intros id. rewrite elem_of_union, elem_of_singleton.
              intros [?| ->]; [by apply Hcp2|done].
            + intros id. unfold stateOf in *. destruct (decide (DocId d = id)) as [<-|Hne].
              * rewrite lookup_insert, El, Ed. rewrite decide_True by set_solver. done.
              * rewrite lookup_insert_ne by done. unfold stateOf in Hcst. rewrite Hcst.
                destruct (live !! id); [done|]. destruct (dying !! id); [done|].
                destruct (decide (id ∈ p2)), (decide (id ∈ p2 ∪ {[DocId d]})); try done; set_solver.
            + lia. }
        destruct (IH kept (other ++ [d]) s1 live dying p2a)
          as (s' & kept' & other' & p2' & Hrun & Hc' & Hp' & Ho' & HC' & Hk' & Hot' & Hp2').
        -- subst s1. destruct (decide _); simpl; rewrite Hc, <- app_assoc; done.
        -- done.
        -- done.
        -- intros d' [Hd''|Hd'']%elem_of_app; [specialize (Ho _ Hd''); set_solver|].
           apply elem_of_list_singleton in Hd'' as ->. set_solver.
        -- subst s1. destruct (decide _); simpl; unfold cap in *; simpl; lia.
        -- exists s', kept', other', p2'.
           replace (S (length kept + length other)) with (length kept + length (other ++ [d]))%nat
             by (rewrite app_length; cbn [length]; lia).
           split; [clear -Hrun; subst s1; destruct (decide _); simpl; exact Hrun|]. split; [done|].
           split; [rewrite Hp', <- app_assoc; done|].
           split; [rewrite Ho'; subst s1; by destruct (decide _)|].
           rewrite Hl', Hd' in HC'. rewrite Hd' in Hk'.
           split; [done|]. split; [done|]. split; [done|].
           intros id Hid. apply Hp2' in Hid as [Hid|?].
           ++ subst p2a. apply elem_of_union in Hid as [?|?%elem_of_singleton]; [by left|].
              right. apply elem_ids_cons. by left.
           ++ right. apply elem_ids_cons. by right.
Qed.

(** * State at rest *)

Record Inv (s : Indexer) (live dying : docmap) : Prop := {
  inv_core : Core s live dying ∅;
  inv_cap : 1 <= cap s;
  inv_rc : zlen (removeCache s) < cap s;
  inv_ac : zlen (addCache s) <= cap s;
  inv_wait : Forall (λ d, NoDup (texts d)) (addCache s) }.

Lemma Init_inv o s : Init o = Some s → Inv s ∅ ∅ ∧ addCache s = [].
Proof.
  unfold Init. destruct (Z.ltb_spec (DocCacheSize (optsInit o)) 0); [done|].
  intros [= <-]. split; [|done].
  assert (Hcap : 1 <= DocCacheSize (optsInit o)).
  { unfold optsInit in *. cbn [DocCacheSize] in *. destruct (Z.eqb_spec (DocCacheSize o) 0); lia. }
  split; simpl.
  - split; simpl.
    + apply map_disjoint_empty_r.
    + intros id Hid. set_solver.
    + intros k. rewrite lookup_empty. intros id. unfold kwOf. by rewrite (right_id_L ∅ (∪)), lookup_empty.
    + intros id. unfold stateOf. rewrite !lookup_empty. destruct (decide _); [set_solver|done].
    + constructor.
    + intros id. rewrite lookup_empty. split; [by intros ?%elem_of_nil|by intros []].
    + by rewrite map_size_empty.
    + rewrite (right_id_L ∅ (∪)). apply map_Forall_empty.
    + intros id. by rewrite (right_id_L ∅ (∪)), !lookup_empty.
  - done.
  - unfold cap. cbn [initOptions]. rewrite zlen_nil. lia.
  - unfold cap. cbn [initOptions]. rewrite zlen_nil. lia.
  - constructor.
Qed.

(** * RemoveDocToCache, at rest *)

Lemma core_setAddCache s c live dying p2 : Core s live dying p2 → Core (setAddCache c s) live dying p2.
Proof. intros []. by split. Qed.

Lemma size_dying_bound s live dying p2 :
  Core s live dying p2 → Z.of_nat (size dying) = zlen (removeCache s).
Proof. intros HC. unfold zlen. by rewrite (core_rc_size _ _ _ _ HC). Qed.

(** Abstract effect of marking [id] for removal. *)
Definition aMark (id : string) (live dying : docmap) : docmap * docmap :=
  if decide (id = "0") then (live, dying) else
  match live !! id with
  | Some d => (delete id live, <[id := d]> dying)
  | None => (live, dying)
  end.
(** Is the removal queue flushed? *)
Definition rmFlush (s : Indexer) (dying : docmap) (force : bool) : bool :=
  (0 <? Z.of_nat (size dying)) && ((cap s <=? Z.of_nat (size dying)) || force).

Lemma RemoveDocToCache_inv s live dying id force :
  Inv s live dying →
  let '(l', d') := aMark id live dying in
  ∃ s', RemoveDocToCache id force s = Some (s', rmFlush s d' force) ∧
    Inv s' l' (if rmFlush s d' force then ∅ else d') ∧ addCache s' = addCache s ∧
    initOptions s' = initOptions s.
Proof.
  intros [HC Hcap Hrc Hac Hw].
  destruct (aMark id live dying) as [l' d'] eqn:EM.
  destruct (markRemove_core s live dying id) as (s1 & Hm & Hc1 & Ho1 & Hcase); [done|lia|].
  assert (HC1 : Core s1 l' d' ∅).
  { unfold aMark in EM. destruct (decide (id = "0")).
    - injection EM as <- <-. destruct (live !! id); by subst s1.
    - destruct (live !! id); injection EM as <- <-; [done|by subst s1]. }
  assert (Hcap1 : cap s1 = cap s) by (unfold cap; by rewrite Ho1).
  assert (Heq : RemoveDocToCache id force s = RemoveDocToCache "0" force s1).
  { unfold RemoveDocToCache. rewrite Hm. unfold markRemove. by rewrite seqb_refl. }
  destruct (RemoveDocToCache_flush s1 l' d' ∅ force) as (s' & b & Hrun & Hb & HC' & Hc' & Ho'); [done|].
  assert (b = rmFlush s d' force) as -> by (rewrite Hb; unfold rmFlush; by rewrite Hcap1).
  exists s'. rewrite Heq, Hrun. split; [done|]. split; [|rewrite Hc', Ho'; done].
  split.
  - done.
  - unfold cap in *. rewrite Ho', Ho1. done.
  - assert (cap s' = cap s) as -> by (unfold cap; by rewrite Ho', Ho1).
    rewrite <- (size_dying_bound _ _ _ _ HC').
    destruct (rmFlush s d' force) eqn:EF.
    + rewrite map_size_empty. lia.
    + unfold rmFlush in EF. apply andb_false_iff in EF as [E|E].
      * apply Z.ltb_ge in E. lia.
      * apply orb_false_iff in E as [E _]. apply Z.leb_gt in E. lia.
  - assert (cap s' = cap s) as -> by (unfold cap; by rewrite Ho', Ho1).
    rewrite Hc', Hc1. done.
  - rewrite Hc', Hc1. done.
Qed.

(** * AddDocToCache, at rest *)

Definition wf_doc (d : DocIndex) : Prop := NoDup (texts d).

(** When does an add call flush? *)
Definition addFlush (s : Indexer) (W : list DocIndex) (force : bool) : bool :=
  (cap s <=? zlen W) || force.

Section Add.
  Context (sortDocs : list DocIndex → list DocIndex) (Hsort : valid_sort sortDocs).

  Lemma AddDocToCache_full d force s :
    cap s <= zlen (addCache s) → AddDocToCache sortDocs (Some d) force s = None.
  Proof.
    intros H. unfold AddDocToCache, pushAdd. fold (cap s).
    destruct (Z.ltb_spec (zlen (addCache s)) (cap s)); [lia|done].
  Qed.

  Definition waiting (doc : option DocIndex) (s : Indexer) : list DocIndex :=
    addCache s ++ match doc with Some d => [d] | None => [] end.

  Lemma pushAdd_ok doc s :
    (match doc with Some _ => zlen (addCache s) < cap s | None => True end) →
    pushAdd doc s = Some (setAddCache (waiting doc s) s).
  Proof.
    intros H. unfold pushAdd, waiting. destruct doc as [d|].
    - fold (cap s). destruct (Z.ltb_spec (zlen (addCache s)) (cap s)); [done|lia].
    - rewrite app_nil_r. by destruct s.
  Qed.

  Lemma AddDocToCache_inv doc force s live dying :
    Inv s live dying →
    (match doc with Some d => zlen (addCache s) < cap s ∧ wf_doc d | None => True end) →
    let W := waiting doc s in
    ∃ s', AddDocToCache sortDocs doc force s = Some s' ∧ initOptions s' = initOptions s ∧
      if addFlush s W force then
        let l1 := live1 W live in let d1 := dying1 W live dying in
        if rmFlush s d1 force then
          ∃ l, l ≡ₚ W ∧ StronglySorted doc_le l ∧ Inv s' (insertAll l l1) ∅ ∧ addCache s' = []
        else
          ∃ kept other l, kept ++ other ≡ₚ W ∧
            (∀ d, d ∈ kept → is_Some (d1 !! DocId d)) ∧
            (∀ d, d ∈ other → d1 !! DocId d = None) ∧
            l ≡ₚ other ∧ StronglySorted doc_le l ∧ Inv s' (insertAll l l1) d1 ∧ addCache s' = kept
      else Inv s' live dying ∧ addCache s' = W.
  Proof.
    intros HI Hdoc W. destruct HI as [HC Hcap Hrc Hac Hw].
    unfold AddDocToCache. rewrite pushAdd_ok by (destruct doc; [apply Hdoc|done]).
    rewrite bind_Some_eq. cbv zeta. fold W. set (s1 := setAddCache W s).
    change (DocCacheSize (initOptions s1)) with (cap s). simpl (addCache s1).
    fold (addFlush s W force).
    assert (HWlen : zlen W <= cap s).
    { subst W. unfold waiting. rewrite zlen_app. destruct doc.
      - rewrite zlen_cons, zlen_nil. lia.
      - rewrite zlen_nil. lia. }
    assert (HWnd : Forall (λ d, NoDup (texts d)) W).
    { subst W. unfold waiting. apply Forall_app. split; [done|].
      destruct doc; [|constructor]. constructor; [apply Hdoc|constructor]. }
    destruct (addFlush s W force) eqn:EF; cycle 1.
    { exists s1. split; [done|]. split; [done|]. split; [|done]. split; try done.
      by apply core_setAddCache. }
    destruct (scan_spec W [] [] s1 live dying ∅)
      as (s2 & kept & other & p2 & Hrun & Hc2 & Hperm & Ho2 & HC2 & Hk & Ho & Hp2).
    { done. }
    { by apply core_setAddCache. }
    { intros d Hd. by apply elem_of_nil in Hd. }
    { intros d Hd. by apply elem_of_nil in Hd. }
    { simpl. unfold cap in *. simpl. lia. }
    cbn [length Nat.add] in Hrun. rewrite zlen_nil in Hrun. rewrite Hrun, bind_Some_eq.
    simpl app in Hperm.
    destruct (RemoveDocToCache_flush s2 (live1 W live) (dying1 W live dying) p2 force)
      as (s3 & b & -> & Hb & HC3 & Hc3 & Ho3); [done|]. rewrite bind_Some_eq. cbv zeta.
    assert (Hcap2 : cap s2 = cap s) by (unfold cap; by rewrite Ho2).
    assert (b = rmFlush s (dying1 W live dying) force) as -> by (rewrite Hb; unfold rmFlush; by rewrite Hcap2).
    rewrite Hc3, Hc2.
    destruct (rmFlush s (dying1 W live dying) force) eqn:ERM.
    - (* removals were flushed: every waiting document is inserted *)
      rewrite (zslice_ok _ 0 (zlen (kept ++ other))) by (pose proof (zlen_nonneg (kept ++ other)); lia).
      rewrite bind_Some_eq.
      rewrite (zslice_ok _ 0 0) by (pose proof (zlen_nonneg (kept ++ other)); lia).
      rewrite bind_Some_eq. change (Z.to_nat 0) with 0%nat. rewrite drop_0.
      rewrite take_ge by (unfold zlen; lia). change (Z.to_nat (0 - 0)) with 0%nat. rewrite take_0.
      destruct (Hsort (kept ++ other)) as [Hsp Hss].
      assert (HlW : sortDocs (kept ++ other) ≡ₚ W) by (by rewrite Hsp).
      destruct (AddDocs_core (sortDocs (kept ++ other)) (setAddCache [] s3)
        (live1 W live) ∅ p2) as (s' & -> & HC' & Hc' & Hr' & Ho').
      { by apply core_setAddCache. }
      { done. }
      { by rewrite HlW. }
      { intros d Hd. split; [|done]. rewrite live1_lookup, decide_True; [done|].
        rewrite HlW in Hd. unfold ids. by apply elem_of_list_fmap_1. }
      exists s'. split; [done|].
      assert (Hopt : initOptions s' = initOptions s) by (rewrite Ho'; simpl; by rewrite Ho3, Ho2).
      split; [done|]. exists (sortDocs (kept ++ other)). split; [done|]. split; [done|].
      split; [|done].
      assert (Hp : p2 ∖ list_to_set (ids (sortDocs (kept ++ other))) = ∅).
      { apply set_eq. intros id. split; [|set_solver].
        intros [Hid Hn]%elem_of_difference. exfalso. apply Hn, elem_of_list_to_set.
        apply Hp2 in Hid as [?|Hid]; [set_solver|]. unfold ids in *. by rewrite HlW. }
      rewrite Hp in HC'.
      split.
      + done.
      + unfold cap in *. by rewrite Hopt.
      + rewrite <- (size_dying_bound _ _ _ _ HC'). rewrite map_size_empty.
        unfold cap in *. rewrite Hopt. lia.
      + rewrite Hc'. simpl. rewrite zlen_nil. unfold cap in *. rewrite Hopt. lia.
      + rewrite Hc'. simpl. constructor.
    - (* removals stay queued: conflicting documents keep waiting *)
      pose proof (zlen_nonneg kept). pose proof (zlen_nonneg other).
      rewrite (zslice_ok _ (zlen kept) (zlen (kept ++ other))) by (rewrite ?zlen_app; lia).
      rewrite bind_Some_eq.
      rewrite (zslice_ok _ 0 (zlen kept)) by (rewrite ?zlen_app; lia). rewrite bind_Some_eq.
      change (Z.to_nat 0) with 0%nat. rewrite drop_0.
      replace (Z.to_nat (zlen kept)) with (length kept) by (unfold zlen; lia).
      rewrite drop_app.
      replace (Z.to_nat (zlen (kept ++ other) - zlen kept)) with (length other)
        by (rewrite zlen_app; unfold zlen; lia).
      rewrite take_ge by lia.
      replace (Z.to_nat (zlen kept - 0)) with (length kept) by (unfold zlen; lia).
      rewrite take_app.
      destruct (Hsort other) as [Hsp Hss].
      assert (Hoth : ∀ d, d ∈ other → live1 W live !! DocId d = None ∧ dying1 W live dying !! DocId d = None).
      { intros d Hd. apply (core_p2 _ _ _ _ HC2). by apply Ho. }
      destruct (AddDocs_core (sortDocs other) (setAddCache kept s3)
        (live1 W live) (dying1 W live dying) p2) as (s' & -> & HC' & Hc' & Hr' & Ho').
      { by apply core_setAddCache. }
      { done. }
      { rewrite Hsp. rewrite Forall_forall in *. intros d Hd. apply HWnd. rewrite <- Hperm.
        apply elem_of_app. by right. }
      { intros d Hd. rewrite Hsp in Hd. by apply Hoth. }
      exists s'. split; [done|].
      assert (Hopt : initOptions s' = initOptions s) by (rewrite Ho'; simpl; by rewrite Ho3, Ho2).
      split; [done|]. exists kept, other, (sortDocs other). split; [done|]. split; [done|].
      split; [intros d Hd; by apply Hoth|]. split; [done|]. split; [done|]. split; [|done].
      assert (Hp : p2 ∖ list_to_set (ids (sortDocs other)) = ∅).
      { apply set_eq. intros id. split; [|set_solver].
        intros [Hid Hn]%elem_of_difference. exfalso. apply Hn, elem_of_list_to_set.
        assert (id ∈ ids W) as Hin by (apply Hp2 in Hid as [?|?]; [set_solver|done]).
        unfold ids in *. rewrite Hsp. rewrite <- Hperm, fmap_app in Hin.
        apply elem_of_app in Hin as [Hin|?]; [|done].
        apply elem_of_list_fmap in Hin as (d & -> & Hd). apply Hk in Hd as [? Hd].
        apply (core_p2 _ _ _ _ HC2) in Hid as [_ ?]. congruence. }
      rewrite Hp in HC'.
      split.
      + done.
      + unfold cap in *. by rewrite Hopt.
      + rewrite <- (size_dying_bound _ _ _ _ HC').
        assert (cap s' = cap s) as -> by (unfold cap; by rewrite Hopt).
        unfold rmFlush in ERM. apply andb_false_iff in ERM as [E|E].
        * apply Z.ltb_ge in E. lia.
        * apply orb_false_iff in E as [E _]. apply Z.leb_gt in E. lia.
      + rewrite Hc'. simpl. assert (cap s' = cap s) as -> by (unfold cap; by rewrite Hopt).
        etrans; [|exact HWlen]. unfold zlen. rewrite <- Hperm, app_length. lia.
      + rewrite Hc'. simpl. rewrite Forall_forall in *. intros d Hd. apply HWnd. rewrite <- Hperm.
        apply elem_of_app. by left.
  Qed.
End Add.
