(** What the pieces of the indexer's calls do to the document states and the two
    queues, without any assumption on the indexer; ghosts stay ghosts; documents added once
    are never live while they wait. *)
From Verif Require Import SpecLocks ProofIxThms ProofLocks.

Lemma NoDup_sub {A} (l k : list A) : l ⊆+ k → NoDup k → NoDup l.
Proof. intros (l0 & ->)%submseteq_Permutation (H & _)%NoDup_app. done. Qed.
Lemma swap_perm1 {A} (l : list A) : ∀ j h b, l !! j = Some b → b :: <[j := h]> l ≡ₚ h :: l.
Proof.
  induction l as [|x l IH]; intros [|j] h b H; try done; cbn in *.
  - injection H as ->. apply perm_swap.
  - etrans; [apply perm_swap|]. etrans; [apply perm_skip, (IH j h b H)|]. apply perm_swap.
Qed.
Lemma swap_perm {A} (l : list A) : ∀ i j a b, l !! i = Some a → l !! j = Some b →
  <[i := b]> (<[j := a]> l) ≡ₚ l.
Proof.
  induction l as [|x l IH]; intros [|i] [|j] a b Hi Hj; try done; cbn in *.
  - injection Hi as ->. by injection Hj as ->.
  - injection Hi as ->. by apply swap_perm1.
  - injection Hj as ->. by apply swap_perm1.
  - f_equiv. by apply IH.
Qed.

(** [x'] differs from [x] only as far as pushing the ids [new] to the remove queue and
    marking allows *)
Record marked (x x' : Indexer) : Prop := {
  mk_opts : initOptions x' = initOptions x;
  mk_zero : ∀ id, docsState x' !! id = Some 0 → docsState x !! id = Some 0;
  mk_one : ∀ id, docsState x !! id = Some 1 → docsState x' !! id = Some 1;
  mk_rc : removeCache x' = removeCache x ∨
    ∃ id, docsState x !! id = Some 0 ∧ removeCache x' = removeCache x ++ [id] }.

Lemma pushRemove_inv id x x' : pushRemove id x = Some x' →
  x' = mkIndexer (table x) (docsState x) (addCache x) (removeCache x ++ [id]) (initOptions x) (numDocs x) (totalTokenLen x) (docTokenLens x)
  ∧ zlen (removeCache x) < 2 * DocCacheSize (initOptions x).
Proof. unfold pushRemove. destruct (Z.ltb_spec (zlen (removeCache x)) (2 * DocCacheSize (initOptions x))); [|done]. intros [= <-]. done. Qed.

Lemma scanStep_inv x pos i x' pos' : scanStep (x, pos) i = Some (x', pos') →
  ∃ d, addCache x !! i = Some d ∧ addCache x' ≡ₚ addCache x ∧ marked x x' ∧
    (docsState x !! DocId d ≠ Some 0 → removeCache x' = removeCache x) ∧ pos <= pos' <= pos + 1.
Proof.
  unfold scanStep. destruct (addCache x !! i) as [d|] eqn:Ed; [|done]. rewrite bind_Some_eq. intros H. exists d. split; [done|].
  destruct (docsState x !! DocId d) as [z|] eqn:Ez.
  - destruct (Z.leb_spec z 1) as [Hz|Hz].
    + destruct (zget (addCache x) pos) as [o|] eqn:Eo; [|done]. rewrite bind_Some_eq in H.
      destruct (zset (addCache x) pos d) as [c1|] eqn:Ec; [|done]. rewrite bind_Some_eq in H. cbv zeta in H.
      apply zset_Some in Ec as [Hp ->]. apply zget_Some in Eo as [_ Eo].
      pose proof (swap_perm _ _ _ _ _ Ed Eo) as Hperm.
      destruct (Z.eqb_spec z 0) as [->|Hz0].
      * destruct (pushRemove _ _) as [x2|] eqn:Er; [|done]. rewrite !bind_Some_eq in H. injection H as <- <-.
        apply pushRemove_inv in Er as [-> _]. cbn. split; [done|]. split; [|split; [congruence|lia]].
        split; cbn; [done| | |].
        -- intros id. destruct (decide (id = DocId d)) as [->|]; [done|]. by rewrite lookup_insert_ne.
        -- intros id Hid. destruct (decide (id = DocId d)) as [->|]; [congruence|]. by rewrite lookup_insert_ne.
        -- right. eauto.
      * rewrite bind_Some_eq in H. injection H as <- <-. cbn. split; [done|]. split; [|split; [done|lia]]. by split; cbn; [..|left].
    + injection H as <- <-. split; [done|]. split; [|split; [done|lia]]. by split; [..|left].
  - injection H as <- <-. cbn. split; [done|]. split; [|split; [done|lia]]. split; cbn; [done| | |by left].
    + intros id. destruct (decide (id = DocId d)) as [->|]; [by rewrite lookup_insert|]. by rewrite lookup_insert_ne.
    + intros id Hid. destruct (decide (id = DocId d)) as [->|]; [congruence|]. by rewrite lookup_insert_ne.
Qed.

Lemma markRemove_inv id x x' : markRemove id x = Some x' → addCache x' = addCache x ∧ marked x x'.
Proof.
  unfold markRemove. destruct (seqb id "0"); [intros [= <-]; split; [done|]; by split; [..|left]|].
  destruct (docsState x !! id) as [z|] eqn:E; [|intros [= <-]; split; [done|]; by split; [..|left]].
  destruct (decide (z = 0)) as [->|H0].
  { destruct (pushRemove id x) as [x1|] eqn:Ep; [|done]. rewrite bind_Some_eq. intros [= <-].
    apply pushRemove_inv in Ep as [-> _]. cbn. split; [done|]. split; cbn; [done| | |].
    - intros i. destruct (decide (i = id)) as [->|]; [done|]. by rewrite lookup_insert_ne.
    - intros i Hi. destruct (decide (i = id)) as [->|]; [congruence|]. by rewrite lookup_insert_ne.
    - right. eauto. }
  destruct (decide (z = 2)) as [->|H2].
  { intros [= <-]. cbn. split; [done|]. split; cbn; [done| | |by left].
    - intros i. destruct (decide (i = id)) as [->|]; [by rewrite lookup_insert|]. by rewrite lookup_insert_ne.
    - intros i Hi. destruct (decide (i = id)) as [->|]; [by rewrite lookup_insert|]. by rewrite lookup_insert_ne. }
  intros H. assert (x' = x) as ->.
  { destruct z as [|[p|[p|p|]|]|p]; try done; by injection H. }
  split; [done|]. by split; [..|left].
Qed.

Lemma removeStates_keep docs : ∀ x,
  initOptions (removeStates docs x) = initOptions x ∧ addCache (removeStates docs x) = addCache x ∧
  removeCache (removeStates docs x) = removeCache x ∧
  ∀ id, docsState (removeStates docs x) !! id = if decide (id ∈ docs) then None else docsState x !! id.
Proof.
  induction docs as [|d docs IH]; intros x.
  - by split_and!.
  - change (removeStates (d :: docs) x) with (removeStates docs (mkIndexer (table x) (delete d (docsState x)) (addCache x)
      (removeCache x) (initOptions x) (numDocs x) (f32_sub (totalTokenLen x) (default f_zero (docTokenLens x !! d)))
      (delete d (docTokenLens x)))).
    match goal with |- context [removeStates docs ?y] => destruct (IH y) as (H1 & H2 & H3 & H4) end.
    rewrite H1, H2, H3. split_and!; try done. intros id. rewrite H4. cbn.
    destruct (decide (id ∈ docs)) as [Hi|Hi].
    + rewrite decide_True; [done|]. by right.
    + destruct (decide (id = d)) as [->|Hd].
      * rewrite lookup_delete. rewrite decide_True; [done|]. left.
      * rewrite lookup_delete_ne by done. rewrite decide_False; [done|]. by rewrite elem_of_cons; intros [?|?].
Qed.
Lemma RemoveDocs_inv docs x x' : RemoveDocs docs x = Some x' →
  initOptions x' = initOptions x ∧ addCache x' = addCache x ∧ removeCache x' = removeCache x ∧
  ∀ id, docsState x' !! id = if decide (id ∈ docs) then None else docsState x !! id.
Proof.
  unfold RemoveDocs. cbv zeta. destruct (decide _); [|done]. intros [= <-]. cbn. apply removeStates_keep.
Qed.

Lemma addOneDoc_inv d nx x ptrs x' ptrs' : addOneDoc d nx (x, ptrs) = Some (x', ptrs') →
  initOptions x' = initOptions x ∧ addCache x' = addCache x ∧ removeCache x' = removeCache x ∧
  (∀ id, id ≠ DocId d → docsState x' !! id = docsState x !! id) ∧
  (docsState x !! DocId d = Some 1 → docsState x' !! DocId d = Some 1).
Proof.
  unfold addOneDoc. intros H. destruct (match nx with Some _ => _ | None => _ end); [by injection H as <- <-|].
  destruct (match docsState x !! DocId d with Some z => z =? 1 | None => false end) eqn:E1; [by injection H as <- <-|].
  cbv zeta in H. destruct (foldlM _ _ _) as [[T p]|]; [|done]. rewrite bind_Some_eq in H. injection H as <- <-. cbn.
  split_and!; try done.
  - intros id Hid. by rewrite lookup_insert_ne.
  - intros E. by rewrite E in E1.
Qed.
Lemma AddDocs_inv docs x x' : AddDocs docs x = Some x' →
  initOptions x' = initOptions x ∧ addCache x' = addCache x ∧ removeCache x' = removeCache x ∧
  (∀ id, id ∉ DocId <$> docs → docsState x' !! id = docsState x !! id) ∧
  (∀ id, docsState x !! id = Some 1 → docsState x' !! id = Some 1).
Proof.
  unfold AddDocs. destruct (addDocsLoop docs (x, ∅)) as [[y ptrs']|] eqn:E; [|done]. rewrite bind_Some_eq. intros [= <-].
  revert x E. generalize (∅ : gmap string Z). induction docs as [|d docs IH]; intros ptrs x E.
  - cbn in E. injection E as <- <-. done.
  - cbn [addDocsLoop] in E. destruct (addOneDoc d (head docs) (x, ptrs)) as [[x1 ptrs1]|] eqn:E1; [|done].
    rewrite bind_Some_eq in E. apply addOneDoc_inv in E1 as (A1 & A2 & A3 & A4 & A5).
    destruct (IH _ _ E) as (B1 & B2 & B3 & B4 & B5). split_and!; try congruence.
    + intros id Hid. rewrite fmap_cons, not_elem_of_cons in Hid. destruct Hid as [Hid1 Hid2].
      rewrite B4 by done. by apply A4.
    + intros id Hid. apply B5. destruct (decide (id = DocId d)) as [->|Hne]; [auto|]. by rewrite A4.
Qed.

Lemma pushAdd_inv d x x' : pushAdd d x = Some x' →
  initOptions x' = initOptions x ∧ removeCache x' = removeCache x ∧ docsState x' = docsState x ∧
  addCache x' = addCache x ++ match d with Some d => [d] | None => [] end ∧
  (zlen (addCache x) <= DocCacheSize (initOptions x) → zlen (addCache x') <= DocCacheSize (initOptions x)).
Proof.
  unfold pushAdd. destruct d as [d|].
  - destruct (Z.ltb_spec (zlen (addCache x)) (DocCacheSize (initOptions x))); [|done]. intros [= <-]. cbn.
    split_and!; try done. rewrite zlen_app. unfold zlen at 3. cbn. lia.
  - intros [= <-]. by rewrite app_nil_r.
Qed.

(** * Ghosts *)
Lemma pushed_array x s : removeCache x = removeCache (shIx s) ∨
    (∃ id, docsState (shIx s) !! id = Some 0 ∧ removeCache x = removeCache (shIx s) ++ [id]) →
  ∀ id, id ∈ shArray (shPushed x s) → id ∈ shArray s ∨ docsState (shIx s) !! id = Some 0.
Proof.
  intros [E|(i & Hi & E)] id; unfold shArray; cbn; rewrite E, !elem_of_app.
  - replace (_ - _)%nat with 0%nat by lia. rewrite drop_0. tauto.
  - rewrite app_length. cbn. replace (_ - _)%nat with 1%nat by lia. rewrite elem_of_list_singleton.
    intros [[H| ->]|H]; [tauto|tauto|]. left; right. destruct (shStale s); [done|by right].
Qed.

Section Ghost.
  Variable log2 : F → F.
  Variable sortDocs : list DocIndex → list DocIndex.
  Notation tstep := (tstep log2 sortDocs).

  Lemma tstep_ghost t p s p' s' id : tstep t p s = Some (p', s') →
    docsState (shIx s) !! id = Some 1 → id ∉ shArray s →
    docsState (shIx s') !! id = Some 1 ∧ id ∉ shArray s'.
  Proof.
    intros H H1 Hn. destruct p; cbn [ModelLocks.tstep] in H; cbv zeta in H;
      repeat match goal with
      | H : Some _ = Some _ |- _ => injection H as <- <-
      | H : None = Some _ |- _ => discriminate H
      | H : match ?x with _ => _ end = Some _ |- _ => destruct x eqn:?
      end; try done; unfold shArray; cbn [shIx shStale shSetIx shSetAdd shSetRem shSetTab shSetReaders shAnswer].
    - unfold pushAdd in *. destruct doc as [d|]; [|simplify_eq; done].
      destruct (_ <? _) eqn:?; simplify_eq; done.
    - unfold pushAdd in *. destruct doc as [d|]; [|simplify_eq; done].
      destruct (_ <? _) eqn:?; simplify_eq; done.
    - apply scanStep_inv in Heqo0 as (d' & Hd & _ & Hm & Hrc & _). rewrite Heqo in Hd. injection Hd as <-.
      split; [by apply Hm|]. rewrite Hrc; [done|]. intros E. by rewrite E in Heqb.
    - apply scanStep_inv in Heqo as (d' & Hd & _ & Hm & _). split; [by apply Hm|].
      intros Hin. apply (pushed_array i0 s) in Hin; [|apply Hm]. destruct Hin; [done|congruence].
    - apply markRemove_inv in Heqo as [_ Hm]. split; [by apply Hm|].
      intros Hin. apply (pushed_array i s) in Hin; [|apply Hm]. destruct Hin; [done|congruence].
    - split; [done|]. cbn. intros Hin. rewrite take_drop in Hin. apply Hn.
      apply elem_of_app in Hin as [Hin|Hin].
      + unfold sortIds in Hin. rewrite merge_sort_Permutation in Hin. rewrite <- (take_drop n (shArray s)), elem_of_app; by left.
      + rewrite <- (take_drop n (shArray s)), elem_of_app. by right.
    - apply RemoveDocs_inv in Heqo as (_ & _ & E3 & E4). rewrite E4, E3. rewrite decide_False; [done|].
      intros Hin. apply Hn. rewrite <- (take_drop n (shArray s)), elem_of_app. by left.
    - apply AddDocs_inv in Heqo as (_ & _ & E3 & _ & E5). rewrite E3. auto.
  Qed.

  Notation conc := (conc log2 sortDocs).
  Lemma ghost_step s s' id : conc s s' → ghost s id → ghost s' id.
  Proof.
    intros [t H] [H1 H2]. apply cstep_inv in H as (th & Hth & [(c & cs & _ & _ & ->)|(p' & sh & _ & Hs & ->)]); [done|].
    unfold ghost. cbn. by eapply tstep_ghost.
  Qed.
  Lemma ghost_reach s s' id : rtc conc s s' → ghost s id → ghost s' id.
  Proof. intros H. induction H; eauto using ghost_step. Qed.

  (** * Documents that are added once *)
  Definition pcDocs (p : pc) : list DocIndex :=
    match p with
    | AddLock (Some d) _ | AddPush (Some d) _ => [d]
    | AddDocsLock ds | AddDocsRun ds => ds
    | _ => [] end.
  Definition callIds (cs : list tcall) : list string :=
    omap (λ c, match c with TAdd (Some d) _ => Some (DocId d) | _ => None end) cs.
  Definition pend (th : thread) (x : Indexer) : list string :=
    (DocId <$> (pcDocs (tPc th) ++ addCache x)) ++ callIds (tCalls th).
  Definition pushing (p : pc) : bool :=
    match p with AddRemLock _ _ _ | AddRemPush _ _ _ => true | _ => false end.
  Definition finv (s : cstate) : Prop := ∃ th, cThreads s !! 0%nat = Some th ∧
    NoDup (pend th (shIx (cShard s))) ∧
    (∀ id, id ∈ pend th (shIx (cShard s)) → docsState (shIx (cShard s)) !! id ≠ Some 0) ∧
    pushing (tPc th) = false.

  Lemma zslice_split {A} (l a b : list A) i : zslice l i (zlen l) = Some b → zslice l 0 i = Some a → l = a ++ b.
  Proof.
    unfold zslice. intros H1 H2.
    destruct ((0 <=? i) && (i <=? zlen l) && (zlen l <=? zlen l)) eqn:E; [|done]. injection H1 as <-.
    destruct ((0 <=? 0) && (0 <=? i) && (i <=? zlen l)); [|done]. injection H2 as <-.
    rewrite Z.sub_0_r, drop_0. rewrite !andb_true_iff, !Z.leb_le in E. unfold zlen in *.
    rewrite (take_ge (drop _ l)); [by rewrite take_drop|]. rewrite drop_length. lia.
  Qed.
  Hypothesis Hsort : valid_sort sortDocs.

  Lemma tstep_pend t p s p' s' : tstep t p s = Some (p', s') →
    pcDocs p' ++ addCache (shIx s') ⊆+ pcDocs p ++ addCache (shIx s) ∧
    (∀ id, docsState (shIx s') !! id = Some 0 → docsState (shIx s) !! id = Some 0 ∨
       ∃ ds, p = AddDocsRun ds ∧ p' = Idle ∧ addCache (shIx s') = addCache (shIx s) ∧ id ∈ DocId <$> ds) ∧
    (pushing p = false → pushing p' = true →
       ∃ d, d ∈ addCache (shIx s) ∧ docsState (shIx s) !! DocId d = Some 0).
  Proof.
    intros H. destruct p; cbn [ModelLocks.tstep] in H; cbv zeta in H;
      repeat match goal with
      | H : Some _ = Some _ |- _ => injection H as <- <-
      | H : None = Some _ |- _ => discriminate H
      | H : match ?x with _ => _ end = Some _ |- _ => destruct x eqn:?
      end; (split; [|split]); try done;
      cbn [shIx shStale shSetIx shSetAdd shSetRem shSetTab shSetReaders shAnswer pcDocs app pushing];
      try (by left); try (by destruct k); try (destruct (Lookup _ _ _ _ _ _ _); by eauto); try (by eauto).
    - apply pushAdd_inv in Heqo as (_ & _ & _ & -> & _). by rewrite Permutation_app_comm.
    - apply pushAdd_inv in Heqo as (_ & _ & -> & _). by left.
    - apply pushAdd_inv in Heqo as (_ & _ & _ & -> & _). by rewrite Permutation_app_comm.
    - apply pushAdd_inv in Heqo as (_ & _ & -> & _). by left.
    - by apply submseteq_inserts_l.
    - intros _ _. exists d. split; [by eapply elem_of_list_lookup_2|].
      destruct (docsState (shIx s) !! DocId d) as [[]|]; done.
    - apply scanStep_inv in Heqo0 as (d' & _ & -> & _). done.
    - apply scanStep_inv in Heqo0 as (d' & _ & _ & Hm & _). left. by apply Hm.
    - apply scanStep_inv in Heqo as (d' & _ & Hp & _). cbn. by rewrite Hp.
    - apply scanStep_inv in Heqo as (d' & _ & _ & Hm & _). left. by apply Hm.
    - by destruct (seqb docId "0").
    - by destruct (seqb docId "0").
    - apply markRemove_inv in Heqo as [E _]. cbn. by rewrite E.
    - apply markRemove_inv in Heqo as [_ Hm]. left. by apply Hm.
    - apply RemoveDocs_inv in Heqo as (_ & E & _). rewrite E. by destruct k.
    - apply RemoveDocs_inv in Heqo as (_ & _ & _ & E). intros id. rewrite E. destruct (decide _); [done|]. by left.
    - cbn. rewrite (zslice_split _ _ _ _ Heqo Heqo0). by rewrite Permutation_app_comm.
    - apply AddDocs_inv in Heqo as (_ & E & _). rewrite E. by apply submseteq_inserts_l.
    - apply AddDocs_inv in Heqo as (_ & E1 & _ & E2 & _). intros id Hid.
      destruct (decide (id ∈ DocId <$> docs)) as [Hin|Hin]; [right; eauto|]. left. rewrite <- E2; [done|].
      by rewrite (proj1 (Hsort docs)).
    - by apply submseteq_inserts_l.
  Qed.

  Lemma finv_step s s' : conc s s' → rinv s → finv s → finv s'.
  Proof.
    intros [t H] Hr (th0 & H0 & HN & Hz & Hp). apply cstep_inv in H as (th & Hth & [(c & cs & E & Ec & ->)|(p' & sh & _ & Hs & ->)]).
    - unfold finv. cbn [cThreads cShard]. destruct (decide (t = 0%nat)) as [->|Hne].
      + rewrite H0 in Hth. injection Hth as <-. rewrite list_lookup_insert by (by eapply lookup_lt_Some).
        eexists. split; [done|].
        assert (pend (mkThread cs (enter c)) (shIx (cShard s)) ≡ₚ pend th0 (shIx (cShard s))) as HP.
        { unfold pend. cbn [tPc tCalls]. rewrite E, Ec. cbn. destruct c as [[d|] f|id f|q]; cbn; try done.
          apply Permutation_middle. }
        split; [by rewrite HP|]. split; [|by destruct c]. intros id. rewrite HP. apply Hz.
      + rewrite list_lookup_insert_ne by done. exists th0. done.
    - destruct (tstep_pend _ _ _ _ _ Hs) as (H1 & H2 & H3). destruct (Hr _ _ Hth) as [Hro _].
      unfold finv. cbn [cThreads cShard]. destruct (decide (t = 0%nat)) as [->|Hne].
      + rewrite H0 in Hth. injection Hth as <-. rewrite list_lookup_insert by (by eapply lookup_lt_Some).
        assert (pend (mkThread (tCalls th0) p') (shIx sh) ⊆+ pend th0 (shIx (cShard s))) as Hsub.
        { unfold pend. cbn [tPc tCalls]. apply submseteq_app; [by apply fmap_submseteq|done]. }
        eexists. split; [done|]. split; [by eapply NoDup_sub|]. split.
        * intros id Hid H'. assert (id ∈ pend th0 (shIx (cShard s))) as Hid' by (by eapply elem_of_submseteq).
          destruct (H2 _ H') as [?|(ds & Ep & -> & Ea & Hin)]; [by apply (Hz id)|].
          unfold pend in Hid, HN. cbn [tPc tCalls pcDocs app] in Hid. rewrite Ep in HN. cbn [pcDocs] in HN. rewrite Ea in Hid.
          rewrite fmap_app, <- app_assoc in HN. apply NoDup_app in HN as (_ & HN & _). by apply (HN id).
        * destruct (pushing p') eqn:E; [|done]. destruct (H3 Hp eq_refl) as (d & Hd & Hd0).
          exfalso. apply (Hz (DocId d)); [|done]. unfold pend. rewrite elem_of_app. left.
          apply elem_of_list_fmap_1. rewrite elem_of_app. by right.
      + rewrite list_lookup_insert_ne by done. exists th0. split; [done|].
        assert (pcDocs (tPc th) = [] ∧ pcDocs p' = [] ∧ ∀ ds, tPc th ≠ AddDocsRun ds) as (P1 & P2 & P3).
        { pose proof (tstep_role _ _ _ _ _ _ _ Hs Hro) as Hro'. destruct t as [|[|t]]; [done|..];
          cbn in Hro, Hro'; (split; [clear -Hro; by destruct (tPc th)|]; split; [clear -Hro'; by destruct p'|clear -Hro; by destruct (tPc th)]). }
        rewrite P1, P2 in H1. cbn in H1.
        assert (pend th0 (shIx sh) ⊆+ pend th0 (shIx (cShard s))) as Hsub.
        { unfold pend. apply submseteq_app; [|done]. apply fmap_submseteq. by apply submseteq_app. }
        split; [by eapply NoDup_sub|]. split; [|done].
        intros id Hid H'. assert (id ∈ pend th0 (shIx (cShard s))) as Hid' by (by eapply elem_of_submseteq).
        destruct (H2 _ H') as [?|(ds & Ep & _)]; [by apply (Hz id)|]. by destruct (P3 ds).
  Qed.

  Lemma callIds_adds adds : callIds ((λ a, TAdd a.1 a.2) <$> adds) = added_ids adds.
  Proof. induction adds as [|[[d|] f] adds IH]; cbn; [done|by f_equal|done]. Qed.
  Lemma finv_start x stale adds rems looks :
    addCache x = [] → NoDup (added_ids adds) → (∀ id, id ∈ added_ids adds → docsState x !! id ≠ Some 0) →
    finv (shardStart x stale adds rems looks).
  Proof.
    intros Hc HN Hz. eexists. split; [done|].
    unfold pend. cbn [tPc tCalls pcDocs app shardStart cShard shIx]. rewrite Hc, callIds_adds. done.
  Qed.
  Lemma finv_reach s s' : rtc conc s s' → rinv s → finv s → finv s'.
  Proof. intros H. induction H; eauto using rinv_step, finv_step. Qed.

  Lemma C41_fresh_lem x stale adds rems looks s :
    addCache x = [] → NoDup (added_ids adds) → (∀ id, id ∈ added_ids adds → docsState x !! id ≠ Some 0) →
    conc_reach log2 sortDocs (shardStart x stale adds rems looks) s → stuck log2 sortDocs s → finished s ∨ crashed s.
  Proof.
    intros Hc HN Hz Hr Hs. destruct (decide (crashed s)) as [?|Hnc]; [by right|]. left.
    destruct (finv_reach _ _ Hr) as (th & Hth & _ & _ & Hp); [apply rinv_start|by apply finv_start|].
    destruct (decide (Forall (λ th, tPc th = Idle ∧ tCalls th = []) (cThreads s))) as [Hf|Hf].
    { intros th' Hin. by eapply Forall_forall in Hf. }
    destruct (C41_shape_lem log2 sortDocs x stale adds rems looks s) as [?|Hcyc]; [done..| |done|].
    { intros Hf'. by apply Hf, Forall_forall. }
    destruct Hcyc as [(f & i & pos & E) _]. unfold pc_of in E. rewrite Hth in E. injection E as E. by rewrite E in Hp.
  Qed.

  (** * Removers that only flush *)
  Definition zinv (s : cstate) : Prop := ∃ th, cThreads s !! 1%nat = Some th ∧
    Forall (λ c, match c with TRem id _ => id = "0" | _ => True end) (tCalls th) ∧
    match tPc th with RemLock id _ _ => id = "0" | RemTabLock _ _ _ | RemMark _ _ _ => False | _ => True end.
  Lemma zinv_step s s' : conc s s' → zinv s → zinv s'.
  Proof.
    intros [t H] (th1 & H1 & Hc & Hp). apply cstep_inv in H as (th & Hth & H). unfold zinv.
    destruct (decide (t = 1%nat)) as [->|Hne].
    - rewrite H1 in Hth. injection Hth as <-. destruct H as [(c & cs & E & Ec & ->)|(p' & sh & _ & Hs & ->)]; cbn [cThreads];
        rewrite list_lookup_insert by (by eapply lookup_lt_Some); eexists; (split; [done|]); cbn [tCalls tPc].
      + rewrite Ec in Hc. apply Forall_cons in Hc as [Hc1 Hc]. split; [done|]. by destruct c.
      + split; [done|]. destruct (tPc th1); cbn [ModelLocks.tstep] in Hs; cbv zeta in Hs;
        repeat match goal with
        | H : Some _ = Some _ |- _ => injection H as <- <-
        | H : None = Some _ |- _ => discriminate H
        | H : match ?x with _ => _ end = Some _ |- _ => destruct x eqn:?
        end; try done; try (by destruct k).
        * by subst docId.
        * by destruct (Lookup _ _ _ _ _ _ _).
    - exists th1. split; [|done]. destruct H as [(c & cs & _ & _ & ->)|(p' & sh & _ & _ & ->)]; cbn [cThreads];
        by rewrite list_lookup_insert_ne.
  Qed.
  Lemma zinv_reach s s' : rtc conc s s' → zinv s → zinv s'.
  Proof. intros H. induction H; eauto using zinv_step. Qed.

  Lemma C41_noremove_lem x stale adds rems looks s :
    (∀ r, r ∈ rems → r.1 = "0") →
    conc_reach log2 sortDocs (shardStart x stale adds rems looks) s → stuck log2 sortDocs s → finished s ∨ crashed s.
  Proof.
    intros Hz Hr Hs. destruct (decide (crashed s)) as [?|Hnc]; [by right|]. left.
    destruct (zinv_reach _ _ Hr) as (th & Hth & _ & Hp).
    { eexists. split; [done|]. cbn [tCalls tPc]. split; [|done]. apply Forall_fmap, Forall_forall. intros r Hin. by apply Hz. }
    destruct (decide (Forall (λ th, tPc th = Idle ∧ tCalls th = []) (cThreads s))) as [Hf|Hf].
    { intros th' Hin. by eapply Forall_forall in Hf. }
    destruct (C41_shape_lem log2 sortDocs x stale adds rems looks s) as [?|Hcyc]; [done..| |done|].
    { intros Hf'. by apply Hf, Forall_forall. }
    destruct Hcyc as [_ [(id & f & E & _) _]]. unfold pc_of in E. rewrite Hth in E. injection E as E. by rewrite E in Hp.
  Qed.
End Ghost.
