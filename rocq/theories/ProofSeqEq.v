(** Executions of the lock-level model are finite; a worker that is not disturbed by
    the other one does what the sequential model says. *)
From Verif Require Import SpecLocks ProofIxThms ProofLocks ProofGhost.

Section Measure.
  Variable log2 : F → F.
  Variable sortDocs : list DocIndex → list DocIndex.
  Notation tstep := (tstep log2 sortDocs).
  Notation cstep := (cstep log2 sortDocs).

  Definition rank (C : nat) (p : pc) : nat :=
    match p with
    | Idle | Crash => 0
    | AddLock _ _ => 3 * C + 20 | AddPush _ _ => 3 * C + 19 | AddTabLock _ => 3 * C + 18
    | AddScan _ i _ => 15 + 3 * (C - i) | AddRemLock _ i _ => 14 + 3 * (C - i) | AddRemPush _ i _ => 13 + 3 * (C - i)
    | RemLock _ _ _ => 12 | RemTabLock _ _ _ => 11 | RemMark _ _ _ => 10 | RemTake _ _ => 9 | RemSort _ _ => 8
    | RemDocsLock _ _ => 7 | RemDocsRun _ _ => 6 | AddTake _ => 5 | AddDocsLock _ => 4 | AddDocsRun _ => 3
    | LookLock _ => 2 | LookRun _ => 1
    end.
  Definition capInv (C : nat) (x : Indexer) : Prop :=
    Z.to_nat (DocCacheSize (initOptions x)) = C ∧ zlen (addCache x) <= DocCacheSize (initOptions x).

  Lemma rank_tstep C t p s p' s' : tstep t p s = Some (p', s') → capInv C (shIx s) →
    capInv C (shIx s') ∧ (rank C p' < rank C p)%nat.
  Proof.
    intros H [HC Hlen]. destruct p; cbn [ModelLocks.tstep] in H; cbv zeta in H;
      repeat match goal with
      | H : Some _ = Some _ |- _ => injection H as <- <-
      | H : None = Some _ |- _ => discriminate H
      | H : match ?x with _ => _ end = Some _ |- _ => destruct x eqn:?
      end; try (split; [done|cbn; lia]);
      unfold capInv; cbn [shIx shSetIx shSetAdd shSetRem shSetTab shSetReaders shAnswer].
    - apply pushAdd_inv in Heqo as (E & _ & _ & _ & E2). rewrite E. split; [auto|cbn; lia].
    - apply pushAdd_inv in Heqo as (E & _ & _ & _ & E2). rewrite E. split; [auto|cbn; lia].
    - apply scanStep_inv in Heqo0 as (d' & Hd & Hp & Hm & _). rewrite (mk_opts _ _ Hm). unfold zlen. rewrite Hp.
      split; [done|]. apply lookup_lt_Some in Hd. unfold zlen in Hlen. cbn. lia.
    - apply scanStep_inv in Heqo as (d' & Hd & Hp & Hm & _). cbn. rewrite (mk_opts _ _ Hm). unfold zlen. rewrite Hp.
      split; [done|]. apply lookup_lt_Some in Hd. unfold zlen in Hlen. cbn. lia.
    - split; [done|]. destruct (seqb _ _); cbn; lia.
    - apply markRemove_inv in Heqo as [E Hm]. cbn. rewrite (mk_opts _ _ Hm), E. split; [done|cbn; lia].
    - split; [done|]. destruct k; cbn; lia.
    - apply RemoveDocs_inv in Heqo as (E1 & E2 & _). rewrite E1, E2. split; [done|]. destruct k; cbn; lia.
    - cbn. split; [|lia]. split; [done|]. pose proof (zslice_split _ _ _ _ Heqo Heqo0) as E. rewrite E, zlen_app in Hlen.
      pose proof (zlen_nonneg l). lia.
    - apply AddDocs_inv in Heqo as (E1 & E2 & _). rewrite E1, E2. split; [done|cbn; lia].
    - split; [done|]. destruct (Lookup _ _ _ _ _ _ _); cbn; lia.
  Qed.

  Definition tmeasure (C : nat) (th : thread) : nat := length (tCalls th) * (3 * C + 21) + rank C (tPc th).
  Definition measure (C : nat) (s : cstate) : nat := sum_list (tmeasure C <$> cThreads s).

  Lemma sum_list_insert (f : thread → nat) l : ∀ i x y, l !! i = Some x → (f y < f x)%nat →
    (sum_list (f <$> <[i := y]> l) < sum_list (f <$> l))%nat.
  Proof.
    induction l as [|a l IH]; intros [|i] x y H Hlt; try done.
    - injection H as ->. change (<[0%nat := y]> (x :: l)) with (y :: l). rewrite !fmap_cons. cbn [sum_list_with id]. lia.
    - cbn in H. specialize (IH _ _ _ H Hlt). change (<[S i := y]> (a :: l)) with (a :: <[i := y]> l). rewrite !fmap_cons. cbn [sum_list_with id]. lia.
  Qed.
  Lemma measure_step C t s s' : cstep t s = Some s' → capInv C (shIx (cShard s)) →
    capInv C (shIx (cShard s')) ∧ (measure C s' < measure C s)%nat.
  Proof.
    intros H HC. apply cstep_inv in H as (th & Hth & [(c & cs & E & Ec & ->)|(p' & sh & _ & Hs & ->)]).
    - split; [done|]. unfold measure. cbn [cThreads]. apply (sum_list_insert _ _ _ _ _ Hth).
      unfold tmeasure. rewrite E, Ec. destruct c; cbn; lia.
    - destruct (rank_tstep C _ _ _ _ _ Hs HC) as [H1 H2]. split; [done|]. unfold measure. cbn [cThreads].
      apply (sum_list_insert _ _ _ _ _ Hth). unfold tmeasure. cbn. lia.
  Qed.
  Lemma measure_sched C ts : ∀ s s', csched log2 sortDocs ts s = Some s' → capInv C (shIx (cShard s)) →
    (length ts + measure C s' <= measure C s)%nat.
  Proof.
    induction ts as [|t ts IH]; intros s s' H HC; cbn [csched] in H.
    - injection H as ->. cbn. lia.
    - destruct (cstep t s) as [s1|] eqn:E; [|done]. rewrite bind_Some_eq in H.
      destruct (measure_step C t s s1 E HC) as [HC1 Hlt]. specialize (IH _ _ H HC1). cbn. lia.
  Qed.

  Lemma C41_bound_lem x stale adds rems looks ts s :
    zlen (addCache x) <= DocCacheSize (initOptions x) →
    csched log2 sortDocs ts (shardStart x stale adds rems looks) = Some s →
    (length ts <= step_bound x adds rems looks)%nat.
  Proof.
    intros Hc H. pose proof (measure_sched (Z.to_nat (DocCacheSize (initOptions x))) _ _ _ H (conj eq_refl Hc)) as Hm.
    assert (measure (Z.to_nat (DocCacheSize (initOptions x))) (shardStart x stale adds rems looks) = step_bound x adds rems looks) as E; [|lia].
    unfold measure, step_bound. cbn [shardStart cThreads]. generalize (Z.to_nat (DocCacheSize (initOptions x))). intros C.
    rewrite !fmap_cons. cbn [sum_list_with id]. unfold tmeasure at 1 2. cbn [tCalls tPc rank]. rewrite !fmap_length.
    assert (sum_list (tmeasure C <$> ((λ qs, mkThread (TLook <$> qs) Idle) <$> looks)) = sum_list (length <$> looks) * (3 * C + 21))%nat as E.
    { clear. induction looks as [|qs looks IH]; [done|]. rewrite !fmap_cons. cbn [sum_list_with id]. rewrite IH.
      unfold tmeasure. cbn [tCalls tPc rank]. rewrite fmap_length. lia. }
    rewrite E. lia.
  Qed.
  Lemma csched_reach ts : ∀ s s', csched log2 sortDocs ts s = Some s' → rtc (conc log2 sortDocs) s s'.
  Proof.
    induction ts as [|t ts IH]; intros s s' H; cbn [csched] in H; [by injection H as ->|].
    destruct (cstep t s) as [s1|] eqn:E; [|done]. rewrite bind_Some_eq in H. eapply rtc_l; [by exists t|auto].
  Qed.
End Measure.

Section SeqEq.
  Variable log2 : F → F.
  Variable sortDocs : list DocIndex → list DocIndex.
  Notation tstep := (tstep log2 sortDocs).
  Notation conc := (conc log2 sortDocs).

  (** What completing the current call yields, if nobody else writes; [a] is the
      removeCache array. *)
  Definition afterRem (position : Z) (x : Indexer) : option Indexer :=
    docs ← zslice (addCache x) position (zlen (addCache x));
    kept ← zslice (addCache x) 0 position;
    AddDocs (sortDocs docs) (setAddCache kept x).
  Definition cont (k : option Z) (r : Indexer * bool) : option Indexer :=
    match k with None => Some r.1 | Some pos => afterRem (if r.2 then 0 else pos) r.1 end.
  Definition afterScan (f : bool) (r : Indexer * Z) : option Indexer :=
    RemoveDocToCache "0" f r.1 ≫= cont (Some r.2).
  Definition rest (p : pc) (x : Indexer) (a : list string) : option Indexer :=
    match p with
    | Idle => Some x
    | AddLock d f | AddPush d f => AddDocToCache sortDocs d f x
    | AddTabLock f => foldlM scanStep (seq 0 (length (addCache x))) (x, 0) ≫= afterScan f
    | AddScan f i pos | AddRemLock f i pos | AddRemPush f i pos =>
      foldlM scanStep (seq i (length (addCache x) - i)) (x, pos) ≫= afterScan f
    | RemLock id f k | RemTabLock id f k | RemMark id f k => RemoveDocToCache id f x ≫= cont k
    | RemTake f k => RemoveDocToCache "0" f x ≫= cont k
    | RemSort n k => RemoveDocs (sortIds (take n a)) x ≫= λ y, cont k (y, true)
    | RemDocsLock n k | RemDocsRun n k => RemoveDocs (take n a) x ≫= λ y, cont k (y, true)
    | AddTake pos => afterRem pos x
    | AddDocsLock ds | AddDocsRun ds => AddDocs (sortDocs ds) x
    | _ => None
    end.
  Definition inBatch (p : pc) : bool :=
    match p with RemSort _ _ | RemDocsLock _ _ | RemDocsRun _ _ => true | _ => false end.
  Definition looking (p : pc) : bool := match p with LookLock _ | LookRun _ => true | _ => false end.

  Lemma RemoveDocToCache_zero f x : RemoveDocToCache "0" f x =
    if (0 <? zlen (removeCache x)) && ((DocCacheSize (initOptions x) <=? zlen (removeCache x)) || f)
    then s2 ← RemoveDocs (sortIds (removeCache x)) (setRemoveCache [] x); Some (s2, true)
    else Some (x, false).
  Proof. reflexivity. Qed.
  Lemma setRemoveCache_id x : setRemoveCache (removeCache x) x = x.
  Proof. by destruct x. Qed.
  Lemma AddDocToCache_rest d f x : AddDocToCache sortDocs d f x =
    (y ← pushAdd d x; if (DocCacheSize (initOptions y) <=? zlen (addCache y)) || f
      then foldlM scanStep (seq 0 (length (addCache y))) (y, 0) ≫= afterScan f else Some y).
  Proof.
    unfold AddDocToCache. destruct (pushAdd d x) as [y|]; [|done]. rewrite !bind_Some_eq. cbv zeta.
    destruct (_ || f); [|done]. unfold afterScan. destruct (foldlM scanStep _ _) as [[z pos]|]; [|done]. rewrite !bind_Some_eq.
    cbn [fst snd]. destruct (RemoveDocToCache "0" f z) as [[w b]|]; [|done]. rewrite !bind_Some_eq. done.
  Qed.
  Lemma RemoveDocToCache_mark id f x : RemoveDocToCache id f x = markRemove id x ≫= RemoveDocToCache "0" f.
  Proof. done. Qed.

  Lemma rest_tstep t p s p' s' : tstep t p s = Some (p', s') → looking p = false → p' ≠ Crash →
    (inBatch p = true → removeCache (shIx s) = []) →
    rest p' (shIx s') (shArray s') = rest p (shIx s) (shArray s) ∧
    (inBatch p' = true → removeCache (shIx s') = []).
  Proof.
    intros H Hl Hc Hb. destruct p; cbn [ModelLocks.tstep] in H; cbv zeta in H; try done;
      repeat match goal with
      | H : Some _ = Some _ |- _ => injection H as <- <-
      | H : None = Some _ |- _ => discriminate H
      | H : match ?x with _ => _ end = Some _ |- _ => destruct x eqn:?
      end; try done; cbn [shIx shSetIx shSetAdd shSetRem shSetTab shSetReaders shAnswer rest inBatch].
    - split; [|done]. by rewrite AddDocToCache_rest, Heqo, bind_Some_eq, Heqb.
    - split; [|done]. by rewrite AddDocToCache_rest, Heqo, bind_Some_eq, Heqb.
    - split; [|done]. by rewrite Nat.sub_0_r.
    - split; [|done]. apply scanStep_inv in Heqo0 as Hi. destruct Hi as (d' & Hd & Hp & _).
      rewrite Hp. assert (length (addCache (shIx s)) - i = S (length (addCache (shIx s)) - S i))%nat as ->.
      { apply lookup_lt_Some in Hd. lia. }
      cbn [seq foldlM]. by rewrite Heqo0, bind_Some_eq.
    - split; [|done]. assert (length (addCache (shIx s)) - i = 0)%nat as ->.
      { apply lookup_ge_None in Heqo. lia. }
      done.
    - split; [|done]. apply scanStep_inv in Heqo as Hi. destruct Hi as (d' & Hd & Hp & _). cbn [shPushed shIx].
      rewrite Hp. assert (length (addCache (shIx s)) - i = S (length (addCache (shIx s)) - S i))%nat as ->.
      { apply lookup_lt_Some in Hd. lia. }
      cbn [seq foldlM]. by rewrite Heqo, bind_Some_eq.
    - destruct (seqb docId "0") eqn:E0; [apply seqb_eq in E0 as ->|]; done.
    - split; [|done]. cbn [shPushed shIx]. rewrite (RemoveDocToCache_mark docId), Heqo. by rewrite bind_Some_eq.
    - split; [|done]. cbn [shTaken shIx]. rewrite RemoveDocToCache_zero. unfold zlen. rewrite Heqb.
      change (shArray (shSetRem None (shTaken s))) with (shArray s). unfold shArray at 1. rewrite take_app. 
      by destruct (RemoveDocs _ _).
    - split; [|by destruct k]. rewrite RemoveDocToCache_zero. unfold zlen. rewrite Heqb. rewrite bind_Some_eq. by destruct k.
    - specialize (Hb eq_refl). match goal with |- context [shSetArray ?l s] => set (arr := l) end.
      assert (shSetArray arr s = mkShard (shIx s) arr (shAdd s) (shRem s) (shTab s) (shReaders s) (shLog s)) as ->.
      { assert (setRemoveCache [] (shIx s) = shIx s) as E by (rewrite <- Hb; apply setRemoveCache_id).
        unfold shSetArray. cbv zeta. rewrite Hb. cbn [length]. rewrite drop_0. change (take 0 arr) with (@nil string). by rewrite E. }
      cbn [shIx]. split; [|done]. f_equal. f_equal. unfold shArray at 1. cbn [shIx shStale]. rewrite Hb. cbn [app]. subst arr. unfold sortIds.
      destruct (decide (n <= length (shArray s))%nat) as [Hle|Hle].
      + rewrite take_app_alt; [done|]. rewrite merge_sort_Permutation, take_length. lia.
      + rewrite (drop_ge _ n), app_nil_r by lia. rewrite take_ge; [done|]. rewrite merge_sort_Permutation, take_length. lia.
    - split; [|by destruct k]. rewrite Heqo, bind_Some_eq. by destruct k.
    - split; [|done]. unfold afterRem. by rewrite Heqo, bind_Some_eq, Heqo0, bind_Some_eq.
  Qed.

  Definition callOp (c : tcall) : option op :=
    match c with TAdd d f => Some (OpAdd d f) | TRem id f => Some (OpRemove id f) | TLook _ => None end.
  Definition J (a : nat) (R : option Indexer) (s : cstate) : Prop := ∃ th, cThreads s !! a = Some th ∧
    (rest (tPc th) (shIx (cShard s)) (shArray (cShard s)) ≫= run sortDocs (omap callOp (tCalls th))) = R ∧
    (inBatch (tPc th) = true → removeCache (shIx (cShard s)) = []).

  Lemma J_step a R t s s' : (a < 2)%nat → rinv s → cstep log2 sortDocs t s = Some s' →
    (t ≠ a → shIx (cShard s') = shIx (cShard s) ∧ shArray (cShard s') = shArray (cShard s)) →
    J a R s → crashed s' ∨ J a R s'.
  Proof.
    intros Ha Hr H Ho (th0 & H0 & HR & Hb). unfold J. apply cstep_inv in H as (th & Hth & H).
    destruct (decide (t = a)) as [->|Hne].
    - rewrite H0 in Hth. injection Hth as <-. destruct (Hr _ _ H0) as [Hro Hcr].
      destruct H as [(c & cs & E & Ec & ->)|(p' & sh & _ & Hs & ->)].
      + right. cbn [cThreads cShard]. rewrite list_lookup_insert by (by eapply lookup_lt_Some).
        eexists. split; [done|]. cbn [tPc tCalls]. split; [|by destruct c].
        rewrite E, Ec in HR. cbn [rest] in HR. rewrite bind_Some_eq in HR. rewrite <- HR.
        rewrite Ec in Hcr. apply Forall_cons in Hcr as [Hcr _].
        destruct c as [d f|id f|q]; cbn [enter rest omap list_omap callOp].
        * done.
        * change (run sortDocs (OpRemove id f :: omap callOp cs) (shIx (cShard s))) with
            (step sortDocs (shIx (cShard s)) (OpRemove id f) ≫= run sortDocs (omap callOp cs)).
          f_equal. cbn [step]. destruct (RemoveDocToCache id f (shIx (cShard s))) as [[y b]|]; [|done]. by rewrite !bind_Some_eq.
        * exfalso. destruct a as [|[|a]]; [done|done|lia].
      + destruct (decide (isCrash p' = true)) as [Hc|Hc].
        { left. destruct p'; try done. by eapply crashed_insert. }
        right. cbn [cThreads cShard]. rewrite list_lookup_insert by (by eapply lookup_lt_Some).
        eexists. split; [done|]. cbn [tPc tCalls].
        destruct (rest_tstep _ _ _ _ _ Hs) as [E1 E2].
        * clear -Hro Ha. destruct a as [|[|a]]; [by destruct (tPc th0)|by destruct (tPc th0)|lia].
        * intros ->. by apply Hc.
        * done.
        * by rewrite E1.
    - right. destruct (Ho Hne) as [E1 E2]. rewrite E1, E2. exists th0. split; [|done].
      destruct H as [(c & cs & _ & _ & ->)|(p' & sh & _ & _ & ->)]; cbn [cThreads]; by rewrite list_lookup_insert_ne.
  Qed.

  (** Searches and idle goroutines change nothing. *)
  Lemma search_same t s s' : rinv s → (2 <= t)%nat → cstep log2 sortDocs t s = Some s' →
    shIx (cShard s') = shIx (cShard s) ∧ shArray (cShard s') = shArray (cShard s).
  Proof.
    intros Hr Ht H. apply cstep_inv in H as (th & Hth & [(c & cs & _ & _ & ->)|(p' & sh & _ & Hs & ->)]); [done|].
    destruct (Hr _ _ Hth) as [Hro _]. destruct t as [|[|t]]; [lia|lia|]. cbn [cShard].
    destruct (tPc th); try done; cbn [ModelLocks.tstep] in Hs; cbv zeta in Hs;
      repeat match goal with
      | H : Some _ = Some _ |- _ => injection H as <- <-
      | H : None = Some _ |- _ => discriminate H
      | H : match ?x with _ => _ end = Some _ |- _ => destruct x eqn:?
      end; done.
  Qed.
  Definition quiet (u : nat) (s : cstate) : Prop := cThreads s !! u = Some (mkThread [] Idle).
  Lemma quiet_step u t s s' : cstep log2 sortDocs t s = Some s' → quiet u s → t ≠ u ∧ quiet u s'.
  Proof.
    intros H Hq. apply cstep_inv in H as (th & Hth & H). destruct (decide (t = u)) as [->|Hne].
    - exfalso. rewrite Hq in Hth. injection Hth as <-. cbn in H.
      destruct H as [(c & cs & _ & E & _)|(p' & sh & E & _)]; done.
    - split; [done|]. unfold quiet. destruct H as [(c & cs & _ & _ & ->)|(p' & sh & _ & _ & ->)]; cbn [cThreads]; by rewrite list_lookup_insert_ne.
  Qed.

  Lemma solo_reach a u R s s' : (a < 2)%nat → (u < 2)%nat → u ≠ a → rtc conc s s' →
    rinv s → quiet u s → J a R s → crashed s' ∨ (rinv s' ∧ quiet u s' ∧ J a R s').
  Proof.
    intros Ha Hu Hua H. induction H as [|s1 s2 s3 [t H12] H23 IH]; [by right|]. intros Hr Hq HJ.
    destruct (quiet_step _ _ _ _ H12 Hq) as [Htu Hq2].
    assert (rinv s2) as Hr2 by (eapply rinv_step; [by exists t|done]).
    destruct (J_step a R t s1 s2 Ha Hr H12) as [Hc|HJ2]; [|done|left; by eapply crashed_reach|auto].
    intros Hta. apply (search_same t); [done| |done]. lia.
  Qed.

  Lemma omap_adds adds : omap callOp ((λ a, TAdd a.1 a.2) <$> adds) = add_ops adds.
  Proof. induction adds as [|[d f] adds IH]; [done|]. cbn. f_equal. exact IH. Qed.
  Lemma omap_rems rems : omap callOp ((λ r, TRem r.1 r.2) <$> rems) = rem_ops rems.
  Proof. induction rems as [|[d f] rems IH]; [done|]. cbn. f_equal. exact IH. Qed.

  Lemma J_start_adds x stale adds rems looks :
    J 0 (run sortDocs (add_ops adds) x) (shardStart x stale adds rems looks).
  Proof. eexists. split; [done|]. cbn [tPc tCalls rest]. rewrite omap_adds. done. Qed.
  Lemma J_start_rems x stale adds rems looks :
    J 1 (run sortDocs (rem_ops rems) x) (shardStart x stale adds rems looks).
  Proof. eexists. split; [done|]. cbn [tPc tCalls rest]. rewrite omap_rems. done. Qed.

  Lemma J_finished a R s : J a R s → finished s → R = Some (shIx (cShard s)).
  Proof.
    intros (th & Hth & HR & _) Hf. destruct (Hf th) as [E1 E2]; [by eapply elem_of_list_lookup_2|].
    rewrite E1, E2 in HR. cbn [rest] in HR. by rewrite bind_Some_eq in HR.
  Qed.

  Lemma C60_adds_lem x stale adds looks s :
    conc_reach log2 sortDocs (shardStart x stale adds [] looks) s → finished s →
    run sortDocs (add_ops adds) x = Some (shIx (cShard s)).
  Proof.
    intros Hr Hf. destruct (solo_reach 0 1 (run sortDocs (add_ops adds) x) _ _ ltac:(lia) ltac:(lia) ltac:(lia) Hr) as [Hc|(_ & _ & HJ)].
    - apply rinv_start. - done. - apply J_start_adds.
    - destruct Hc as (th & Hth & E). destruct (Hf th Hth). congruence.
    - by apply (J_finished 0).
  Qed.
  Lemma C60_rems_lem x stale rems looks s :
    conc_reach log2 sortDocs (shardStart x stale [] rems looks) s → finished s →
    run sortDocs (rem_ops rems) x = Some (shIx (cShard s)).
  Proof.
    intros Hr Hf. destruct (solo_reach 1 0 (run sortDocs (rem_ops rems) x) _ _ ltac:(lia) ltac:(lia) ltac:(lia) Hr) as [Hc|(_ & _ & HJ)].
    - apply rinv_start. - done. - apply J_start_rems.
    - destruct Hc as (th & Hth & E). destruct (Hf th Hth). congruence.
    - by apply (J_finished 1).
  Qed.

  (** * New documents only; removers that only flush *)
  Definition flusher (s : cstate) : Prop := ∃ th, cThreads s !! 1%nat = Some th ∧
    Forall (λ c, match c with TRem id _ => id = "0" | _ => False end) (tCalls th) ∧
    match tPc th with Idle | Crash => True | RemLock id _ None => id = "0" | RemTake _ None => True | _ => False end.
  Lemma flusher_step t s s' : cstep log2 sortDocs t s = Some s' → removeCache (shIx (cShard s)) = [] → flusher s →
    flusher s' ∧ (t = 1%nat → shIx (cShard s') = shIx (cShard s) ∧ shArray (cShard s') = shArray (cShard s)).
  Proof.
    intros H Hrc (th1 & H1 & Hc & Hp). apply cstep_inv in H as (th & Hth & H). unfold flusher.
    destruct (decide (t = 1%nat)) as [->|Hne].
    - rewrite H1 in Hth. injection Hth as <-. destruct H as [(c & cs & E & Ec & ->)|(p' & sh & Hi & Hs & ->)]; cbn [cThreads cShard];
        rewrite list_lookup_insert by (by eapply lookup_lt_Some).
      + split; [|done]. eexists. split; [done|]. cbn [tCalls tPc]. rewrite Ec in Hc. apply Forall_cons in Hc as [Hc1 Hc]. split; [done|]. by destruct c.
      + destruct (tPc th1) as [ | | | | | | |id f [k|]| | |f [k|]| | | | | | | | | ] eqn:Ep; try done;
          cbn [ModelLocks.tstep] in Hs; cbv zeta in Hs.
        * destruct (isFree _); [|done]. subst id. injection Hs as <- <-. split; [|done]. eexists. split; [done|]. done.
        * rewrite Hrc in Hs. cbn [length] in Hs. injection Hs as <- <-. split; [|done]. eexists. split; [done|]. done.
    - split; [|done]. exists th1. split; [|done]. destruct H as [(c & cs & _ & _ & ->)|(p' & sh & _ & _ & ->)]; cbn [cThreads];
        by rewrite list_lookup_insert_ne.
  Qed.
  Lemma tstep_rc p s p' s' : tstep 0 p s = Some (p', s') → role 0 p → pushing p = false →
    removeCache (shIx s) = [] → removeCache (shIx s') = [].
  Proof.
    intros H Hr Hp Hrc. destruct p; cbn [ModelLocks.tstep] in H; cbv zeta in H; try done;
      repeat match goal with
      | H : Some _ = Some _ |- _ => injection H as <- <-
      | H : None = Some _ |- _ => discriminate H
      | H : match ?x with _ => _ end = Some _ |- _ => destruct x eqn:?
      end; try done; cbn [shIx shSetIx shSetAdd shSetRem shSetTab shSetReaders shAnswer].
    - apply pushAdd_inv in Heqo as (_ & -> & _). done.
    - apply pushAdd_inv in Heqo as (_ & -> & _). done.
    - apply scanStep_inv in Heqo0 as (d' & Hd & _ & _ & E & _). rewrite E; [done|].
      rewrite Heqo in Hd. injection Hd as <-. intros E'. by rewrite E' in Heqb.
    - cbn. by rewrite Hrc.
    - apply RemoveDocs_inv in Heqo as (_ & _ & -> & _). done.
    - apply AddDocs_inv in Heqo as (_ & _ & -> & _). done.
  Qed.

  Lemma fresh_reach R s s' : valid_sort sortDocs → rtc conc s s' →
    rinv s → finv s → flusher s → removeCache (shIx (cShard s)) = [] → J 0 R s →
    crashed s' ∨ J 0 R s'.
  Proof.
    intros Hsort H. induction H as [|s1 s2 s3 [t H12] H23 IH]; [by right|]. intros Hr Hf Hfl Hrc HJ.
    destruct (flusher_step _ _ _ H12 Hrc Hfl) as [Hfl2 Hsame].
    assert (rinv s2) as Hr2 by (eapply rinv_step; [by exists t|done]).
    assert (finv s2) as Hf2 by (eapply finv_step; [done|by exists t|done..]).
    assert (t ≠ 0%nat → shIx (cShard s2) = shIx (cShard s1) ∧ shArray (cShard s2) = shArray (cShard s1)) as Ho.
    { intros Ht. destruct (decide (t = 1%nat)); [auto|]. apply (search_same t); [done|lia|done]. }
    destruct (J_step 0 R t s1 s2 ltac:(lia) Hr H12 Ho HJ) as [Hc|HJ2]; [left; by eapply crashed_reach|].
    apply IH; try done. destruct (decide (t = 0%nat)) as [->|Ht]; [|by destruct (Ho Ht) as [-> _]].
    destruct Hf as (th0 & H0 & _ & _ & Hp). apply cstep_inv in H12 as (th & Hth & [(c & cs & _ & _ & ->)|(p' & sh & _ & Hs & ->)]); [done|].
    rewrite H0 in Hth. injection Hth as <-. destruct (Hr _ _ H0) as [Hro _]. cbn [cShard]. by eapply tstep_rc.
  Qed.
  Lemma C60_fresh_lem x stale adds rems looks s : valid_sort sortDocs →
    addCache x = [] → removeCache x = [] →
    NoDup (added_ids adds) → (∀ id, id ∈ added_ids adds → docsState x !! id ≠ Some 0) →
    (∀ r, r ∈ rems → r.1 = "0") →
    conc_reach log2 sortDocs (shardStart x stale adds rems looks) s → finished s →
    run sortDocs (add_ops adds) x = Some (shIx (cShard s)).
  Proof.
    intros Hsort Ha Hrc HN Hz Hrem Hr Hf. destruct (fresh_reach (run sortDocs (add_ops adds) x) _ _ Hsort Hr) as [Hc|HJ].
    - apply rinv_start. - by apply finv_start.
    - eexists. split; [done|]. cbn [tCalls tPc]. split; [|done]. apply Forall_fmap, Forall_forall. intros r Hin. by apply Hrem.
    - done. - apply J_start_adds.
    - destruct Hc as (th & Hth & E). destruct (Hf th Hth). congruence.
    - by apply (J_finished 0).
  Qed.
End SeqEq.

(** * The lock cycle is for ever *)
Section Cycle.
  Variable log2 : F → F.
  Variable sortDocs : list DocIndex → list DocIndex.
  Lemma cycle_step s s' : rinv s → lock_cycle s → conc log2 sortDocs s s' →
    lock_cycle s' ∧ ∀ t q, pc_of t s' = Some (LookRun q) → pc_of t s = Some (LookRun q).
  Proof.
    intros Hr ((f & i & pos & E0) & (id & f' & E1 & Hid) & Htab & Hrem) [t H].
    apply cstep_inv in H as (th & Hth & H). unfold pc_of in E0, E1.
    destruct (cThreads s !! 0%nat) as [th0|] eqn:H0; [|done]. injection E0 as E0.
    destruct (cThreads s !! 1%nat) as [th1|] eqn:H1; [|done]. injection E1 as E1.
    assert (2 <= t)%nat as Ht.
    { destruct t as [|[|t]]; [..|lia]; exfalso.
      - rewrite H0 in Hth. injection Hth as <-. destruct H as [(c & cs & E & _)|(p' & sh & _ & Hs & _)]; [congruence|].
        rewrite E0 in Hs. cbn in Hs. by rewrite Hrem in Hs.
      - rewrite H1 in Hth. injection Hth as <-. destruct H as [(c & cs & E & _)|(p' & sh & _ & Hs & _)]; [congruence|].
        rewrite E1 in Hs. cbn in Hs. unfold tabFree in Hs. by rewrite Htab in Hs. }
    destruct (Hr _ _ Hth) as [Hro Hcr].
    assert (∀ th' sh, s' = mkCState (<[t := th']> (cThreads s)) sh → shTab sh = Some 0%nat → shRem sh = Some 1%nat →
      (∀ q, tPc th' = LookRun q → tPc th = LookRun q) →
      lock_cycle s' ∧ ∀ u q, pc_of u s' = Some (LookRun q) → pc_of u s = Some (LookRun q)) as Hgo.
    { intros th' sh -> HT HR HL. split.
      - unfold lock_cycle, pc_of. cbn [cThreads cShard]. rewrite !list_lookup_insert_ne by lia. rewrite H0, H1. cbn. rewrite E0, E1.
        repeat split; eauto.
      - intros u q. unfold pc_of. cbn [cThreads]. destruct (decide (u = t)) as [->|Hne].
        + rewrite list_lookup_insert by (by eapply lookup_lt_Some). rewrite Hth. cbn. intros [= E]. f_equal. auto.
        + by rewrite list_lookup_insert_ne. }
    destruct H as [(c & cs & E & Ec & ->)|(p' & sh & Hi & Hs & ->)].
    - eapply Hgo; [done|done|done|]. intros q. by destruct c.
    - destruct t as [|[|t]]; [lia|lia|]. destruct (tPc th); try done; cbn [ModelLocks.tstep] in Hs; cbv zeta in Hs.
      + rewrite Htab in Hs. done.
      + injection Hs as <- <-. eapply Hgo; [done|done|done|]. intros q'. cbn [tPc]. by destruct (Lookup _ _ _ _ _ _ _).
  Qed.
  Lemma C41_forever_lem x stale adds rems looks s s' :
    conc_reach log2 sortDocs (shardStart x stale adds rems looks) s → lock_cycle s → conc_reach log2 sortDocs s s' →
    lock_cycle s' ∧ ∀ t q, pc_of t s' = Some (LookRun q) → pc_of t s = Some (LookRun q).
  Proof.
    intros Hr Hl H. assert (rinv s) as Hri by (eapply rinv_reach; [done|apply rinv_start]). clear Hr.
    revert Hri Hl. induction H as [|s1 s2 s3 H12 H23 IH]; [done|]. intros Hri Hl.
    destruct (cycle_step _ _ Hri Hl H12) as [Hl2 Hq2]. destruct IH as [Hl3 Hq3]; [by eapply rinv_step|done|].
    split; [done|]. auto.
  Qed.
End Cycle.
