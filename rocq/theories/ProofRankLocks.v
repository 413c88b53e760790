(** The ranker at the level of its lock: proofs. *)
From Verif Require Import SpecRankLocks ProofRanker.

(** * Assignments make up a call *)
Lemma assign_whole o r : foldlM (λ r j, assign o j r) (seq 0 4) r = rstep r o.
Proof.
  destruct r as [f d c a b]. destruct o as [id x ct|id]; cbn.
  - unfold RankerAdd; cbn. destruct b; cbn; [done|].
    destruct ct as [|[|s|n] [|y ct]]; cbn; done.
  - unfold RankerRemove; cbn. destruct b; done.
Qed.

Lemma after_writes_app r0 log l m : (m <= length log)%nat → after_writes r0 (log ++ l) m = after_writes r0 log m.
Proof. intros H. unfold after_writes. by rewrite take_app_le. Qed.
Lemma after_writes_all r0 log : after_writes r0 log (length log) = rrun (snd <$> log) r0.
Proof. unfold after_writes. by rewrite firstn_all. Qed.

Lemma rising_le ms : ∀ lo hi, rising ms lo hi → (lo <= hi)%nat.
Proof. induction ms as [|m ms IH]; intros lo hi; cbn; [done|]. intros [H1 H2]. specialize (IH _ _ H2). lia. Qed.
Lemma rising_mono ms : ∀ lo hi hi', rising ms lo hi → (hi <= hi')%nat → rising ms lo hi'.
Proof. induction ms as [|m ms IH]; intros lo hi hi'; cbn; [lia|]. intros [H1 H2] H. split; [done|]. by eapply IH. Qed.
Lemma rising_snoc ms : ∀ lo hi, rising ms lo hi → rising (ms ++ [hi]) lo hi.
Proof. induction ms as [|m ms IH]; intros lo hi; cbn; [intros; split; [done|lia]|]. intros [H1 H2]. split; [done|]. by apply IH. Qed.
Lemma rising_bound ms : ∀ lo hi, rising ms lo hi → Forall (λ m, (lo <= m <= hi)%nat) ms.
Proof.
  induction ms as [|m ms IH]; intros lo hi; cbn; [constructor|]. intros [H1 H2].
  pose proof (rising_le _ _ _ H2). constructor; [lia|]. eapply Forall_impl; [apply IH; exact H2|]. cbn. lia.
Qed.

Lemma scored_at_app r0 log l o c done : ∀ acc, Forall (λ m, (m <= length log)%nat) (snd <$> done) →
  scored_at r0 (log ++ l) o c done acc = scored_at r0 log o c done acc.
Proof.
  induction done as [|[d m] done IH]; intros acc H; cbn in *; [done|]. inversion H; subst.
  rewrite after_writes_app by done. destruct (after_writes r0 log m); cbn; [|done]. by apply IH.
Qed.
Lemma scored_at_snoc r0 log o c done d m r : ∀ acc acc', scored_at r0 log o c done acc = Some acc' →
  after_writes r0 log m = Some r → scored_at r0 log o c (done ++ [(d, m)]) acc = Some (rankStep r o c acc' d).
Proof.
  induction done as [|[d' m'] done IH]; intros acc acc'; cbn.
  - intros [= ->] ->. done.
  - intros H Hr. destruct (after_writes r0 log m'); cbn in *; [|done]. by apply IH.
Qed.

Lemma addEntry_step r o c d fs ct at_ acc :
  is_Some (rDocs r !! ixDocId d) → fs = default INil (rFields r !! ixDocId d) →
  (idOnly r = false → ct = default "" (rContent r !! ixDocId d) ∧ at_ = default INil (rAttri r !! ixDocId d)) →
  addEntry (idOnly r) o c d fs ct at_ acc = rankStep r o c acc d.
Proof.
  intros [b Hb] -> H. unfold addEntry, rankStep, mkEntry. destruct acc as [out n]; cbn. rewrite Hb.
  destruct (0 <? _); [|done]. destruct (idOnly r); [done|]. by destruct (H eq_refl) as [-> ->].
Qed.

(** * The invariant *)
Definition trok r0 (log : list (nat * rop)) o c (acc : list ScoredDoc * Z) (tr : ktrace) : Prop :=
  scored_at r0 log o c (ktDone tr) ([], 0) = Some acc ∧ rising (snd <$> ktDone tr) (ktFrom tr) (length log).
Definition pcok r0 (sh : krank) (p : kpc) : Prop :=
  let r := kRanker sh in let log := kLog sh in
  match p with
  | KLoop o c rest acc tr => trok r0 log o c acc tr
  | KHas o c d rest acc tr m => trok r0 log o c acc tr ∧ m = length log
  | KFields o c d rest acc tr m => trok r0 log o c acc tr ∧ m = length log ∧ is_Some (rDocs r !! ixDocId d)
  | KMiss o c d rest acc tr m => trok r0 log o c acc tr ∧ m = length log ∧ rDocs r !! ixDocId d = None
  | KContent o c d rest acc tr m fs => trok r0 log o c acc tr ∧ m = length log ∧ is_Some (rDocs r !! ixDocId d) ∧
      fs = default INil (rFields r !! ixDocId d)
  | KAttri o c d rest acc tr m fs ct => trok r0 log o c acc tr ∧ m = length log ∧ is_Some (rDocs r !! ixDocId d) ∧
      fs = default INil (rFields r !! ixDocId d) ∧ ct = default "" (rContent r !! ixDocId d)
  | KScore o c d rest acc tr m fs ct at_ => trok r0 log o c acc tr ∧ m = length log ∧ is_Some (rDocs r !! ixDocId d) ∧
      fs = default INil (rFields r !! ixDocId d) ∧
      (idOnly r = false → ct = default "" (rContent r !! ixDocId d) ∧ at_ = default INil (rAttri r !! ixDocId d))
  | _ => True
  end.

Definition curW (p : kpc) : list rop := match p with KLock o | KAssign o _ => [o] | _ => [] end.
Definition curR (p : kpc) : list kcall :=
  match p with
  | KLoop o c rest _ tr => [KRank ((fst <$> ktDone tr) ++ rest) o c]
  | KHas o c d rest _ tr _ | KFields o c d rest _ tr _ | KMiss o c d rest _ tr _ | KContent o c d rest _ tr _ _
  | KAttri o c d rest _ tr _ _ _ | KScore o c d rest _ tr _ _ _ _ => [KRank ((fst <$> ktDone tr) ++ d :: rest) o c]
  | _ => []
  end.

Section P.
  Context (sortBy : (ScoredDoc → ScoredDoc → bool) → list ScoredDoc → list ScoredDoc) (r0 : Ranker) (progs : list (list kcall)).

  Definition ansok (log : list (nat * rop)) (a : kanswer) : Prop :=
    rising (snd <$> kaDone a) (kaFrom a) (kaTo a) ∧ (kaTo a <= length log)%nat ∧
    ∃ acc, scored_at r0 log (kaOpts a) (kaCount a) (kaDone a) ([], 0) = Some acc ∧
           rankEnd sortBy (kaOpts a) (kaCount a) acc = Some (kaResult a).
  Definition wok (ths : list kthread) (sh : krank) : Prop :=
    match kWriter sh with
    | None => rrun (snd <$> kLog sh) r0 = Some (kRanker sh)
    | Some t => kReaders sh = [] ∧ ∃ th base, ths !! t = Some th ∧ rrun (snd <$> kLog sh) r0 = Some base ∧
        ((∃ o k, kPc th = KAssign o k ∧ (k <= 4)%nat ∧ foldlM (λ r j, assign o j r) (seq 0 k) base = Some (kRanker sh)) ∨ kPc th = KCrash)
    end.
  Definition progok (t : nat) (th : kthread) (sh : krank) (cs : list kcall) : Prop :=
    kPc th ≠ KCrash →
    written_by_thread t (kLog sh) ++ curW (kPc th) ++ writes_of (kCalls th) = writes_of cs ∧
    answered_by t (kAnswers sh) ++ curR (kPc th) ++ ranks_of (kCalls th) = ranks_of cs.

  Record kinv (s : kstate) : Prop := {
    ki_w : wok (kThreads s) (kShared s);
    ki_assign : ∀ t th, kThreads s !! t = Some th → kwrites (kPc th) = true → kWriter (kShared s) = Some t;
    ki_read : ∀ t, t ∈ kReaders (kShared s) ↔ ∃ th, kThreads s !! t = Some th ∧ kreads (kPc th) = true;
    ki_pc : ∀ t th, kThreads s !! t = Some th → pcok r0 (kShared s) (kPc th);
    ki_ans : ∀ a, a ∈ kAnswers (kShared s) → ansok (kLog (kShared s)) a;
    ki_len : length (kThreads s) = length progs;
    ki_prog : ∀ t th cs, kThreads s !! t = Some th → progs !! t = Some cs → progok t th (kShared s) cs }.

  Lemma trok_app log l o c acc tr : trok r0 log o c acc tr → trok r0 (log ++ l) o c acc tr.
  Proof.
    intros [H1 H2]. split.
    - rewrite scored_at_app; [done|]. eapply Forall_impl; [apply rising_bound, H2|]. cbn. lia.
    - eapply rising_mono; [exact H2|]. rewrite app_length. lia.
  Qed.
  Lemma ansok_app log l a : ansok log a → ansok (log ++ l) a.
  Proof.
    intros (H1 & H2 & acc & H3 & H4). split; [done|]. split; [rewrite app_length; lia|]. exists acc. split; [|done].
    rewrite scored_at_app; [done|]. eapply Forall_impl; [apply rising_bound, H1|]. cbn. lia.
  Qed.
  Lemma pcok_keep sh sh' p l : kLog sh' = kLog sh ++ l →
    (kreads p = true → kRanker sh' = kRanker sh ∧ l = []) → pcok r0 sh p → pcok r0 sh' p.
  Proof.
    intros Hl Hr Hp. destruct (kreads p) eqn:E.
    - destruct (Hr eq_refl) as [Hk ->]. rewrite app_nil_r in Hl. unfold pcok. rewrite Hl, Hk. exact Hp.
    - destruct p; try done. unfold pcok. rewrite Hl. by apply trok_app.
  Qed.

  Lemma kinv_upd s t th p' cs' sh' l :
    kinv s → kThreads s !! t = Some th →
    kLog sh' = kLog (kShared s) ++ l →
    ((kRanker sh' = kRanker (kShared s) ∧ l = []) ∨ kWriter (kShared s) = Some t) →
    wok (<[t := mkKThread cs' p']> (kThreads s)) sh' →
    pcok r0 sh' p' →
    (kwrites p' = true → kWriter sh' = Some t) →
    (∀ u, u ≠ t → kWriter (kShared s) = Some u → kWriter sh' = Some u) →
    (∀ u, u ≠ t → u ∈ kReaders sh' ↔ u ∈ kReaders (kShared s)) →
    (t ∈ kReaders sh' ↔ kreads p' = true) →
    (∀ a, a ∈ kAnswers sh' → a ∈ kAnswers (kShared s) ∨ ansok (kLog sh') a) →
    (∀ u, u ≠ t → written_by_thread u (kLog sh') = written_by_thread u (kLog (kShared s))) →
    (∀ u, u ≠ t → answered_by u (kAnswers sh') = answered_by u (kAnswers (kShared s))) →
    (∀ cs, progs !! t = Some cs → progok t th (kShared s) cs → progok t (mkKThread cs' p') sh' cs) →
    kinv (mkKState (<[t := mkKThread cs' p']> (kThreads s)) sh').
  Proof.
    intros I Ht Hl Hr Hw Hp Hwr Hwo Hro Hrt Ha Hwb Hab Hpr. destruct I as [I1 I2 I3 I4 I5 I6 I7].
    assert (Hlt : (t < length (kThreads s))%nat) by (eapply lookup_lt_Some; exact Ht).
    split; cbn [kThreads kShared].
    - done.
    - intros u th' Hu Hk. destruct (decide (u = t)) as [->|Hne].
      + rewrite list_lookup_insert in Hu by done. injection Hu as <-. by apply Hwr.
      + rewrite list_lookup_insert_ne in Hu by done. apply Hwo; [done|]. by eapply I2.
    - intros u. destruct (decide (u = t)) as [->|Hne].
      + rewrite list_lookup_insert by done. rewrite Hrt. split; [intros H; by eexists|]. intros (th' & [= <-] & H). done.
      + rewrite list_lookup_insert_ne by done. rewrite Hro by done. apply I3.
    - intros u th' Hu. destruct (decide (u = t)) as [->|Hne].
      + rewrite list_lookup_insert in Hu by done. by injection Hu as <-.
      + rewrite list_lookup_insert_ne in Hu by done. eapply pcok_keep; [exact Hl| |by eapply I4].
        intros Hk. destruct Hr as [Hr|Hr]; [done|]. exfalso.
        assert (u ∈ kReaders (kShared s)) as Hin by (apply I3; by eexists).
        unfold wok in I1. rewrite Hr in I1. destruct I1 as [Hn _]. rewrite Hn in Hin. by apply elem_of_nil in Hin.
    - intros a Hin. destruct (Ha a Hin) as [H|H]; [|done]. rewrite Hl. apply ansok_app. by apply I5.
    - by rewrite insert_length.
    - intros u th' cs Hu Hcs. destruct (decide (u = t)) as [->|Hne].
      + rewrite list_lookup_insert in Hu by done. injection Hu as <-. apply Hpr; [done|]. by eapply I7.
      + rewrite list_lookup_insert_ne in Hu by done. unfold progok. rewrite Hwb, Hab by done. by eapply I7.
  Qed.

  Lemma written_snoc_ne u t o log : u ≠ t → written_by_thread u (log ++ [(t, o)]) = written_by_thread u log.
  Proof.
    intros H. unfold written_by_thread. rewrite filter_app, fmap_app. rewrite (filter_cons_False _ (t, o)) by (cbn; congruence).
    cbn. by rewrite app_nil_r.
  Qed.
  Lemma written_snoc_eq t o log : written_by_thread t (log ++ [(t, o)]) = written_by_thread t log ++ [o].
  Proof. unfold written_by_thread. rewrite filter_app, fmap_app. by rewrite (filter_cons_True _ (t, o)). Qed.
  Lemma answered_snoc_ne u a l : u ≠ kaThread a → answered_by u (l ++ [a]) = answered_by u l.
  Proof.
    intros H. unfold answered_by. rewrite filter_app, fmap_app. rewrite (filter_cons_False _ a) by congruence.
    cbn. by rewrite app_nil_r.
  Qed.
  Lemma answered_snoc_eq a l : answered_by (kaThread a) (l ++ [a]) = answered_by (kaThread a) l ++ [KRank (fst <$> kaDone a) (kaOpts a) (kaCount a)].
  Proof. unfold answered_by. rewrite filter_app, fmap_app. by rewrite (filter_cons_True _ a). Qed.

  (** A step that changes neither maps nor log nor lock nor answers *)
  Lemma kinv_quiet s t th p' cs' :
    kinv s → kThreads s !! t = Some th → pcok r0 (kShared s) p' →
    kwrites (kPc th) = false → kwrites p' = false → kPc th ≠ KCrash → kreads p' = kreads (kPc th) →
    (p' ≠ KCrash → curW p' ++ writes_of cs' = curW (kPc th) ++ writes_of (kCalls th) ∧
                   curR p' ++ ranks_of cs' = curR (kPc th) ++ ranks_of (kCalls th)) →
    kinv (mkKState (<[t := mkKThread cs' p']> (kThreads s)) (kShared s)).
  Proof.
    intros I Ht Hp Hw Hw' Hc Hr Hpr. assert (Hlt : (t < length (kThreads s))%nat) by (eapply lookup_lt_Some; exact Ht).
    apply (kinv_upd s t th p' cs' (kShared s) []); try done.
    - by rewrite app_nil_r.
    - by left.
    - pose proof (ki_w _ I) as W. unfold wok in *. destruct (kWriter (kShared s)) as [u|]; [|done].
      destruct W as (Hn & th' & base & Hu & Hb & H). split; [done|].
      assert (u ≠ t) as Hne.
      { intros ->. rewrite Ht in Hu. injection Hu as <-. destruct H as [(o & k & H & _)|H]; [by rewrite H in Hw|done]. }
      exists th', base. by rewrite list_lookup_insert_ne.
    - congruence.
    - rewrite Hr, (ki_read _ I t). split; [intros (th' & H1 & H2); rewrite Ht in H1; by injection H1 as <-|]. intros H. by exists th.
    - by left.
    - intros cs Hcs Hok Hcr. cbn [kPc kCalls] in *. destruct (Hpr Hcr) as [-> ->]. by apply Hok.
  Qed.

  (** A step that leaves the lock for reading *)
  Lemma kinv_release s t th o c rest acc' tr' :
    kinv s → kThreads s !! t = Some th → kreads (kPc th) = true → trok r0 (kLog (kShared s)) o c acc' tr' →
    curR (kPc th) = [KRank ((fst <$> ktDone tr') ++ rest) o c] →
    kinv (mkKState (<[t := mkKThread (kCalls th) (KLoop o c rest acc' tr')]> (kThreads s)) (kRelease t (kShared s))).
  Proof.
    intros I Ht Hr Htr Hcur. assert (Hlt : (t < length (kThreads s))%nat) by (eapply lookup_lt_Some; exact Ht).
    assert (t ∈ kReaders (kShared s)) as Hin by (apply (ki_read _ I); by eexists).
    assert (kWriter (kShared s) = None) as Hw.
    { pose proof (ki_w _ I) as W. unfold wok in W. destruct (kWriter (kShared s)); [|done]. destruct W as [W _].
      rewrite W in Hin. by apply elem_of_nil in Hin. }
    apply (kinv_upd s t th _ _ (kRelease t (kShared s)) []); try done; cbn [kRelease kLog kRanker kWriter kReaders kAnswers].
    - by rewrite app_nil_r.
    - by left.
    - pose proof (ki_w _ I) as W. unfold wok in *. cbn. by rewrite Hw in *.
    - intros u Hu. rewrite elem_of_list_filter. naive_solver.
    - rewrite elem_of_list_filter. cbn. naive_solver.
    - by left.
    - intros cs Hcs Hok _. cbn [kPc kCalls curW curR]. destruct (kPc th) eqn:E; try done; destruct Hok as [H1 H2]; rewrite ?E; try done;
        rewrite E in H1, H2; cbn [curW] in H1; rewrite Hcur in H2; split; done.
  Qed.

  Lemma reader_state s t th : kinv s → kThreads s !! t = Some th → kreads (kPc th) = true →
    after_writes r0 (kLog (kShared s)) (length (kLog (kShared s))) = Some (kRanker (kShared s)).
  Proof.
    intros I Ht Hr. rewrite after_writes_all. pose proof (ki_w _ I) as W. unfold wok in W. destruct (kWriter (kShared s)); [|done].
    assert (t ∈ kReaders (kShared s)) as Hin by (apply (ki_read _ I); by eexists).
    destruct W as [W _]. rewrite W in Hin. by apply elem_of_nil in Hin.
  Qed.

  Lemma trok_snoc r log o c acc tr d : trok r0 log o c acc tr → after_writes r0 log (length log) = Some r →
    trok r0 log o c (rankStep r o c acc d) (mkTrace (ktDone tr ++ [(d, length log)]) (ktFrom tr)).
  Proof.
    intros [H1 H2] Hr. split; cbn [ktDone ktFrom].
    - by apply scored_at_snoc.
    - rewrite fmap_app. by apply rising_snoc.
  Qed.

  Lemma kinv_step s t s' : kinv s → kdo sortBy t s = Some s' → kinv s'.
  Proof.
    intros I H. unfold kdo in H. destruct (kThreads s !! t) as [th|] eqn:Ht; cbn in H; [|done].
    assert (Hlt : (t < length (kThreads s))%nat) by (eapply lookup_lt_Some; exact Ht).
    pose proof (ki_pc _ I t th Ht) as Hp. pose proof (ki_w _ I) as W.
    assert (Hrd : kreads (kPc th) = true → after_writes r0 (kLog (kShared s)) (length (kLog (kShared s))) = Some (kRanker (kShared s))).
    { intros Hk. by eapply reader_state. }
    destruct (kPc th) as [|o|o k|o c rest acc tr|o c d rest acc tr m|o c d rest acc tr m|o c d rest acc tr m fs
      |o c d rest acc tr m fs ct|o c d rest acc tr m fs ct at_|o c d rest acc tr m|] eqn:E; cbn [kstep] in H.
    - destruct (kCalls th) as [|cl cs] eqn:Ec; [done|]. injection H as <-. destruct cl as [o|docs o c]; cbn [kenter];
        (eapply kinv_quiet; [exact I|exact Ht|..]); rewrite ?E, ?Ec; try done.
    - destruct (kWriter (kShared s)) eqn:Ew; [done|]. destruct (kReaders (kShared s)) eqn:Er; [|done]. cbn in H. injection H as <-.
      eapply (kinv_upd s t th _ _ _ []); [exact I|exact Ht|..]; cbn [kLog kRanker kWriter kReaders kAnswers]; try done.
      + by rewrite app_nil_r.
      + by left.
      + unfold wok in *. rewrite Ew in W. cbn. split; [done|]. exists (mkKThread (kCalls th) (KAssign o 0)), (kRanker (kShared s)).
        rewrite list_lookup_insert by done. split; [done|]. split; [done|]. left. exists o, 0%nat. cbn. split; [done|]. split; [lia|done].
      + intros u _. congruence.
      + intros u _. by rewrite Er.
      + cbn. split; intros Hx; [by apply elem_of_nil in Hx|done].
      + by left.
      + intros cs Hcs Hok _. unfold progok in Hok. rewrite E in Hok. by apply Hok.
    - pose proof (ki_assign _ I t th Ht) as Hw. rewrite E in Hw. specialize (Hw eq_refl).
      unfold wok in W. rewrite Hw in W. destruct W as (Hn & th' & base & Hu & Hb & [(o' & k' & E' & Hk & Hf)|E']); rewrite Ht in Hu; injection Hu as <-;
        rewrite E in E'; [injection E' as <- <-|done].
      destruct (decide (k < 4)%nat) as [Hk4|Hk4].
      + destruct (assign o k (kRanker (kShared s))) as [r|] eqn:Ea; cbn in H; injection H as <-.
        * eapply (kinv_upd s t th _ _ _ []); [exact I|exact Ht|..]; cbn [kLog kRanker kWriter kReaders kAnswers]; try done.
          -- by rewrite app_nil_r.
          -- by right.
          -- unfold wok. cbn. rewrite Hw. split; [done|]. exists (mkKThread (kCalls th) (KAssign o (S k))), base.
             rewrite list_lookup_insert by done. split; [done|]. split; [done|]. left. exists o, (S k). split; [done|]. split; [lia|].
             rewrite seq_S, foldlM_app, Hf. cbn. by rewrite Ea.
          -- rewrite Hn. cbn. split; intros Hx; [by apply elem_of_nil in Hx|done].
          -- by left.
          -- intros cs Hcs Hok _. unfold progok in Hok. rewrite E in Hok. by apply Hok.
        * eapply (kinv_upd s t th _ _ _ []); [exact I|exact Ht|..]; try done.
          -- by rewrite app_nil_r.
          -- by right.
          -- unfold wok. rewrite Hw. split; [done|]. exists (mkKThread (kCalls th) KCrash), base.
             rewrite list_lookup_insert by done. split; [done|]. split; [done|]. by right.
          -- rewrite Hn. cbn. split; intros Hx; [by apply elem_of_nil in Hx|done].
          -- by left.
      + cbn in H. injection H as <-. assert (k = 4%nat) as -> by lia. rewrite assign_whole in Hf.
        eapply (kinv_upd s t th _ _ _ [(t, o)]); [exact I|exact Ht|..]; cbn [kLog kRanker kWriter kReaders kAnswers]; try done.
        * by right.
        * unfold wok. cbn. rewrite fmap_app. unfold rrun. rewrite foldlM_app. unfold rrun in Hb. rewrite Hb. cbn. by rewrite Hf.
        * intros u Hu Hx. congruence.
        * rewrite Hn. cbn. split; intros Hx; [by apply elem_of_nil in Hx|done].
        * by left.
        * intros u Hu. by apply written_snoc_ne.
        * intros cs Hcs Hok _. unfold progok in Hok. rewrite E in Hok. destruct Hok as [H1 H2]; [done|]. cbn [kPc kCalls kLog kAnswers curW curR] in *.
          rewrite written_snoc_eq, <- app_assoc. done.
    - destruct rest as [|d rest].
      + destruct (rankEnd sortBy o c acc) as [res|] eqn:Ee; cbn in H; injection H as <-.
        * destruct Hp as [Hp1 Hp2].
          eapply (kinv_upd s t th _ _ _ []); [exact I|exact Ht|..]; cbn [kLog kRanker kWriter kReaders kAnswers]; try done.
          -- by rewrite app_nil_r.
          -- by left.
          -- unfold wok in *. cbn. destruct (kWriter (kShared s)) as [u|]; [|done].
             destruct W as (Hn & th' & base & Hu & Hb & H). split; [done|]. exists th', base.
             rewrite list_lookup_insert_ne; [done|]. intros ->. rewrite Ht in Hu. injection Hu as <-. rewrite E in H. naive_solver.
          -- cbn. split; [|done]. intros Hx. apply (ki_read _ I) in Hx as (th' & Hx & Hy). rewrite Ht in Hx. injection Hx as <-. by rewrite E in Hy.
          -- intros a [Ha|Ha]%elem_of_app; [by left|]. right. apply elem_of_list_singleton in Ha as ->.
             split; [done|]. split; [cbn; lia|]. by exists acc.
          -- intros u Hu. by apply answered_snoc_ne.
          -- intros cs Hcs Hok _. unfold progok in Hok. rewrite E in Hok. destruct Hok as [H1 H2]; [done|]. cbn [kPc kCalls kAnswers kLog] in *. split; [done|].
             rewrite (answered_snoc_eq (mkKAns t o c (ktDone tr) (ktFrom tr) (length (kLog (kShared s))) res)).
             cbn [kaThread kaDone kaOpts kaCount]. rewrite <- H2. cbn [curR]. rewrite app_nil_r, <- app_assoc. done.
        * eapply kinv_quiet; [exact I|exact Ht|..]; rewrite ?E; done.
      + destruct (kWriter (kShared s)) eqn:Ew; [done|]. cbn in H. injection H as <-.
        eapply (kinv_upd s t th _ _ _ []); [exact I|exact Ht|..]; cbn [kLog kRanker kWriter kReaders kAnswers]; try done.
        * by rewrite app_nil_r.
        * by left.
        * unfold wok in *. by rewrite Ew in W.
        * intros u _. congruence.
        * intros u Hu. rewrite elem_of_cons. naive_solver.
        * rewrite elem_of_cons. cbn. naive_solver.
        * by left.
        * intros cs Hcs Hok _. unfold progok in Hok. rewrite E in Hok. by apply Hok.
    - cbn in H. injection H as <-. destruct Hp as [Hp1 Hp2]. destruct (rDocs (kRanker (kShared s)) !! ixDocId d) eqn:Ed;
        (eapply kinv_quiet; [exact I|exact Ht|..]); rewrite ?E; try done; cbn; rewrite ?Ed; naive_solver.
    - cbn in H. injection H as <-. destruct Hp as (Hp1 & Hp2 & Hp3). destruct (idOnly (kRanker (kShared s))) eqn:Ed;
        (eapply kinv_quiet; [exact I|exact Ht|..]); rewrite ?E; try done; cbn; rewrite ?Ed; naive_solver.
    - cbn in H. injection H as <-. destruct Hp as (Hp1 & Hp2 & Hp3 & Hp4).
      eapply kinv_quiet; [exact I|exact Ht|..]; rewrite ?E; try done; cbn; naive_solver.
    - cbn in H. injection H as <-. destruct Hp as (Hp1 & Hp2 & Hp3 & Hp4 & Hp5).
      eapply kinv_quiet; [exact I|exact Ht|..]; rewrite ?E; try done; cbn; naive_solver.
    - cbn in H. injection H as <-. destruct Hp as (Hp1 & -> & Hp3 & Hp4 & Hp5).
      eapply kinv_release; [exact I|exact Ht|by rewrite E|..].
      + rewrite addEntry_step by done. apply trok_snoc; [done|]. by apply Hrd.
      + rewrite E. cbn. by rewrite fmap_app, <- app_assoc.
    - cbn in H. injection H as <-. destruct Hp as (Hp1 & -> & Hp3).
      eapply kinv_release; [exact I|exact Ht|by rewrite E|..].
      + pose proof (trok_snoc _ _ _ _ _ _ d Hp1 (Hrd eq_refl)) as Hx.
        assert (rankStep (kRanker (kShared s)) o c acc d = acc) as Hy.
        { unfold rankStep. destruct acc. by rewrite Hp3. }
        by rewrite Hy in Hx.
      + rewrite E. cbn. by rewrite fmap_app, <- app_assoc.
    - done.
  Qed.

  Lemma kinv_init : kinv (kInit r0 progs).
  Proof.
    split; cbn.
    - done.
    - intros t th Ht. apply list_lookup_fmap_inv in Ht as (cs & -> & _). done.
    - intros t. split; [intros Hx; by apply elem_of_nil in Hx|]. intros (th & Ht & Hr). apply list_lookup_fmap_inv in Ht as (cs & -> & _). done.
    - intros t th Ht. apply list_lookup_fmap_inv in Ht as (cs & -> & _). done.
    - intros a Hx. by apply elem_of_nil in Hx.
    - by rewrite fmap_length.
    - intros t th cs Ht Hcs. apply list_lookup_fmap_inv in Ht as (cs' & -> & H). rewrite Hcs in H. injection H as <-. done.
  Qed.

  Lemma kinv_reach s : krank_reach sortBy r0 progs s → kinv s.
  Proof.
    intros H. unfold krank_reach in H. remember (kInit r0 progs) as s0. assert (kinv s0) as I by (subst; apply kinv_init).
    clear Heqs0. induction H as [|x y z [t Hxy] _ IH]; [done|]. apply IH. by eapply kinv_step.
  Qed.

  (** * The theorems *)
  Lemma rank_writes_serial s : krank_reach sortBy r0 progs s → kWriter (kShared s) = None →
    rrun (snd <$> kLog (kShared s)) r0 = Some (kRanker (kShared s)).
  Proof. intros H Hw. pose proof (ki_w _ (kinv_reach s H)) as W. unfold wok in W. by rewrite Hw in W. Qed.

  Lemma rank_versions s m : krank_reach sortBy r0 progs s → is_Some (after_writes r0 (kLog (kShared s)) m).
  Proof.
    intros H. pose proof (ki_w _ (kinv_reach s H)) as W.
    assert (is_Some (rrun (snd <$> kLog (kShared s)) r0)) as Hs.
    { unfold wok in W. destruct (kWriter (kShared s)); [|by eexists]. destruct W as (_ & ? & base & _ & Hb & _). by exists base. }
    unfold after_writes. rewrite <- (take_drop m (kLog (kShared s))) in Hs. rewrite fmap_app in Hs. unfold rrun in *.
    rewrite foldlM_app in Hs. destruct (foldlM rstep (snd <$> take m _) r0); [by eexists|]. by destruct Hs.
  Qed.

  Lemma rank_exclusive s t u th uh : krank_reach sortBy r0 progs s →
    kThreads s !! t = Some th → kThreads s !! u = Some uh → t ≠ u → kwrites (kPc th) = true →
    kwrites (kPc uh) = false ∧ kreads (kPc uh) = false.
  Proof.
    intros H Ht Hu Hne Hw. pose proof (kinv_reach s H) as I. pose proof (ki_assign _ I _ _ Ht Hw) as Hwt. split.
    - destruct (kwrites (kPc uh)) eqn:E; [|done]. pose proof (ki_assign _ I _ _ Hu E). congruence.
    - destruct (kreads (kPc uh)) eqn:E; [|done]. exfalso.
      assert (u ∈ kReaders (kShared s)) as Hin by (apply (ki_read _ I); by eexists).
      pose proof (ki_w _ I) as W. unfold wok in W. rewrite Hwt in W. destruct W as [W _]. rewrite W in Hin. by apply elem_of_nil in Hin.
  Qed.

  Lemma rank_answers s a : krank_reach sortBy r0 progs s → a ∈ kAnswers (kShared s) → ansok (kLog (kShared s)) a.
  Proof. intros H. apply (ki_ans _ (kinv_reach s H)). Qed.

  Lemma scored_at_same log o c r m done : after_writes r0 log m = Some r → Forall (λ x, x = m) (snd <$> done) →
    ∀ acc, scored_at r0 log o c done acc = Some (foldl (rankStep r o c) acc (fst <$> done)).
  Proof.
    intros Hr. induction done as [|[d m'] done IH]; intros Hf acc; cbn in *; [done|]. inversion Hf; subst. rewrite Hr. cbn. by apply IH.
  Qed.

  Lemma rank_alone s a : krank_reach sortBy r0 progs s → a ∈ kAnswers (kShared s) → kaFrom a = kaTo a →
    ∃ r, after_writes r0 (kLog (kShared s)) (kaFrom a) = Some r ∧
      Rank sortBy r (fst <$> kaDone a) (kaOpts a) (kaCount a) = Some (kaResult a).
  Proof.
    intros H Ha Heq. destruct (rank_answers s a H Ha) as (Hr & Hl & acc & Hs & He).
    assert (Forall (λ x, x = kaFrom a) (snd <$> kaDone a)) as Hf.
    { eapply Forall_impl; [apply rising_bound, Hr|]. cbn. intros x. rewrite Heq. lia. }
    destruct (rank_versions s (kaFrom a) H) as [r Hw].
    exists r. split; [done|]. rewrite (scored_at_same _ _ _ r (kaFrom a)) in Hs by done. injection Hs as <-.
    unfold Rank, rankOut. unfold rankEnd in He. destruct (foldl _ _ _) as [out n]. exact He.
  Qed.

  Lemma rank_programs s t th cs : krank_reach sortBy r0 progs s → kThreads s !! t = Some th → progs !! t = Some cs →
    kPc th = KIdle → kCalls th = [] →
    written_by_thread t (kLog (kShared s)) = writes_of cs ∧ answered_by t (kAnswers (kShared s)) = ranks_of cs.
  Proof.
    intros H Ht Hcs Hp Hc. pose proof (ki_prog _ (kinv_reach s H) _ _ _ Ht Hcs) as Hk. unfold progok in Hk. rewrite Hp, Hc in Hk.
    destruct Hk as [H1 H2]; [done|]. cbn in *. by rewrite !app_nil_r in *.
  Qed.

  (** Someone can always go on. *)
  Lemma rank_progress s : krank_reach sortBy r0 progs s → ¬ kcrashed s → ¬ kfinished s → ∃ s', kconc sortBy s s'.
  Proof.
    intros H Hc Hf. pose proof (kinv_reach s H) as I.
    assert (Hrun : ∀ t th, kThreads s !! t = Some th → kwrites (kPc th) = true ∨ kreads (kPc th) = true → ∃ s', kconc sortBy s s').
    { intros t th Ht Hw. destruct (kdo sortBy t s) as [s'|] eqn:E; [by exists s', t|]. exfalso. unfold kdo in E. rewrite Ht in E. cbn in E.
      destruct (kPc th); try (by destruct Hw); cbn [kstep] in E; try done.
      destruct (decide _); [|done]. by destruct (assign _ _ _). }
    destruct (kWriter (kShared s)) as [t|] eqn:Ew.
    { pose proof (ki_w _ I) as W. unfold wok in W. rewrite Ew in W. destruct W as (_ & th & base & Ht & _ & [(o & k & E & _)|E]).
      - eapply Hrun; [exact Ht|]. left. by rewrite E.
      - exfalso. apply Hc. exists th. split; [by eapply elem_of_list_lookup_2|done]. }
    destruct (kReaders (kShared s)) as [|t rs] eqn:Er.
    2: { assert (t ∈ kReaders (kShared s)) as Hin by (rewrite Er; constructor). apply (ki_read _ I) in Hin as (th & Ht & Hr).
         eapply Hrun; [exact Ht|]. by right. }
    assert (∃ th, th ∈ kThreads s ∧ ¬ (kPc th = KIdle ∧ kCalls th = [])) as (th & Hin & Hn).
    { unfold kfinished in Hf. clear -Hf. destruct s as [ths sh]. cbn in *. induction ths as [|th ths IH].
      - exfalso. apply Hf. intros th Hx. by apply elem_of_nil in Hx.
      - destruct (kPc th) eqn:E; [destruct (kCalls th) eqn:Ec|..];
          try (exists th; split; [constructor|]; rewrite E, ?Ec; naive_solver).
        destruct IH as (th' & Hx & Hy); [|exists th'; split; [by constructor|done]].
        intros Hall. apply Hf. intros th' [->|Hx]%elem_of_cons; [done|by apply Hall]. }
    apply elem_of_list_lookup in Hin as [t Ht]. destruct (kdo sortBy t s) as [s'|] eqn:E; [by exists s', t|]. exfalso. unfold kdo in E. rewrite Ht in E. cbn in E.
    destruct (kPc th) as [| | |? ? [|]| | | | | | |] eqn:Ep; cbn [kstep] in E; try done.
    - destruct (kCalls th); [|done]. by apply Hn.
    - by rewrite Ew, Er in E.
    - destruct (decide _); [|done]. by destruct (assign _ _ _).
    - by destruct (rankEnd _ _ _ _).
    - by rewrite Ew in E.
    - apply Hc. exists th. split; [by eapply elem_of_list_lookup_2|done].
  Qed.

  (** * Each entry comes from one state *)
  Definition entry_of log (done : list (IndexedDoc * nat)) (o : RankOpts) (e : ScoredDoc) : Prop :=
    ∃ d m r, (d, m) ∈ done ∧ after_writes r0 log m = Some r ∧ sdDocId e = ixDocId d ∧ is_Some (rDocs r !! ixDocId d) ∧
      sdScores e = ScoringCriteria o d (default INil (rFields r !! ixDocId d)) ∧
      (idOnly r = false → sdFields e = default INil (rFields r !! ixDocId d) ∧
        sdContent e = default "" (rContent r !! ixDocId d) ∧ sdAttri e = default INil (rAttri r !! ixDocId d)).
  Lemma scored_entries log o c done : ∀ acc acc', scored_at r0 log o c done acc = Some acc' →
    ∀ e, e ∈ acc'.1 → e ∈ acc.1 ∨ entry_of log done o e.
  Proof.
    induction done as [|[d m] ds IH]; intros acc acc' H e He; cbn in H; [injection H as <-; by left|].
    destruct (after_writes r0 log m) as [r|] eqn:Er; cbn in H; [|done]. destruct (IH _ _ H e He) as [H1|H1].
    - unfold rankStep in H1. destruct acc as [out n]. destruct (rDocs r !! ixDocId d) eqn:Ed; [|by left].
      destruct (0 <? _); [|by left]. destruct c; cbn in *; [by left|]. apply elem_of_app in H1 as [H1|H1]; [by left|].
      apply elem_of_list_singleton in H1 as ->. right. exists d, m, r. split; [constructor|]. split; [done|].
      unfold mkEntry. destruct (idOnly r); cbn; rewrite Ed; (split; [done|]); (split; [by eexists|]); split; done.
    - right. destruct H1 as (d' & m' & r' & H1 & H2). exists d', m', r'. split; [by constructor|done].
  Qed.
  Lemma rank_entries s a : valid_sortBy sortBy → krank_reach sortBy r0 progs s → a ∈ kAnswers (kShared s) →
    ∀ e, e ∈ (kaResult a).1 → entry_of (kLog (kShared s)) (kaDone a) (kaOpts a) e.
  Proof.
    intros Hv H Ha e He. destruct (rank_answers s a H Ha) as (Hr & Hl & acc & Hs & Hd).
    destruct (scored_entries _ _ _ _ _ _ Hs e) as [Hx|Hx]; [|by apply elem_of_nil in Hx|done].
    unfold rankEnd in Hd. destruct (kaCount a); [by injection Hd as ->|].
    destruct (maxOutput _ _) as [i j]. unfold zslice in Hd. destruct (_ && _); [|done]. cbn in Hd. injection Hd as Hd. rewrite <- Hd in He. cbn in He.
    apply elem_of_list_lookup in He as [n He]. rewrite lookup_take_Some, lookup_drop in He. destruct He as [He _]. apply elem_of_list_lookup_2 in He.
    unfold sortScored in He. by rewrite (proj1 (Hv _ _)) in He.
  Qed.

  (** * Calls end *)
  Definition pcSteps (p : kpc) : nat :=
    match p with
    | KIdle | KCrash => 0
    | KLock _ => 6
    | KAssign _ k => 5 - k
    | KLoop _ _ rest _ _ => 1 + 6 * length rest
    | KHas _ _ _ rest _ _ _ => 6 + 6 * length rest
    | KFields _ _ _ rest _ _ _ => 5 + 6 * length rest
    | KContent _ _ _ rest _ _ _ _ => 4 + 6 * length rest
    | KAttri _ _ _ rest _ _ _ _ _ => 3 + 6 * length rest
    | KScore _ _ _ rest _ _ _ _ _ _ | KMiss _ _ _ rest _ _ _ => 2 + 6 * length rest
    end.
  Definition thSteps (th : kthread) : nat := pcSteps (kPc th) + sum_list_with kcall_steps (kCalls th).
  Lemma sum_insert {A} (f : A → nat) (l : list A) t x y : l !! t = Some x → (f y < f x)%nat →
    (sum_list_with f (<[t := y]> l) < sum_list_with f l)%nat.
  Proof.
    revert t. induction l as [|z l IH]; intros t Ht Hlt; [done|]. destruct t as [|t].
    - injection Ht as ->. cbn. lia.
    - change (<[S t := y]> (z :: l)) with (z :: <[t := y]> l). specialize (IH t Ht Hlt). cbn [sum_list_with]. lia.
  Qed.
  Lemma kdo_decreases s t s' : kinv s → kdo sortBy t s = Some s' →
    (sum_list_with thSteps (kThreads s') < sum_list_with thSteps (kThreads s))%nat.
  Proof.
    intros I H. unfold kdo in H. destruct (kThreads s !! t) as [th|] eqn:Ht; cbn in H; [|done].
    destruct (kPc th) as [|o|o k|o c rest acc tr|o c d rest acc tr m|o c d rest acc tr m|o c d rest acc tr m fs
      |o c d rest acc tr m fs ct|o c d rest acc tr m fs ct at_|o c d rest acc tr m|] eqn:E; cbn [kstep] in H.
    - destruct (kCalls th) as [|cl cs] eqn:Ec; [done|]. injection H as <-. apply (sum_insert _ _ _ th); [done|]. unfold thSteps. rewrite E, Ec.
      destruct cl; cbn; lia.
    - destruct (kWriter (kShared s)); [done|]. destruct (kReaders (kShared s)); [|done]. cbn in H. injection H as <-.
      apply (sum_insert _ _ _ th); [done|]. unfold thSteps. rewrite E. cbn. lia.
    - pose proof (ki_w _ I) as W. pose proof (ki_assign _ I t th Ht) as Hw. rewrite E in Hw. specialize (Hw eq_refl).
      unfold wok in W. rewrite Hw in W. destruct W as (_ & th' & base & Hu & _ & Hx). rewrite Ht in Hu. injection Hu as <-. rewrite E in Hx.
      destruct Hx as [(o' & k' & [= <- <-] & Hk & _)|]; [|done].
      destruct (decide (k < 4)%nat); [destruct (assign _ _ _)|]; cbn in H; injection H as <-;
        (apply (sum_insert _ _ _ th); [done|]); unfold thSteps; rewrite E; cbn [pcSteps kPc kCalls]; lia.
    - destruct rest as [|d rest].
      + destruct (rankEnd _ _ _ _); cbn in H; injection H as <-; (apply (sum_insert _ _ _ th); [done|]); unfold thSteps; rewrite E; cbn; lia.
      + destruct (kWriter (kShared s)); [done|]. cbn in H. injection H as <-. apply (sum_insert _ _ _ th); [done|]. unfold thSteps. rewrite E. cbn. lia.
    - cbn in H. injection H as <-. apply (sum_insert _ _ _ th); [done|]. unfold thSteps. rewrite E. destruct (rDocs _ !! _); cbn; lia.
    - cbn in H. injection H as <-. apply (sum_insert _ _ _ th); [done|]. unfold thSteps. rewrite E. destruct (idOnly _); cbn; lia.
    - cbn in H. injection H as <-. apply (sum_insert _ _ _ th); [done|]. unfold thSteps. rewrite E. cbn; lia.
    - cbn in H. injection H as <-. apply (sum_insert _ _ _ th); [done|]. unfold thSteps. rewrite E. cbn; lia.
    - cbn in H. injection H as <-. apply (sum_insert _ _ _ th); [done|]. unfold thSteps. rewrite E. cbn; lia.
    - cbn in H. injection H as <-. apply (sum_insert _ _ _ th); [done|]. unfold thSteps. rewrite E. cbn; lia.
    - done.
  Qed.
  Lemma ksched_reach ts : ∀ s, ksched sortBy ts (kInit r0 progs) = Some s → krank_reach sortBy r0 progs s.
  Proof.
    unfold krank_reach. generalize (kInit r0 progs). induction ts as [|t ts IH]; intros s0 s H; cbn in H.
    - injection H as <-. done.
    - destruct (kdo sortBy t s0) as [s1|] eqn:E; cbn in H; [|done]. eapply rtc_l; [by exists t|]. by apply IH.
  Qed.
  Lemma rank_bounded ts s : ksched sortBy ts (kInit r0 progs) = Some s → (length ts <= kprogram_steps progs)%nat.
  Proof.
    intros H. assert (∀ s0, kinv s0 → ksched sortBy ts s0 = Some s → (length ts <= sum_list_with thSteps (kThreads s0))%nat) as Hg.
    { clear H. induction ts as [|t ts IH]; intros s0 I H; cbn in *; [lia|].
      destruct (kdo sortBy t s0) as [s1|] eqn:E; cbn in H; [|done]. pose proof (kdo_decreases _ _ _ I E).
      specialize (IH s1 (kinv_step _ _ _ I E) H). lia. }
    specialize (Hg _ kinv_init H). etransitivity; [exact Hg|]. unfold kInit. cbn [kThreads]. unfold kprogram_steps. clear.
    induction progs as [|cs l IH]; [cbn; lia|]. rewrite fmap_cons. cbn [sum_list_with]. unfold thSteps at 1. cbn [kPc kCalls pcSteps]. lia.
  Qed.

  (** * No panics *)
  Lemma rankEnd_ok o c acc : kcall_ok (KRank [] o c) → is_Some (rankEnd sortBy o c acc).
  Proof.
    intros H. unfold rankEnd. destruct c; [by eexists|]. destruct H as [H|(H1 & H2 & H3)]; [done|].
    set (l := sortScored _ _ _). unfold maxOutput. rewrite !MinInt_min. pose proof (zlen_nonneg l).
    assert (int64 (OutputOffset o + MaxOutputs o) = OutputOffset o + MaxOutputs o) as -> by (apply int64_id; lia).
    destruct (Z.eqb_spec (MaxOutputs o) 0); cbn [negb];
    (destruct (zslice l _ _) eqn:E; [by eexists|apply zslice_None in E; lia]).
  Qed.
  Definition pc_ok (p : kpc) : Prop :=
    match p with KCrash => False | _ => Forall string_content (curW p) ∧ Forall kcall_ok (curR p) end.
  Lemma assign_ok o k r : string_content o → is_Some (assign o k r).
  Proof.
    intros H. destruct o as [id f c|id].
    - destruct k as [|[|[|[|k]]]]; cbn; try (by eexists); destruct (idOnly r); try (by eexists).
      + destruct c as [|x c]; [by eexists|]. destruct H as [s ->]. by eexists.
      + destruct c as [|x [|y c]]; by eexists.
    - destruct k as [|[|[|[|k]]]]; by eexists.
  Qed.
  Lemma rank_calm s : Forall (Forall kcall_ok) progs → krank_reach sortBy r0 progs s → ¬ kcrashed s.
  Proof.
    intros Hok H.
    assert (Forall (λ th, Forall kcall_ok (kCalls th) ∧ pc_ok (kPc th)) (kThreads s)) as Hall.
    { unfold krank_reach in H. revert s H. apply (rtc_ind_r (λ s, Forall (λ th, Forall kcall_ok (kCalls th) ∧ pc_ok (kPc th)) (kThreads s))).
      - cbn. apply Forall_fmap. eapply Forall_impl; [exact Hok|]. cbn. intros cs Hcs. split; [done|]. split; constructor.
      - intros y z _ [t Hd] Hy. unfold kdo in Hd. destruct (kThreads y !! t) as [th|] eqn:Ht; cbn in Hd; [|done].
        pose proof Hy as Hy'. rewrite Forall_lookup in Hy'. destruct (Hy' _ _ Ht) as [Hc Hp].
        assert (∀ th' sh, Forall kcall_ok (kCalls th') ∧ pc_ok (kPc th') → z = mkKState (<[t := th']> (kThreads y)) sh →
          Forall (λ th, Forall kcall_ok (kCalls th) ∧ pc_ok (kPc th)) (kThreads z)) as Hz.
        { intros th' sh Hth ->. cbn. by apply Forall_insert. }
        destruct (kPc th) as [|o|o k|o c rest acc tr|o c d rest acc tr m|o c d rest acc tr m|o c d rest acc tr m fs
          |o c d rest acc tr m fs ct|o c d rest acc tr m fs ct at_|o c d rest acc tr m|] eqn:E; cbn [kstep] in Hd.
        + destruct (kCalls th) as [|cl cs]; [done|]. injection Hd as <-. eapply Hz; [|done]. cbn [kCalls kPc]. apply Forall_cons in Hc as [Hc1 Hc2]. split; [done|].
          destruct cl as [o|docs o c]; (split; cbn [kenter curW curR]; [first [by apply Forall_singleton|constructor]|first [by apply Forall_singleton|constructor]]).
        + destruct (kWriter (kShared y)); [done|]. destruct (kReaders (kShared y)); [|done]. cbn in Hd. injection Hd as <-. eapply Hz; [|reflexivity]. split; [done|exact Hp].
        + destruct (decide _).
          * destruct Hp as [Hp _]. inversion Hp as [|? ? Hs _]; subst. destruct (assign_ok o k (kRanker (kShared y)) Hs) as [r Hr]. rewrite Hr in Hd.
            cbn in Hd. injection Hd as <-. eapply Hz; [|done]. split; [done|]. split; [by apply Forall_singleton|constructor].
          * cbn in Hd. injection Hd as <-. eapply Hz; [|done]. split; [done|]. split; constructor.
        + destruct rest as [|d rest].
          * destruct Hp as [_ Hp]. inversion Hp as [|? ? Hs _]; subst. destruct (rankEnd_ok o c acc Hs) as [r Hr]. rewrite Hr in Hd.
            cbn in Hd. injection Hd as <-. eapply Hz; [|done]. split; [done|]. split; constructor.
          * destruct (kWriter (kShared y)); [done|]. cbn in Hd. injection Hd as <-. eapply Hz; [|reflexivity]. split; [done|exact Hp].
        + cbn in Hd. injection Hd as <-. eapply Hz; [|done]. cbn. by destruct (rDocs _ !! _).
        + cbn in Hd. injection Hd as <-. eapply Hz; [|done]. cbn. by destruct (idOnly _).
        + cbn in Hd. injection Hd as <-. eapply Hz; [|reflexivity]. split; [done|exact Hp].
        + cbn in Hd. injection Hd as <-. eapply Hz; [|reflexivity]. split; [done|exact Hp].
        + cbn in Hd. injection Hd as <-. eapply Hz; [|done]. split; [done|]. destruct Hp as [_ Hp]. split; [constructor|].
          cbn [curR] in *. apply Forall_cons in Hp as [Hp _]. apply Forall_singleton. exact Hp.
        + cbn in Hd. injection Hd as <-. eapply Hz; [|done]. split; [done|]. destruct Hp as [_ Hp]. split; [constructor|].
          cbn [curR] in *. apply Forall_cons in Hp as [Hp _]. apply Forall_singleton. exact Hp.
        + done. }
    intros (th & Hin & Hc). rewrite Forall_forall in Hall. destruct (Hall _ Hin) as [_ Hp]. by rewrite Hc in Hp.
  Qed.
End P.
