(** Lock ownership, deadlocks, and ghosts in the lock-level model. *)
From Verif Require Import SpecLocks ProofIxThms.

Definition holdsAdd (p : pc) : bool :=
  match p with
  | AddPush _ _ | AddTabLock _ | AddScan _ _ _ | AddRemLock _ _ _ | AddRemPush _ _ _ | AddTake _ => true
  | RemLock _ _ (Some _) | RemTabLock _ _ (Some _) | RemMark _ _ (Some _) | RemTake _ (Some _) | RemSort _ (Some _)
  | RemDocsLock _ (Some _) | RemDocsRun _ (Some _) => true
  | _ => false
  end.
Definition holdsTab (p : pc) : bool :=
  match p with
  | AddScan _ _ _ | AddRemLock _ _ _ | AddRemPush _ _ _ | RemMark _ _ _ | RemDocsRun _ _ | AddDocsRun _ => true
  | _ => false
  end.
Definition holdsRem (p : pc) : bool :=
  match p with AddRemPush _ _ _ | RemTabLock _ _ _ | RemMark _ _ _ | RemTake _ _ => true | _ => false end.
Definition reads (p : pc) : bool := match p with LookRun _ => true | _ => false end.

Global Instance pc_Idle_dec (p : pc) : Decision (p = Idle).
Proof. destruct p; (by left) || (by right). Defined.

(** Which program counters goroutine [t] can have *)
Definition role (t : nat) (p : pc) : Prop :=
  match t with
  | 0%nat => match p with
    | RemLock id _ k => id = "0" ∧ k ≠ None
    | RemTake _ k | RemSort _ k | RemDocsLock _ k | RemDocsRun _ k => k ≠ None
    | RemTabLock _ _ _ | RemMark _ _ _ | LookLock _ | LookRun _ => False
    | _ => True end
  | 1%nat => match p with
    | Idle | Crash => True
    | RemLock _ _ k => k = None
    | RemTabLock id _ k => k = None ∧ id ≠ "0"
    | RemMark _ _ k | RemTake _ k | RemSort _ k | RemDocsLock _ k | RemDocsRun _ k => k = None
    | _ => False end
  | _ => match p with Idle | Crash | LookLock _ | LookRun _ => True | _ => False end
  end.
Definition callRole (t : nat) (c : tcall) : Prop :=
  match t with
  | 0%nat => match c with TAdd _ _ => True | _ => False end
  | 1%nat => match c with TRem _ _ => True | _ => False end
  | _ => match c with TLook _ => True | _ => False end
  end.

Definition isCrash (p : pc) : bool := match p with Crash => true | _ => false end.
Global Instance crashed_dec s : Decision (crashed s).
Proof.
  refine (cast_if (decide (Exists (λ th, isCrash (tPc th) = true) (cThreads s)))).
  - apply Exists_exists in e as (th & Hth & H). exists th. split; [done|]. by destruct (tPc th).
  - intros (th & Hth & H). apply n, Exists_exists. exists th. by rewrite H.
Defined.

Section Proof.
  Variable log2 : F → F.
  Variable sortDocs : list DocIndex → list DocIndex.
  Notation tstep := (tstep log2 sortDocs).
  Notation cstep := (cstep log2 sortDocs).
  Notation conc := (conc log2 sortDocs).

  Definition owner (holds : pc → bool) (l : option nat) (ths : list thread) : Prop :=
    ∀ t, l = Some t ↔ ∃ th, ths !! t = Some th ∧ holds (tPc th) = true.
  Record linv (s : cstate) : Prop := {
    li_add : owner holdsAdd (shAdd (cShard s)) (cThreads s);
    li_rem : owner holdsRem (shRem (cShard s)) (cThreads s);
    li_tab : owner holdsTab (shTab (cShard s)) (cThreads s);
    li_rd : ∀ t, t ∈ shReaders (cShard s) ↔ ∃ th, cThreads s !! t = Some th ∧ reads (tPc th) = true }.

  Lemma owner_keep holds l ths t th p cs :
    owner holds l ths → ths !! t = Some th → holds p = holds (tPc th) →
    owner holds l (<[t := mkThread cs p]> ths).
  Proof.
    intros Ho Ht Hp u. rewrite (Ho u). destruct (decide (u = t)) as [->|Hne].
    - rewrite list_lookup_insert by (by eapply lookup_lt_Some). split.
      + intros (th' & E & H'). rewrite Ht in E. injection E as <-. eexists. split; [done|]. cbn. by rewrite Hp.
      + intros (th' & E & H'). injection E as <-. exists th. split; [done|]. cbn in H'. by rewrite <- Hp.
    - by rewrite list_lookup_insert_ne.
  Qed.
  Lemma owner_acquire holds ths t th p cs :
    owner holds None ths → ths !! t = Some th → holds p = true →
    owner holds (Some t) (<[t := mkThread cs p]> ths).
  Proof.
    intros Ho Ht Hp u. destruct (decide (u = t)) as [->|Hne].
    - rewrite list_lookup_insert by (by eapply lookup_lt_Some). split; [eauto|done].
    - rewrite list_lookup_insert_ne by done. rewrite <- (Ho u). split; congruence.
  Qed.
  Lemma owner_release holds l ths t th p cs :
    owner holds l ths → ths !! t = Some th → holds (tPc th) = true → holds p = false →
    owner holds None (<[t := mkThread cs p]> ths).
  Proof.
    intros Ho Ht Hh Hp u. assert (l = Some t) as El by (apply Ho; eauto).
    split; [done|]. intros (th' & E & H'). destruct (decide (u = t)) as [->|Hne].
    - rewrite list_lookup_insert in E by (by eapply lookup_lt_Some). injection E as <-. cbn in H'. congruence.
    - rewrite list_lookup_insert_ne in E by done. assert (l = Some u) by (apply Ho; eauto). congruence.
  Qed.

  Definition effect (h h' : bool) (t : nat) (l l' : option nat) : Prop :=
    match h, h' with
    | false, true => l = None ∧ l' = Some t
    | true, false => l' = None
    | _, _ => l' = l
    end.
  Ltac tcases :=
    repeat match goal with
    | H : Some _ = Some _ |- _ => injection H as <- <-
    | H : None = Some _ |- _ => discriminate H
    | H : match ?x with _ => _ end = Some _ |- _ => destruct x eqn:?
    end.
  Lemma isFree_None l : isFree l = true → l = None.
  Proof. by destruct l. Qed.
  Lemma tabFree_spec s : tabFree s = true ↔ shTab s = None ∧ shReaders s = [].
  Proof. unfold tabFree. destruct (shTab s), (shReaders s); cbn; naive_solver. Qed.

  Lemma tstep_add t p s p' s' : tstep t p s = Some (p', s') →
    p' = Crash ∨ effect (holdsAdd p) (holdsAdd p') t (shAdd s) (shAdd s').
  Proof.
    intros H. destruct p; cbn [ModelLocks.tstep] in H; cbv zeta in H; tcases; try (by left); right; cbn;
      try (destruct (seqb _ _); cbn); try (destruct k; cbn); try (destruct (Lookup _ _ _ _ _ _ _); cbn); try done; eauto using isFree_None.
  Qed.
  Lemma tstep_rem t p s p' s' : tstep t p s = Some (p', s') →
    p' = Crash ∨ effect (holdsRem p) (holdsRem p') t (shRem s) (shRem s').
  Proof.
    intros H. destruct p; cbn [ModelLocks.tstep] in H; cbv zeta in H; tcases; try (by left); right; cbn;
      try (destruct (seqb _ _); cbn); try (destruct k; cbn); try (destruct (Lookup _ _ _ _ _ _ _); cbn); try done; eauto using isFree_None.
  Qed.
  Lemma tstep_tab t p s p' s' : tstep t p s = Some (p', s') →
    p' = Crash ∨ effect (holdsTab p) (holdsTab p') t (shTab s) (shTab s').
  Proof.
    intros H. destruct p; cbn [ModelLocks.tstep] in H; cbv zeta in H; tcases; try (by left); right; cbn;
      try (destruct (seqb _ _); cbn); try (destruct k; cbn); try (destruct (Lookup _ _ _ _ _ _ _); cbn); try done; try (split; [|done]; by apply tabFree_spec).
  Qed.
  (** Readers come only when nobody writes, writers only when nobody reads. *)
  Lemma tstep_rd t p s p' s' : tstep t p s = Some (p', s') → p' = Crash ∨
    match reads p, reads p' with
    | false, true => shReaders s' = t :: shReaders s
    | true, false => shReaders s' = filter (λ u, u ≠ t) (shReaders s)
    | _, _ => shReaders s' = shReaders s
    end.
  Proof.
    intros H. destruct p; cbn [ModelLocks.tstep] in H; cbv zeta in H; tcases; try (by left); right; cbn;
      try (destruct (seqb _ _); cbn); try (destruct k; cbn); try (destruct (Lookup _ _ _ _ _ _ _); cbn); try done.
  Qed.
  Lemma owner_effect holds l l' ths t th cs p :
    owner holds l ths → ths !! t = Some th → effect (holds (tPc th)) (holds p) t l l' →
    owner holds l' (<[t := mkThread cs p]> ths).
  Proof.
    intros Ho Ht He. destruct (holds (tPc th)) eqn:E1, (holds p) eqn:E2; cbn in He.
    - subst. eapply owner_keep; [done..|congruence].
    - subst. by eapply owner_release.
    - destruct He as [-> ->]. by eapply owner_acquire.
    - subst. eapply owner_keep; [done..|congruence].
  Qed.

  (** Cases of one step of the whole system *)
  Lemma cstep_inv t s s' : cstep t s = Some s' → ∃ th, cThreads s !! t = Some th ∧
    ((∃ c cs, tPc th = Idle ∧ tCalls th = c :: cs ∧ s' = mkCState (<[t := mkThread cs (enter c)]> (cThreads s)) (cShard s)) ∨
     (∃ p' sh, tPc th ≠ Idle ∧ tstep t (tPc th) (cShard s) = Some (p', sh) ∧
        s' = mkCState (<[t := mkThread (tCalls th) p']> (cThreads s)) sh)).
  Proof.
    unfold ModelLocks.cstep. destruct (cThreads s !! t) as [th|]; [|done]. rewrite bind_Some_eq. intros H. exists th. split; [done|].
    destruct (decide (tPc th = Idle)) as [E|E].
    - rewrite E in H. destruct (tCalls th) as [|c cs]; [done|]. injection H as <-. left. by exists c, cs.
    - right. assert ((tstep t (tPc th) (cShard s) ≫= λ '(p', sh),
        Some (mkCState (<[t := mkThread (tCalls th) p']> (cThreads s)) sh)) = Some s') as H'.
      { destruct (tPc th); done. }
      destruct (tstep t (tPc th) (cShard s)) as [[p' sh]|]; [|done]. rewrite bind_Some_eq in H'. injection H' as <-. by exists p', sh.
  Qed.

  Lemma crashed_step s s' : conc s s' → crashed s → crashed s'.
  Proof.
    intros [t H] (th & Hth & Hc). apply cstep_inv in H as (th' & Ht & H).
    apply elem_of_list_lookup in Hth as [u Hu]. destruct (decide (u = t)) as [->|Hne].
    - rewrite Hu in Ht. injection Ht as <-. destruct H as [(c & cs & E & _)|(p' & sh & _ & E & _)].
      + congruence.
      + rewrite Hc in E. done.
    - exists th. split; [|done]. apply elem_of_list_lookup. exists u.
      destruct H as [(c & cs & _ & _ & ->)|(p' & sh & _ & _ & ->)]; cbn; by rewrite list_lookup_insert_ne.
  Qed.
  Lemma crashed_insert t th ths sh cs : ths !! t = Some th → crashed (mkCState (<[t := mkThread cs Crash]> ths) sh).
  Proof.
    intros Ht. exists (mkThread cs Crash). split; [|done]. apply elem_of_list_lookup. exists t.
    cbn. by rewrite list_lookup_insert by (by eapply lookup_lt_Some).
  Qed.
  Lemma crashed_reach s s' : rtc conc s s' → crashed s → crashed s'.
  Proof. intros H Hc. induction H as [|s1 s2 s3 H12 _ IH]; [done|]. apply IH. by eapply crashed_step. Qed.

  Lemma linv_step s s' : conc s s' → linv s → crashed s' ∨ linv s'.
  Proof.
    intros [t H] [Ha Hr Ht Hd]. apply cstep_inv in H as (th & Hth & [(c & cs & E & _ & ->)|(p' & sh & _ & Hs & ->)]).
    - right. split; cbn.
      1-3: eapply owner_keep; [done..|]; rewrite E; by destruct c.
      intros u. rewrite (Hd u). destruct (decide (u = t)) as [->|Hne].
      + rewrite list_lookup_insert by (by eapply lookup_lt_Some). split.
        * intros (th' & E' & H'). rewrite Hth in E'. injection E' as <-. by rewrite E in H'.
        * intros (th' & E' & H'). injection E' as <-. by destruct c.
      + by rewrite list_lookup_insert_ne.
    - destruct (tstep_add _ _ _ _ _ Hs) as [->|H1]; [left; by eapply crashed_insert|].
      destruct (tstep_rem _ _ _ _ _ Hs) as [->|H2]; [left; by eapply crashed_insert|].
      destruct (tstep_tab _ _ _ _ _ Hs) as [->|H3]; [left; by eapply crashed_insert|].
      destruct (tstep_rd _ _ _ _ _ Hs) as [->|H4]; [left; by eapply crashed_insert|].
      right. split; cbn.
      1-3: by eapply owner_effect.
      intros u. destruct (decide (u = t)) as [->|Hne].
      + rewrite list_lookup_insert by (by eapply lookup_lt_Some).
        destruct (reads (tPc th)) eqn:E1, (reads p') eqn:E2; rewrite H4.
        * split; [eauto|]. intros _. apply Hd. eauto.
        * rewrite elem_of_list_filter. split; [naive_solver|]. intros (th' & E & E'). injection E as <-. cbn in E'. congruence.
        * rewrite elem_of_cons. split; [eauto|by left].
        * rewrite (Hd t). split; intros (th' & E & E').
          -- rewrite Hth in E. injection E as <-. congruence.
          -- injection E as <-. cbn in E'. congruence.
      + rewrite list_lookup_insert_ne by done. rewrite <- (Hd u).
        destruct (reads (tPc th)) eqn:E1, (reads p') eqn:E2; rewrite H4; [done| | |done].
        * rewrite elem_of_list_filter. naive_solver.
        * rewrite elem_of_cons. naive_solver.
  Qed.

  Lemma linv_start x stale adds rems looks : linv (shardStart x stale adds rems looks).
  Proof.
    assert (∀ t th, cThreads (shardStart x stale adds rems looks) !! t = Some th → tPc th = Idle) as Hi.
    { intros t th H. apply elem_of_list_lookup_2 in H. cbn in H. rewrite !elem_of_cons, elem_of_list_fmap in H.
      naive_solver. }
    split; cbn [shAdd shRem shTab shReaders cShard shardStart]; intros t.
    1-3: split; [done|]; intros (th & H & H'); by rewrite (Hi _ _ H) in H'.
    split; [by intros ?%elem_of_nil|]; intros (th & H & H'); by rewrite (Hi _ _ H) in H'.
  Qed.
  Lemma linv_reach s s' : rtc conc s s' → linv s → crashed s' ∨ linv s'.
  Proof.
    intros H. induction H as [|s1 s2 s3 H12 H23 IH]; [by right|]. intros Hl.
    destruct (linv_step _ _ H12 Hl) as [Hc|Hl2]; [left; by eapply crashed_reach|auto].
  Qed.

  (** Roles *)
  Definition rinv (s : cstate) : Prop :=
    ∀ t th, cThreads s !! t = Some th → role t (tPc th) ∧ Forall (callRole t) (tCalls th).
  Lemma tstep_role t p s p' s' : tstep t p s = Some (p', s') → role t p → role t p'.
  Proof.
    intros H Hr. destruct p; cbn [ModelLocks.tstep] in H; cbv zeta in H; tcases;
      destruct t as [|[|t]]; cbn in *; try done; try (destruct k; cbn in *; try done); try (by destruct Hr);
      try (destruct (Lookup _ _ _ _ _ _ _); by cbn).
    - destruct Hr as [-> _]. by cbn.
    - destruct (seqb docId "0") eqn:E; [done|]. split; [done|]. intros ->. by rewrite seqb_refl in E.
  Qed.
  Lemma rinv_step s s' : conc s s' → rinv s → rinv s'.
  Proof.
    intros [t H] Hi. apply cstep_inv in H as (th & Hth & H). destruct (Hi _ _ Hth) as [H1 H2].
    destruct H as [(c & cs & E & Ec & ->)|(p' & sh & _ & Hs & ->)]; intros u th' Hu; cbn in Hu; destruct (decide (u = t)) as [->|Hne];
      [rewrite list_lookup_insert in Hu by (by eapply lookup_lt_Some); injection Hu as <-|
       rewrite list_lookup_insert_ne in Hu by done; by apply Hi|
       rewrite list_lookup_insert in Hu by (by eapply lookup_lt_Some); injection Hu as <-|
       rewrite list_lookup_insert_ne in Hu by done; by apply Hi]; cbn [tPc tCalls].
    - rewrite Ec in H2. apply Forall_cons in H2 as [Hc H2]. split; [|done]. by destruct t as [|[|t]], c.
    - split; [|done]. by eapply tstep_role.
  Qed.
  Lemma rinv_start x stale adds rems looks : rinv (shardStart x stale adds rems looks).
  Proof.
    intros t th H. destruct t as [|[|t]].
    - injection H as <-. cbn. split; [done|]. apply Forall_fmap, Forall_true. done.
    - injection H as <-. cbn. split; [done|]. apply Forall_fmap, Forall_true. done.
    - change (((λ qs, mkThread (TLook <$> qs) Idle) <$> looks) !! t = Some th) in H.
      rewrite list_lookup_fmap in H. apply fmap_Some in H as (qs & _ & ->). cbn. split; [done|].
      apply Forall_fmap, Forall_true. done.
  Qed.
  Lemma rinv_reach s s' : rtc conc s s' → rinv s → rinv s'.
  Proof. intros H. induction H; eauto using rinv_step. Qed.

  (** What a stuck goroutine waits for *)
  Definition waiting (p : pc) : bool :=
    match p with
    | AddLock _ _ | AddTabLock _ | AddRemLock _ _ _ | RemLock _ _ _ | RemTabLock _ _ _ | RemDocsLock _ _
    | AddDocsLock _ | LookLock _ => true
    | _ => false end.
  Lemma tstep_None t p s : tstep t p s = None → p = Idle ∨ p = Crash ∨ waiting p = true.
  Proof.
    intros H. destruct p; cbn [ModelLocks.tstep] in H; cbv zeta in H; try (by left); try (by right; left); right; right; try done;
      repeat (case_match; try done).
  Qed.
  Lemma stuck_tstep s t th : stuck log2 sortDocs s → cThreads s !! t = Some th → tPc th ≠ Idle →
    tstep t (tPc th) (cShard s) = None.
  Proof.
    intros Hs Ht Hn. specialize (Hs t). unfold ModelLocks.cstep in Hs. rewrite Ht, bind_Some_eq in Hs.
    destruct (tstep t (tPc th) (cShard s)) as [[p' sh]|] eqn:E; [|done].
    exfalso. assert (Some (mkCState (<[t := mkThread (tCalls th) p']> (cThreads s)) sh) = None) as HH; [|done].
    rewrite <- Hs. destruct (tPc th) eqn:Ep; try done; rewrite E; by rewrite bind_Some_eq.
  Qed.
  Lemma stuck_idle s t th : stuck log2 sortDocs s → cThreads s !! t = Some th → tPc th = Idle → tCalls th = [].
  Proof.
    intros Hs Ht Hn. specialize (Hs t). unfold ModelLocks.cstep in Hs. rewrite Ht, bind_Some_eq, Hn in Hs.
    by destruct (tCalls th).
  Qed.

  Lemma stuck_shape s : linv s → stuck log2 sortDocs s → ¬ crashed s → ¬ finished s →
    ∃ t u tht thu, cThreads s !! t = Some tht ∧ cThreads s !! u = Some thu ∧
      (∃ f i pos, tPc tht = AddRemLock f i pos) ∧ (∃ id f k, tPc thu = RemTabLock id f k) ∧
      shTab (cShard s) = Some t ∧ shRem (cShard s) = Some u.
  Proof.
    intros [Ha Hr Ht Hd] Hs Hc Hf.
    assert (∀ t th, cThreads s !! t = Some th → tPc th = Idle ∨ waiting (tPc th) = true) as Hw.
    { intros t th Hth. destruct (decide (tPc th = Idle)) as [?|Hi]; [by left|].
      pose proof (stuck_tstep _ _ _ Hs Hth Hi) as HN. apply tstep_None in HN as [?|[HC|?]]; [by left| |by right].
      destruct Hc. exists th. split; [by eapply elem_of_list_lookup_2|done]. }
    assert (shReaders (cShard s) = []) as Hrd.
    { destruct (shReaders (cShard s)) as [|t l] eqn:E; [done|]. exfalso.
      destruct (proj1 (Hd t)) as (th & Hth & Hq); [left|].
      destruct (Hw _ _ Hth) as [E'|E']; destruct (tPc th); done. }
    destruct (shTab (cShard s)) as [t|] eqn:Et.
    - destruct (proj1 (Ht t)) as (th & Hth & Hh); [done|].
      destruct (Hw _ _ Hth) as [E'|E']; [by rewrite E' in Hh|].
      destruct (tPc th) as [ | | | | |f i pos| | | | | | | | | | | | | | ] eqn:Ep; try done.
      assert (tstep t (tPc th) (cShard s) = None) as HN by (apply stuck_tstep; [done..|by rewrite Ep]).
      rewrite Ep in HN. cbn in HN. destruct (shRem (cShard s)) as [u|] eqn:Eu; [|done]. clear HN.
      destruct (proj1 (Hr u)) as (thu & Hthu & Hhu); [done|].
      destruct (Hw _ _ Hthu) as [E2|E2]; [by rewrite E2 in Hhu|].
      exists t, u, th, thu. split; [done|]. split; [done|]. split; [eauto|]. split; [|done].
      destruct (tPc thu); try done. eauto.
    - exfalso. assert (tabFree (cShard s) = true) as Hfree by (by apply tabFree_spec).
      assert (∀ t th, cThreads s !! t = Some th →
        match tPc th with Idle | AddLock _ _ | RemLock _ _ _ | AddRemLock _ _ _ => True | _ => False end) as Hw2.
      { intros t th Hth. destruct (Hw _ _ Hth) as [->|E]; [done|].
        assert (tstep t (tPc th) (cShard s) = None) as HN by (apply stuck_tstep; [done..|by destruct (tPc th)]).
        destruct (tPc th); try done; cbn in HN; rewrite ?Hfree, ?Et in HN; done. }
      assert (∀ t th f i pos, cThreads s !! t = Some th → tPc th ≠ AddRemLock f i pos) as Hw3.
      { intros t th f i pos Hth Hp. assert (@None nat = Some t) as HH; [|done].
        apply Ht. exists th. by rewrite Hp. }
      assert (shRem (cShard s) = None) as Hrem.
      { destruct (shRem (cShard s)) as [u|] eqn:Eu; [|done]. exfalso.
        destruct (proj1 (Hr u)) as (th & Hth & Hh); [done|]. specialize (Hw2 _ _ Hth). by destruct (tPc th). }
      assert (∀ t th, cThreads s !! t = Some th →
        match tPc th with Idle | AddLock _ _ => True | _ => False end) as Hw4.
      { intros t th Hth. specialize (Hw2 _ _ Hth). destruct (tPc th) as [ | | | | |f i pos| |id f k| | | | | | | | | | | | ] eqn:Ep; try done.
        - by eapply Hw3.
        - assert (tstep t (tPc th) (cShard s) = None) as HN by (apply stuck_tstep; [done..|by rewrite Ep]).
          rewrite Ep in HN. cbn in HN. by rewrite Hrem in HN. }
      assert (shAdd (cShard s) = None) as Hadd.
      { destruct (shAdd (cShard s)) as [u|] eqn:Eu; [|done]. exfalso.
        destruct (proj1 (Ha u)) as (th & Hth & Hh); [done|]. specialize (Hw4 _ _ Hth). by destruct (tPc th). }
      apply Hf. intros th Hin. apply elem_of_list_lookup in Hin as [t Hth].
      assert (tPc th = Idle) as Hi.
      { specialize (Hw4 _ _ Hth). destruct (tPc th) eqn:Ep; try done.
        assert (tstep t (tPc th) (cShard s) = None) as HN by (apply stuck_tstep; [done..|by rewrite Ep]).
        rewrite Ep in HN. cbn in HN. by rewrite Hadd in HN. }
      split; [done|]. by eapply stuck_idle.
  Qed.

  Lemma C41_shape_lem x stale adds rems looks s :
    conc_reach log2 sortDocs (shardStart x stale adds rems looks) s → stuck log2 sortDocs s → ¬ finished s →
    crashed s ∨ lock_cycle s.
  Proof.
    intros Hr Hs Hf. destruct (linv_reach _ _ Hr) as [Hc|Hl]; [apply linv_start|by left|].
    pose proof (rinv_reach _ _ Hr (rinv_start _ _ _ _ _)) as Hro.
    destruct (decide (crashed s)) as [Hc|Hc]; [by left|].
    right. destruct (stuck_shape s) as (t & u & tht & thu & Ht & Hu & (f & i & pos & Ep) & (id & f' & k & Eq) & Htab & Hrem); try done.
    destruct (Hro _ _ Ht) as [R1 _]. destruct (Hro _ _ Hu) as [R2 _]. rewrite Ep in R1. rewrite Eq in R2.
    destruct t as [|[|t]]; try done. destruct u as [|[|u]]; try done. destruct R2 as [-> R2].
    unfold lock_cycle, pc_of. rewrite Ht, Hu. cbn. rewrite Ep, Eq. repeat split; eauto.
  Qed.
End Proof.
