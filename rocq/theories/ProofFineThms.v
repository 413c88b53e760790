(** Results about the pipeline with lock-level indexers. *)
From Verif Require Import SpecFine SpecIndexer SpecRank SpecRoute SpecPipe SpecLive SpecEnd ProofTopK ProofRoute ProofPipe ProofBlocks ProofFlush ProofFlushThms ProofIxThms ProofLocks ProofGhost ProofSeqEq ProofLive ProofFine ProofFineSim ProofRanker ProofDuring ProofEnd.

Lemma at_ease_dec sh : at_ease sh ∨ ¬ at_ease sh.
Proof.
  unfold at_ease. destruct (fsAdding sh); [right; naive_solver|]. destruct (fsRemoving sh); [right; naive_solver|].
  destruct (isIdle 0 (fsC sh)) eqn:E0; [|right; intros (_ & _ & H & _); apply isIdle_true in H; congruence].
  destruct (isIdle 1 (fsC sh)) eqn:E1; [|right; intros (_ & _ & _ & H); apply isIdle_true in H; congruence].
  apply isIdle_true in E0, E1. by left.
Qed.
Section Crash.
  Context (log2 : F → F) (sortDocs : list DocIndex → list DocIndex).
  Definition inScan (p : pc) (x : Indexer) : Prop :=
    match p with AddRemLock _ i _ | AddRemPush _ i _ => (i < length (addCache x))%nat | _ => True end.
  Lemma rest_crash t p s s' : tstep log2 sortDocs t p s = Some (Crash, s') → looking p = false → inScan p (ModelLocks.shIx s) →
    rest sortDocs p (ModelLocks.shIx s) (shArray s) = None.
  Proof.
    intros H Hl Hsc. destruct p; cbn [ModelLocks.tstep] in H; cbv zeta in H; try done;
      repeat match goal with
      | H : None = Some _ |- _ => discriminate H
      | H : Some _ = Some _ |- _ => discriminate H
      | H : match ?x with _ => _ end = Some _ |- _ => destruct x eqn:?
      end; try done; try (exfalso; destruct k; done); try (exfalso; destruct (seqb docId "0"); done); cbn [rest].
    - by rewrite AddDocToCache_rest, Heqo.
    - apply lookup_lt_Some in Heqo as Hlt.
      assert (length (addCache (ModelLocks.shIx s)) - i = S (length (addCache (ModelLocks.shIx s)) - S i))%nat as -> by lia.
      cbn [seq foldlM]. by rewrite Heqo0.
    - cbn in Hsc. assert (length (addCache (ModelLocks.shIx s)) - i = S (length (addCache (ModelLocks.shIx s)) - S i))%nat as -> by lia.
      cbn [seq foldlM]. by rewrite Heqo.
    - by rewrite RemoveDocToCache_mark, Heqo.
    - by rewrite Heqo.
    - unfold afterRem. by rewrite Heqo, bind_Some_eq, Heqo0.
    - unfold afterRem. by rewrite Heqo.
  Qed.
  Lemma inScan_tstep t p s p' s' : tstep log2 sortDocs t p s = Some (p', s') → inScan p (ModelLocks.shIx s) → inScan p' (ModelLocks.shIx s').
  Proof.
    intros H Hs. destruct p; cbn [ModelLocks.tstep] in H; cbv zeta in H; try done;
      repeat match goal with
      | H : None = Some _ |- _ => discriminate H
      | H : Some _ = Some _ |- _ => injection H as <- <-
      | H : match ?x with _ => _ end = Some _ |- _ => destruct x eqn:?
      end; try done; cbn [inScan]; try (by destruct k); try (by destruct (seqb docId "0")).
    - by eapply lookup_lt_Some.
    - by destruct (Lookup _ _ _ _ _ _ _).
  Qed.
End Crash.

Section Thms.
  Context (murmur : string → Z) (n : Z) (only reqsFirst : bool) (cap : chan → nat).
  Context (log2 : F → F) (sortDocs : list DocIndex → list DocIndex).
  Notation pst := (pstep murmur n only reqsFirst cap).
  Notation reachp nseg progs := (pipe_reach murmur n only reqsFirst cap nseg progs).
  Notation fdo := (fineDo murmur n only reqsFirst cap log2 sortDocs).
  Notation fineS := (fineStep murmur n only reqsFirst cap log2 sortDocs).
  Notation cstep := (cstep log2 sortDocs).
  Hypothesis Hn : 1 <= n < 2^32.
  Context (nseg : nat) (progs : list (list ecall)) (Hap : kept_apart progs).
  Context (x0 : Indexer) (stale : list string) (looks : nat → list (list query)).
  Notation reachf := (fine_reach murmur n only reqsFirst cap log2 sortDocs nseg progs x0 stale looks).
  Notation fInv := (fineInv murmur n only reqsFirst cap sortDocs nseg progs x0).
  Notation reach_inv := (fineInv_reach murmur n only reqsFirst cap log2 sortDocs Hn nseg progs Hap x0 stale looks).

  Lemma fine_pipe s : reachf s → reachp nseg progs (fPipe s).
  Proof. intros H. by destruct (reach_inv s H) as (? & _). Qed.
  Lemma fine_shards s : reachf s → length (fShards s) = Z.to_nat n.
  Proof. intros H. by destruct (reach_inv s H) as (_ & ? & _). Qed.

  Lemma fine_index s i sh : reachf s → fShards s !! i = Some sh → fsAdding sh = None → fsRemoving sh = None →
    at_ease sh ∧ run sortDocs (ixCalls (Z.of_nat i) (sLog (fPipe s))) x0 = Some (index_of sh).
  Proof.
    intros H Hi H1 H2. destruct (reach_inv s H) as (_ & _ & Hinv).
    destruct (Hinv _ _ Hi) as (_ & [Hx|(k & o & E1 & E2 & _)]); [done|]. destruct o; congruence.
  Qed.
  Lemma fine_one s i sh : reachf s → fShards s !! i = Some sh → fsAdding sh = None ∨ fsRemoving sh = None.
  Proof.
    intros H Hi. destruct (reach_inv s H) as (_ & _ & Hinv).
    destruct (Hinv _ _ Hi) as (_ & [((? & _) & _)|(k & o & E1 & E2 & _)]); [by left|]. destruct o; auto.
  Qed.
  Lemma fine_busy s i sh : reachf s → fShards s !! i = Some sh → ¬ at_ease sh → ∃ k o, calling (fPipe s) k (Z.of_nat i) o.
  Proof.
    intros H Hi Hne. destruct (reach_inv s H) as (_ & _ & Hinv).
    destruct (Hinv _ _ Hi) as (_ & [(? & _)|(k & o & _ & _ & _ & ? & _)]); [done|eauto].
  Qed.
  Lemma fine_quiescent s i sh : reachf s → quiescent (fPipe s) → fShards s !! i = Some sh → at_ease sh.
  Proof.
    intros H [_ Hq] Hi. destruct (at_ease_dec sh) as [|Hne]; [done|]. exfalso.
    destruct (fine_busy _ _ _ H Hi Hne) as (k & o & p & l & Hp & Ha).
    destruct (Forall_lookup_1 _ _ _ _ Hq Hp) as [E _]. by rewrite E in Ha.
  Qed.

  (** ** As the shards of the atomic model *)
  Lemma fine_engine s : reachf s → Forall at_ease (fShards s) →
    ∃ shards, engine_shards sortDocs x0 only n (fPipe s) shards ∧ ModelEngine.shIx <$> shards = index_of <$> fShards s.
  Proof.
    intros H HF. pose proof (fine_shards s H) as Hlen. pose proof (fine_pipe s H) as Hre.
    destruct (choice_list (fShards s) (λ i sh sd, ModelEngine.shIx sd = index_of sh ∧
      run sortDocs (ixCalls (Z.of_nat i) (sLog (fPipe s))) x0 = Some (ModelEngine.shIx sd) ∧
      rrun (rkCalls (Z.of_nat i) (sLog (fPipe s))) (RankerInit [only]) = Some (shRk sd))) as (shards & Hl & HS).
    { intros i sh Hi. pose proof (Forall_lookup_1 _ _ _ _ HF Hi) as (E1 & E2 & _).
      destruct (fine_index s i sh H Hi E1 E2) as [_ Hix].
      destruct (C27_lem only (rkCalls (Z.of_nat i) (sLog (fPipe s)))) as (rk & Hk & _).
      - destruct (log_rk murmur n only reqsFirst cap Hn nseg progs (fPipe s) (Z.of_nat i)) as [r Hr]; [done|apply lookup_lt_Some in Hi; lia|].
        assert (HE : Forall (engine_call only) (rkStream murmur n only (Z.of_nat i) (mjoin progs))) by apply rkStream_engine. rewrite <- Hr in HE. by apply Forall_app in HE as [? _].
      - exists (ModelEngine.mkShard (index_of sh) rk). done. }
    exists shards. split.
    - split; [unfold zlen; rewrite Hl, Hlen; lia|]. intros i sd Hi.
      destruct (lookup_lt_is_Some_2 (fShards s) i) as [sh Hsh]; [rewrite <- Hl; by eapply lookup_lt_Some|].
      by destruct (HS _ _ _ Hsh Hi) as (_ & ? & ?).
    - apply list_eq. intros i. rewrite !list_lookup_fmap. destruct (shards !! i) as [sd|] eqn:Hi.
      + destruct (lookup_lt_is_Some_2 (fShards s) i) as [sh Hsh]; [rewrite <- Hl; by eapply lookup_lt_Some|].
        rewrite Hsh. cbn. destruct (HS _ _ _ Hsh Hi) as (-> & _). done.
      + rewrite (proj2 (lookup_ge_None (fShards s) i)); [done|]. rewrite <- Hl. by apply lookup_ge_None.
  Qed.

  (** ** No deadlock *)
  Definition locksInv (s : fine) : Prop := ∀ i sh, fShards s !! i = Some sh → ProofLocks.linv (fsC sh) ∨ SpecLocks.crashed (fsC sh).
  Lemma start_linv o c th : cThreads c !! sideOf o = Some th → tPc th = Idle → ProofLocks.linv c → ProofLocks.linv (startCall o c).
  Proof.
    intros Hth Hid [Ha Hr Ht Hd]. split; cbn [startCall cThreads cShard].
    1-3: eapply owner_keep; [done..|]; rewrite Hid; by destruct o.
    intros u. rewrite (Hd u). destruct (decide (u = sideOf o)) as [->|Hne].
    - rewrite list_lookup_insert by (by eapply lookup_lt_Some). split.
      + intros (th' & E' & H'). rewrite Hth in E'. injection E' as <-. by rewrite Hid in H'.
      + intros (th' & E' & H'). injection E' as <-. by destruct o.
    - by rewrite list_lookup_insert_ne.
  Qed.
  Lemma start_crashed o c th : cThreads c !! sideOf o = Some th → tPc th = Idle → SpecLocks.crashed c → SpecLocks.crashed (startCall o c).
  Proof.
    intros Hth Hid (th' & Hin & Hc). apply elem_of_list_lookup in Hin as [u Hu].
    exists th'. split; [|done]. apply elem_of_list_lookup. exists u. cbn [startCall cThreads].
    rewrite list_lookup_insert_ne; [done|]. intros <-. rewrite Hth in Hu. injection Hu as <-. congruence.
  Qed.
  (** The three kinds of steps *)
  Lemma fine_cases m s s' : fdo m s = Some s' → ∀ i sh', fShards s' !! i = Some sh' →
    ∃ sh, fShards s !! i = Some sh ∧
      (fsC sh' = fsC sh ∨ (∃ t, cstep t (fsC sh) = Some (fsC sh')) ∨
       ∃ o, cThreads (fsC sh) !! sideOf o = Some (mkThread [] Idle) ∧ fsC sh' = startCall o (fsC sh)).
  Proof.
    intros H i sh' Hi. destruct m as [k|i0 t]; cbn [fineDo] in H.
    - destruct (sProcs (fPipe s) !! k) as [p|]; cbn [mbind option_bind] in H; [|done].
      assert (Hgen : (p' ← pst k (fPipe s); Some (mkFine p' (fShards s))) = Some s' → fShards s !! i = Some sh').
      { destruct (pst k (fPipe s)); cbn [mbind option_bind]; [|done]. intros E. by apply Some_inj_eq in E as <-. }
      destruct (pActs p) as [|[[| i0 o|]| | | | | |] ?]; try (exists sh'; split; [by apply Hgen|by left]).
      destruct (fShards s !! Z.to_nat i0) as [sh|] eqn:Hsh; cbn [mbind option_bind] in H; [|done].
      destruct (waiter o sh) as [k'|] eqn:Hw.
      + destruct (decide (k' = k)) as [->|]; [|done]. destruct (isIdle _ _); [|done].
        destruct (pst k (fPipe s)) as [p'|]; cbn [mbind option_bind] in H; [|done]. apply Some_inj_eq in H as <-. cbn [fShards] in Hi.
        apply list_insert_lookup in Hi as [(-> & -> & _)|[_ Hi]]; [exists sh; split; [done|left; by destruct o]|exists sh'; auto].
      + destruct (isIdle _ _) eqn:Hid; [|done]. apply isIdle_true in Hid. apply Some_inj_eq in H as <-. cbn [fShards] in Hi.
        apply list_insert_lookup in Hi as [(-> & -> & _)|[_ Hi]]; [|exists sh'; auto].
        exists sh. split; [done|]. right. right. exists o. split; [done|]. by destruct o.
    - destruct (fShards s !! i0) as [sh|] eqn:Hsh; cbn [mbind option_bind] in H; [|done].
      destruct (cstep t (fsC sh)) as [c|] eqn:Hc; cbn [mbind option_bind] in H; [|done]. apply Some_inj_eq in H as <-. cbn [fShards] in Hi.
      apply list_insert_lookup in Hi as [(-> & -> & _)|[_ Hi]]; [|exists sh'; auto]. exists sh. split; [done|]. right. left. by exists t.
  Qed.
  Lemma locksInv_reach s : reachf s → locksInv s.
  Proof.
    intros H. revert s H. apply (rtc_ind_r locksInv (fineInit n nseg progs x0 stale looks)).
    - intros i sh Hi. cbn [fShards fineInit] in Hi. rewrite list_lookup_fmap in Hi. apply fmap_Some in Hi as (j & _ & ->).
      left. cbn [fsC]. apply ProofLocks.linv_start.
    - intros s1 s2 _ [m H12] IH i sh' Hi. destruct (fine_cases _ _ _ H12 _ _ Hi) as (sh & Hsh & [E|[[t Ht]|(o & Ho & E)]]).
      + rewrite E. by apply (IH i).
      + destruct (IH _ _ Hsh) as [Hl|Hc].
        * destruct (ProofLocks.linv_step log2 sortDocs _ _ (ex_intro _ t Ht) Hl); auto.
        * right. eapply ProofLocks.crashed_step; [by exists t|done].
      + rewrite E. destruct (IH _ _ Hsh) as [Hl|Hc]; [left; by eapply start_linv|right; by eapply start_crashed].
  Qed.

  Lemma fine_calm_shard s i sh : reachf s → fShards s !! i = Some sh → ¬ SpecLocks.crashed (fsC sh) →
    (∀ t, cstep t (fsC sh) = None) → SpecLocks.finished (fsC sh).
  Proof.
    intros H Hi Hc Hst. destruct (locksInv_reach s H i sh Hi) as [Hl|]; [|done].
    assert (Hdec : SpecLocks.finished (fsC sh) ∨ ¬ SpecLocks.finished (fsC sh)).
    { unfold SpecLocks.finished. assert (D : ∀ ths : list thread, (∀ th, th ∈ ths → tPc th = Idle ∧ tCalls th = []) ∨ ¬ (∀ th, th ∈ ths → tPc th = Idle ∧ tCalls th = [])); [|apply D].
      intros ths. induction ths as [|th ths [IH|IH]]; [left; by intros ? ?%elem_of_nil| |right; intros Hx; apply IH; intros; apply Hx; by right].
      destruct (decide (tPc th = Idle)) as [E|E]; [|right; intros Hx; destruct (Hx th); [left|done]].
      destruct (tCalls th) eqn:E2; [|right; intros Hx; destruct (Hx th); [left|congruence]].
      left. intros th' [->|Hin]%elem_of_cons; [done|auto]. }
    destruct Hdec as [|Hnf]; [done|]. exfalso.
    destruct (ProofLocks.stuck_shape log2 sortDocs _ Hl Hst Hc Hnf) as (t & u & tht & thu & Ht & Hu & (f & i0 & pos & Et) & (id & f2 & k & Eu) & _).
    destruct (reach_inv s H) as (_ & _ & Hinv). destruct (Hinv _ _ Hi) as (Hr & Hcase).
    destruct (Hr _ _ Ht) as [R1 _]. destruct (Hr _ _ Hu) as [R2 _]. rewrite Et in R1. rewrite Eu in R2.
    assert (t = 0%nat) as -> by (by destruct t as [|[|t]]). assert (u = 1%nat) as -> by (by destruct u as [|[|u]]).
    destruct Hcase as [((_ & _ & Q0 & Q1) & _)|(k0 & o & _ & _ & Hq & _)].
    - rewrite Q0 in Ht. injection Ht as <-. done.
    - unfold quiet in Hq. destruct o; cbn in Hq.
      + rewrite Hq in Hu. injection Hu as <-. done.
      + rewrite Hq in Ht. injection Ht as <-. done.
  Qed.
  Lemma after_stuck ks s i : (∀ k, pst k s = None) → after pst ks s i = s.
  Proof. intros H. induction i as [|i IH]; [done|]. cbn [after]. rewrite IH. unfold turn. by rewrite H. Qed.
  Lemma fine_no_deadlock s : (∀ ch, (1 <= cap ch)%nat) → (1 <= nseg)%nat → reachf s → (∀ m, fdo m s = None) →
    (∀ sh, sh ∈ fShards s → ¬ SpecLocks.crashed (fsC sh)) →
    quiescent (fPipe s) ∧ ∀ sh, sh ∈ fShards s → at_ease sh ∧ SpecLocks.finished (fsC sh).
  Proof.
    intros Hcap Hseg H Hst Hcr.
    assert (Hfin : ∀ i sh, fShards s !! i = Some sh → SpecLocks.finished (fsC sh)).
    { intros i sh Hi. apply (fine_calm_shard s i); [done|done|apply Hcr; by eapply elem_of_list_lookup_2|].
      intros t. specialize (Hst (MLock i t)). cbn [fineDo] in Hst. rewrite Hi in Hst. cbn [mbind option_bind] in Hst. by destruct (cstep t (fsC sh)). }
    destruct (reach_inv s H) as (Hre & Hlen & Hinv).
    assert (Hno : ∀ k i o, ¬ calling (fPipe s) k i o).
    { intros k i o Hc. pose proof (calling_range murmur n only reqsFirst cap Hn _ _ _ _ _ _ Hre Hc) as Hi.
      destruct (lookup_lt_is_Some_2 (fShards s) (Z.to_nat i)) as [sh Hsh]; [lia|].
      pose proof (Hfin _ _ Hsh) as Hf. destruct (Hinv _ _ Hsh) as (Hr & Hcase). rewrite Z2Nat.id in Hcase by lia.
      assert (Hidle : ∀ k' o', calling (fPipe s) k' i o' → (waiter o' sh = None ∨ waiter o' sh = Some k') → isIdle (sideOf o') (fsC sh) = true → False).
      { intros k' o' Hc' Hw Hid. destruct (calling_step murmur n only reqsFirst cap _ _ _ _ Hc') as (s1 & Hs1 & _).
        destruct Hc' as (p & l & Hp & Ha). specialize (Hst (MProc k')). cbn [fineDo] in Hst. rewrite Hp in Hst. cbn [mbind option_bind] in Hst.
        rewrite Ha, Hsh in Hst. cbn [mbind option_bind] in Hst. rewrite Hid in Hst. destruct Hw as [Hw|Hw]; rewrite Hw in Hst; [done|].
        rewrite decide_True in Hst by done. by rewrite Hs1 in Hst. }
      destruct Hcase as [((E1 & E2 & Q0 & Q1) & _)|(k0 & o0 & E1 & E2 & _ & Hc0 & Hm)].
      - apply (Hidle k o Hc); [left; by destruct o|]. apply isIdle_true. by destruct o.
      - apply (Hidle k0 o0 Hc0); [right; by destruct o0|]. destruct Hm as (p & Hp & _). apply isIdle_true. rewrite Hp.
        destruct (Hf (mkThread [] p)) as [E _]; [by eapply elem_of_list_lookup_2|]. cbn in E. by rewrite E. }
    assert (Hps : ∀ k, pst k (fPipe s) = None).
    { intros k. specialize (Hst (MProc k)). cbn [fineDo] in Hst. destruct (pst k (fPipe s)) as [p'|] eqn:E; [|done]. exfalso.
      destruct (sProcs (fPipe s) !! k) as [p|] eqn:Hp; cbn [mbind option_bind] in Hst; [|unfold pstep in E; by rewrite Hp in E].
      destruct (pActs p) as [|[[| i o|]| | | | | |] l] eqn:Ea; try done. apply (Hno k i o). by exists p, l. }
    assert (Hq : quiescent (fPipe s)).
    { destruct (rest_lem murmur n only reqsFirst cap Hn Hcap nseg progs (fPipe s) (λ i, (i mod (length progs + nseg + 4 * Z.to_nat n))%nat) Hseg Hre) as [i Hi].
      - intros k Hk i. set (N := (length progs + nseg + 4 * Z.to_nat n)%nat) in *.
        exists (k + i * N)%nat. split; [nia|]. rewrite Nat.mod_add by lia. by apply Nat.mod_small.
      - by rewrite after_stuck in Hi. }
    split; [done|]. intros sh Hin. apply elem_of_list_lookup in Hin as [i Hi]. split; [by eapply fine_quiescent|by eapply Hfin].
  Qed.
End Thms.

(** * One client, phases kept apart *)
Section Phases.
  Context (murmur : string → Z) (n : Z) (only reqsFirst : bool) (cap : chan → nat).
  Context (log2 : F → F) (sortDocs : list DocIndex → list DocIndex).
  Hypothesis Hn : 1 <= n < 2^32.
  Context (nseg : nat) (phases : list (list ecall)) (HG : Forall good_phase phases) (HA : Forall apart phases).
  Context (x0 : Indexer) (stale : list string) (looks : nat → list (list query)).
  Notation cstep := (cstep log2 sortDocs).
  Notation fdo := (fineDo murmur n only reqsFirst cap log2 sortDocs).
  Notation reachf := (fine_reach murmur n only reqsFirst cap log2 sortDocs nseg [program phases] x0 stale looks).
  Lemma phases_apart : kept_apart [program phases].
  Proof. right. by exists phases. Qed.
  Notation reach_inv := (fineInv_reach murmur n only reqsFirst cap log2 sortDocs Hn nseg [program phases] phases_apart x0 stale looks).

  Lemma fine_returned s sh : reachf s → returned 0 (fPipe s) → sh ∈ fShards s → at_ease sh.
  Proof.
    intros H Hret [i Hi]%elem_of_list_lookup. destruct (at_ease_dec sh) as [|Hne]; [done|]. exfalso.
    destruct (fine_busy murmur n only reqsFirst cap log2 sortDocs Hn nseg [program phases] phases_apart x0 stale looks s i sh H Hi Hne) as (k & o & Hc).
    eapply (calling_unreturned murmur n only reqsFirst cap Hn nseg phases (fPipe s)); [done| |done|exact Hc].
    by destruct (reach_inv s H) as (? & _).
  Qed.
  Lemma fine_flush io s i sh : valid_sort sortDocs → Init io = Some x0 → reachf s → returned 0 (fPipe s) → fShards s !! i = Some sh →
    ∃ M, shows (index_of sh) M ∧ SpecIndexer.clean (index_of sh) M ∧ addCache (index_of sh) = [] ∧ removeCache (index_of sh) = [] ∧
      ∀ id, M !! id = version murmur n (Z.of_nat i) (program phases) id.
  Proof.
    intros Hs HI H Hret Hi. destruct (fine_returned s sh H Hret) as (E1 & E2 & _); [by eapply elem_of_list_lookup_2|].
    destruct (fine_index murmur n only reqsFirst cap log2 sortDocs Hn nseg [program phases] phases_apart x0 stale looks s i sh H Hi E1 E2) as [_ Hix].
    destruct (reach_inv s H) as (Hre & Hlen & _).
    destruct (C39_lem murmur n only reqsFirst cap Hn sortDocs io x0 nseg phases (fPipe s) (Z.of_nat i) Hs HI HG Hre Hret) as (ix & M & Hx & HM).
    - apply lookup_lt_Some in Hi. lia.
    - rewrite Hix in Hx. apply Some_inj_eq in Hx as <-. by exists M.
  Qed.

  (** No worker panics. *)
  Definition sound (s : fine) : Prop := ∀ i sh t th, fShards s !! i = Some sh → (t < 2)%nat → cThreads (fsC sh) !! t = Some th →
    tPc th ≠ Crash ∧ inScan (tPc th) (ModelLocks.shIx (cShard (fsC sh))).
  Lemma fine_sound io s : valid_sort sortDocs → Init io = Some x0 → reachf s → sound s.
  Proof.
    intros Hs HI H.
    assert (Hx : sound s ∧ reachf s); [|by destruct Hx].
    revert s H. apply (rtc_ind_r (λ s, sound s ∧ reachf s) (fineInit n nseg [program phases] x0 stale looks)).
    - split; [|apply rtc_refl]. intros i sh t th Hi Ht Hth. cbn [fShards fineInit] in Hi. rewrite list_lookup_fmap in Hi.
      apply fmap_Some in Hi as (j & _ & ->). destruct t as [|[|t]]; [..|lia]; injection Hth as <-; done.
    - intros s1 s2 _ [m H12] [IH Hr1]. split; [|eapply rtc_r; [exact Hr1|by exists m]].
      intros i sh' t th' Hi Ht Hth. destruct (fine_cases _ _ _ _ _ _ _ _ _ _ H12 _ _ Hi) as (sh & Hsh & Hcase).
      destruct (reach_inv s1 Hr1) as (Hre & Hlen & Hinv). destruct (Hinv _ _ Hsh) as (Hri & Hst).
      destruct Hcase as [E|[[u Hu]|(o & Ho & E)]].
      + rewrite E in *. by eapply IH.
      + (* a step of a goroutine *)
        assert (Hmid : ∀ a, (a < 2)%nat → ∀ tha, cThreads (fsC sh) !! a = Some tha → u = a →
          ∃ o, sideOf o = a ∧ is_Some (run sortDocs (ops_of s1 i ++ [o]) x0) ∧ midcall sortDocs a (run sortDocs (ops_of s1 i ++ [o]) x0) (fsC sh)).
        { intros a Ha tha Htha ->. destruct Hst as [((_ & _ & Q0 & Q1) & _)|(k & o & _ & _ & Hq & Hc & Hm)].
          - exfalso. destruct (quiet_step _ _ _ _ _ _ Hu Q0) as [N0 _]. destruct (quiet_step _ _ _ _ _ _ Hu Q1) as [N1 _]. lia.
          - assert (a = sideOf o) as ->.
            { destruct (quiet_step _ _ _ _ _ _ Hu Hq) as [Hne _]. pose proof (sideOf_lt o). destruct o; cbn in *; lia. }
            exists o. split; [done|]. split; [|done].
            destruct (calling_step murmur n only reqsFirst cap _ _ _ _ Hc) as (p1 & Hp1 & Hl1).
            assert (Hre1 : pipe_reach murmur n only reqsFirst cap nseg [program phases] p1) by (eapply rtc_r; [exact Hre|by exists k]).
            pose proof (C39_no_crash_lem murmur n only reqsFirst cap Hn sortDocs io x0 nseg phases p1 (Z.of_nat i) Hs HI HG Hre1) as Hsome.
            rewrite Hl1, ixCalls_app in Hsome. assert (E : ixCalls (Z.of_nat i) [EvIx (Z.of_nat i) o] = [o]) by (cbn; by rewrite Z.eqb_refl).
            rewrite E in Hsome. apply Hsome. apply lookup_lt_Some in Hsh. lia. }
        pose proof Hu as Hu0. apply cstep_inv in Hu as (th & Hth0 & Hu). destruct (decide (t = u)) as [->|Hne].
        * destruct (Hmid u Ht th Hth0 eq_refl) as (o & Eo & [R HR] & p & Hp & Hpc). rewrite Hth0 in Hp. apply Some_inj_eq in Hp as ->. cbn [tPc tCalls] in Hu.
          destruct (IH _ _ _ _ Hsh Ht Hth0) as [Hnc Hsc]. cbn [tPc] in Hnc, Hsc.
          destruct Hu as [(? & ? & _ & E & _)|(p' & shd & Hid & Hts & Efs)]; [done|].
          rewrite Efs in Hth. rewrite Efs. cbn [cThreads cShard] in *. rewrite list_lookup_insert in Hth by (by eapply lookup_lt_Some).
          apply Some_inj_eq in Hth as <-. cbn [tPc].
          destruct Hpc as [|[Hrest Hb]]; [done|]. split.
          -- intros ->. assert (Hlk : looking p = false).
             { destruct (Hri _ _ Hth0) as [Hro _]. cbn [tPc] in Hro. destruct u as [|[|u]]; [..|lia]; by destruct p. }
             rewrite (rest_crash _ _ _ _ _ _ Hts Hlk Hsc) in Hrest. congruence.
          -- by eapply inScan_tstep.
        * assert (Hth1 : cThreads (fsC sh) !! t = Some th').
          { destruct Hu as [(? & ? & _ & _ & Efs)|(p' & shd & _ & _ & Efs)]; rewrite Efs in Hth; cbn [cThreads] in Hth; by rewrite list_lookup_insert_ne in Hth. }
          destruct (IH _ _ _ _ Hsh Ht Hth1) as [Hnc Hsc]. split; [done|].
          destruct (decide (u < 2)%nat) as [Hu2|Hu2].
          -- destruct (Hmid u Hu2 th Hth0 eq_refl) as (o & Eo & _). destruct Hst as [((_ & _ & Q0 & Q1) & _)|(k & o1 & _ & _ & Hq & Hc & Hm)].
             ++ destruct t as [|[|t]]; [..|lia].
                ** rewrite Q0 in Hth1. by injection Hth1 as <-.
                ** rewrite Q1 in Hth1. by injection Hth1 as <-.
             ++ destruct (quiet_step _ _ _ _ _ _ Hu0 Hq) as [Hne1 _]. pose proof (sideOf_lt o1) as Hlt1.
                assert (t = 1 - sideOf o1)%nat as -> by (destruct o1; cbn in *; lia).
                unfold quiet in Hq. rewrite Hq in Hth1. by injection Hth1 as <-.
          -- destruct (search_same log2 sortDocs u _ _ Hri ltac:(lia) Hu0) as [E1 _]. by rewrite E1.
      + rewrite E in Hth. rewrite E. cbn [startCall cThreads cShard] in *. apply list_insert_lookup in Hth as [(_ & -> & _)|[_ Hth]].
        * by destruct o.
        * by eapply IH.
  Qed.
End Phases.
