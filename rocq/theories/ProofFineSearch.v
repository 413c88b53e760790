(** What searches see while calls are under way. *)
From Verif Require Import SpecFine SpecFineSearch SpecIndexer SpecRank SpecRoute SpecPipe SpecLive SpecEnd SpecProx SpecSearch SpecLogic SpecDuring
  ProofSearch ProofTable ProofIndexer ProofCache ProofHistory ProofLookup ProofSearchThms ProofLogic ProofLogicThms ProofTopK ProofRoute ProofPipe ProofBlocks
  ProofFlush ProofFlushThms ProofIxThms ProofLocks ProofGhost ProofSeqEq ProofLive ProofFine ProofFineSim ProofFineThms ProofRanker ProofDuring ProofEnd ProofFineSee.

Notation shIx := ModelLocks.shIx.
Section Ext.
  Context (log2 : F → F) (sortDocs : list DocIndex → list DocIndex).
  Lemma opts_tstep t p s p' s' : tstep log2 sortDocs t p s = Some (p', s') → initOptions (shIx s') = initOptions (shIx s).
  Proof.
    intros H. destruct p; cbn [ModelLocks.tstep] in H; cbv zeta in H;
      repeat match goal with
      | H : Some _ = Some _ |- _ => injection H as <- <-
      | H : None = Some _ |- _ => discriminate H
      | H : match ?x with _ => _ end = Some _ |- _ => destruct x eqn:?
      end; try done; cbn [ModelLocks.shIx shSetIx shSetAdd shSetRem shSetTab shSetReaders shAnswer].
    - by apply pushAdd_inv in Heqo as (-> & _).
    - by apply pushAdd_inv in Heqo as (-> & _).
    - apply scanStep_inv in Heqo0 as (d' & Hd & Hp & Hm & _). by rewrite (mk_opts _ _ Hm).
    - apply scanStep_inv in Heqo as (d' & Hd & Hp & Hm & _). cbn. by rewrite (mk_opts _ _ Hm).
    - apply markRemove_inv in Heqo as [E Hm]. cbn. by rewrite (mk_opts _ _ Hm).
    - by apply RemoveDocs_inv in Heqo as (-> & _).
    - by apply AddDocs_inv in Heqo as (-> & _).
  Qed.
  Lemma crash_tstep t p s s' : tstep log2 sortDocs t p s = Some (Crash, s') → looking p = false → s' = s.
  Proof.
    intros H Hl. destruct p; cbn [ModelLocks.tstep] in H; cbv zeta in H; try done;
      repeat match goal with
      | H : None = Some _ |- _ => discriminate H
      | H : Some _ = Some _ |- _ => discriminate H
      | H : match ?x with _ => _ end = Some _ |- _ => destruct x eqn:?
      end; try (by injection H as <-); try (exfalso; destruct k; done); exfalso; destruct (seqb docId "0"); done.
  Qed.
End Ext.

Definition touch (x : Indexer) (o : op) (id : string) : Prop := waits x id ∨ op_id o = Some id.
Definition glimpse (L0 D0 : docmap) (T : string → Prop) (t0 : F) (p : pc) (x : Indexer) (a : list string) : Prop :=
  match p with
  | Idle => True
  | Crash => ∃ live dying, Seen x live dying ∧ trimmed L0 D0 T live dying ∧ (live = L0 → D0 = ∅ → totalTokenLen x = t0)
  | _ => sees L0 D0 T t0 p x a
  end.
Lemma sees_glimpse L0 D0 T t0 p x a : p ≠ Idle → p ≠ Crash → sees L0 D0 T t0 p x a → glimpse L0 D0 T t0 p x a.
Proof. by destruct p. Qed.
Lemma glimpse_sees L0 D0 T t0 p x a : p ≠ Idle → p ≠ Crash → glimpse L0 D0 T t0 p x a → sees L0 D0 T t0 p x a.
Proof. by destruct p. Qed.
Lemma sees_seen L0 D0 T t0 p x a : sees L0 D0 T t0 p x a →
  ∃ live dying, Seen x live dying ∧ trimmed L0 D0 T live dying ∧ (live = L0 → D0 = ∅ → totalTokenLen x = t0).
Proof.
  intros (live & dying & p2 & HC & Ht & _). exists live, dying. split; [|done].
  destruct p; cbn [batch] in HC; first [by eapply core_seen|by eapply core_seen'].
Qed.
Lemma glimpse_seen L0 D0 T t0 p x a : p ≠ Idle → glimpse L0 D0 T t0 p x a →
  ∃ live dying, Seen x live dying ∧ trimmed L0 D0 T live dying ∧ (live = L0 → D0 = ∅ → totalTokenLen x = t0).
Proof. destruct p; try done; intros _; apply sees_seen. Qed.
Lemma enter_sees x L0 D0 o a : Inv x L0 D0 → sees L0 D0 (touch x o) (totalTokenLen x) (enter (callOf o)) x a.
Proof.
  intros HI. exists L0, D0, ∅. destruct o as [d f|id f]; cbn [callOf enter batch pcI].
  - split; [apply HI|]. split; [split; [split; [by left|by right]|done]|]. split; [intros e ->; by right|]. intros e He. left. apply elem_of_list_fmap. by exists e.
  - split; [apply HI|]. split; [split; [split; [by left|by right]|done]|]. right. split; [by right|done].
Qed.
Lemma seen_inv x live dying : Inv x live dying → Seen x live dying.
Proof. intros HI. eapply core_seen', HI. Qed.

(** The documents come from calls of [ops]. *)
Definition stems (ops : list op) (live dying : docmap) : Prop := ∀ id d, live !! id = Some d ∨ dying !! id = Some d → added d ops.

Section Search.
  Context (murmur : string → Z) (n : Z) (only reqsFirst : bool) (cap : chan → nat).
  Context (log2 : F → F) (sortDocs : list DocIndex → list DocIndex).
  Notation pst := (pstep murmur n only reqsFirst cap).
  Notation reachp nseg progs := (pipe_reach murmur n only reqsFirst cap nseg progs).
  Notation fdo := (fineDo murmur n only reqsFirst cap log2 sortDocs).
  Notation fineS := (fineStep murmur n only reqsFirst cap log2 sortDocs).
  Notation cstep := (cstep log2 sortDocs).
  Hypothesis Hn : 1 <= n < 2^32.
  Context (nseg : nat) (progs : list (list ecall)) (Hap : kept_apart progs).
  Context (io : IndexerOpts) (x0 : Indexer) (stale : list string) (looks : nat → list (list ModelLocks.query)).
  Context (Hv : valid_sort sortDocs) (HI : Init io = Some x0) (HG : Forall good_call (mjoin progs)).
  Notation reachf := (fine_reach murmur n only reqsFirst cap log2 sortDocs nseg progs x0 stale looks).
  Notation reach_inv := (fineInv_reach murmur n only reqsFirst cap log2 sortDocs Hn nseg progs Hap x0 stale looks).

  Lemma opts_good p i : reachp nseg progs p → 0 <= i < n → Forall good_op (ixCalls i (sLog p)).
  Proof.
    intros H Hi. destruct (log_ix murmur n only reqsFirst cap Hn nseg progs p i H Hi) as [r Hr].
    assert (Hf : Forall good_op (ixStream murmur n i (mjoin progs))) by (by apply ixStream_good).
    rewrite <- Hr in Hf. by apply Forall_app in Hf as [? _].
  Qed.
  Lemma ops_inv p i x : reachp nseg progs p → 0 <= i < n → run sortDocs (ixCalls i (sLog p)) x0 = Some x → ∃ L0 D0, Inv x L0 D0 ∧ stems (ixCalls i (sLog p)) L0 D0.
  Proof.
    intros H Hi Hr. destruct (ProofHistory.reach_inv sortDocs io (ixCalls i (sLog p)) x) as (L0 & D0 & HI0 & _ & Ha).
    - split; [done|]. split; [by apply opts_good|]. eauto.
    - exists L0, D0. split; [done|]. intros id d Hd. apply Ha. unfold allDocs. destruct Hd; eauto.
  Qed.

  Definition viewAt (s : fine) (i : nat) (sh : fshard) : Prop :=
    at_ease sh ∨ ∃ k o x L0 D0 p, waiter o sh = Some k ∧ calling (fPipe s) k (Z.of_nat i) o ∧
      run sortDocs (ops_of s i) x0 = Some x ∧ (Inv x L0 D0 ∧ stems (ops_of s i) L0 D0) ∧ cThreads (fsC sh) !! sideOf o = Some (mkThread [] p) ∧
      glimpse L0 D0 (touch x o) (totalTokenLen x) p (index_of sh) (shArray (cShard (fsC sh))).
  Definition view (s : fine) : Prop := ∀ i sh, fShards s !! i = Some sh → viewAt s i sh.

  Lemma view_pipe s p' i sh : (ixCalls (Z.of_nat i) (sLog p') = ixCalls (Z.of_nat i) (sLog (fPipe s))) →
    (∀ k o, calling (fPipe s) k (Z.of_nat i) o → waiter o sh = Some k → calling p' k (Z.of_nat i) o) →
    viewAt s i sh → ∀ shs, viewAt (mkFine p' shs) i sh.
  Proof.
    intros E Hc H shs. destruct H as [H|(k & o & x & L0 & D0 & p & H1 & H2 & H3)]; [by left|].
    right. exists k, o, x, L0, D0, p. split; [done|]. split; [auto|]. unfold ops_of in *. cbn [fPipe]. by rewrite E.
  Qed.
  Lemma view_lock s i sh t c : shInv sortDocs x0 s i sh → viewAt s i sh → cstep t (fsC sh) = Some c →
    ∀ shs, viewAt (mkFine (fPipe s) shs) i (setC c sh).
  Proof.
    intros Hs Hvw Hc shs. destruct Hs as [Hr Hs]. destruct Hvw as [He|(k & o & x & L0 & D0 & p & H1 & H2 & H3 & H4 & H5 & H6)].
    { left. by destruct (ease_step log2 sortDocs _ _ _ Hr He Hc) as (_ & ? & _). }
    destruct Hs as [[(E1 & E2 & _) _]|(k1 & o1 & E1 & E2 & Hq & Hc1 & Hm)]; [destruct o; cbn in H1; congruence|].
    assert (k1 = k) as ->. { destruct o, o1; cbn in H1; congruence. }
    destruct (calling_fun _ _ _ _ _ _ H2 Hc1) as [_ <-].
    right. exists k, o, x, L0, D0. unfold index_of, ops_of in *. cbn [setC fsC fPipe].
    destruct (decide (t = sideOf o)) as [->|Hne].
    - apply cstep_inv in Hc as (th & Hth & Hc). rewrite H5 in Hth. injection Hth as <-. cbn [tPc tCalls] in Hc.
      destruct Hc as [(? & ? & _ & E & _)|(p' & shd & Hid & Hts & ->)]; [done|]. cbn [cThreads cShard].
      exists p'. split; [by destruct o|]. split; [done|]. split; [done|]. split; [done|].
      rewrite list_lookup_insert by (by eapply lookup_lt_Some). split; [done|].
      assert (Hlk : looking p = false).
      { destruct (Hr _ _ H5) as [Hro _]. cbn [tPc] in Hro. destruct o; cbn in Hro; by destruct p. }
      assert (Hpc : p ≠ Crash) by (intros ->; done).
      assert (Hb : inBatch p = true → removeCache (shIx (cShard (fsC sh))) = []).
      { destruct Hm as (p1 & Hp1 & Hm). rewrite H5 in Hp1. injection Hp1 as <-. destruct Hm as [|[_ Hm]]; [done|done]. }
      apply glimpse_sees in H6; [|done..].
      destruct (decide (isCrash p' = true)) as [Hcr|Hcr].
      + assert (p' = Crash) as -> by (by destruct p'). rewrite (crash_tstep _ _ _ _ _ _ Hts Hlk). cbn [glimpse]. by eapply sees_seen.
      + destruct (decide (p' = Idle)) as [->|Hnid]; [done|].
        assert (p' ≠ Crash) by (intros ->; done). apply sees_glimpse; [done..|]. by eapply sees_tstep.
    - exists p. split; [by destruct o|]. split; [done|]. split; [done|]. split; [done|].
      destruct (quiet_step _ _ _ _ _ _ Hc Hq) as [Htu _].
      destruct (search_same log2 sortDocs t _ c Hr) as [E3 E4]; [|done|].
      { pose proof (sideOf_lt o). destruct o; cbn in *; lia. }
      rewrite E3, E4. split; [|done].
      apply cstep_inv in Hc as (th & Hth & [(? & ? & _ & _ & ->)|(p' & shd & _ & _ & ->)]); cbn [cThreads]; by rewrite list_lookup_insert_ne.
  Qed.
  Lemma view_step s s' : reachf s → fineS s s' → view s → view s'.
  Proof.
    intros Hrs [[k|i t] H] Hview; destruct (reach_inv s Hrs) as (Hre & Hlen & Hinv); cbn [fineDo] in H.
    - destruct (sProcs (fPipe s) !! k) as [p|] eqn:Hp; cbn [mbind option_bind] in H; [|done].
      assert (Hcase : (∃ i o l, pActs p = ADo (EvIx i o) :: l) ∨ (∀ i o l, pActs p ≠ ADo (EvIx i o) :: l)).
      { destruct (pActs p) as [|[[| |]| | | | | |] ?]; try (right; done). left. eauto. }
      destruct Hcase as [(i & o & l & Ha)|Hno].
      + rewrite Ha in H. assert (Hcall : calling (fPipe s) k i o) by (by exists p, l).
        pose proof (calling_range murmur n only reqsFirst cap Hn _ _ _ _ _ _ Hre Hcall) as Hi.
        destruct (fShards s !! Z.to_nat i) as [sh|] eqn:Hsh; cbn [mbind option_bind] in H; [|done].
        pose proof (Hinv _ _ Hsh) as [Hr Hs]. rewrite Z2Nat.id in Hs by lia.
        destruct (waiter o sh) as [k'|] eqn:Hw.
        * (* the call returns *)
          destruct (decide (k' = k)) as [->|]; [|done]. destruct (isIdle (sideOf o) (fsC sh)) eqn:Hid; [|done]. apply isIdle_true in Hid.
          destruct (pst k (fPipe s)) as [p'|] eqn:Hps; cbn [mbind option_bind] in H; [|done]. apply Some_inj_eq in H as <-.
          destruct (call_step murmur n only reqsFirst cap _ _ _ _ _ Hps Hcall) as [Hl Hoth].
          intros j sh' Hj. cbn [fShards] in Hj. apply list_insert_lookup in Hj as [(-> & -> & _)|[Hne Hj]].
          -- left. destruct Hs as [[(E1 & E2 & _) _]|(k1 & o1 & E1 & E2 & Hq & Hc1 & Hm)]; [destruct o; cbn in Hw; congruence|].
             assert (k1 = k) as ->. { destruct o, o1; cbn in Hw; congruence. }
             destruct (calling_fun _ _ _ _ _ _ Hcall Hc1) as [_ <-]. destruct o; cbn in *; repeat split; done.
          -- apply (view_pipe s p'); [| |by apply Hview].
             ++ rewrite Hl, ixCalls_app. cbn. destruct (Z.eqb_spec i (Z.of_nat j)) as [->|]; [lia|]. by rewrite app_nil_r.
             ++ intros k1 o1 Hc1 _. apply Hoth; [|done]. intros ->. destruct (calling_fun _ _ _ _ _ _ Hcall Hc1) as [-> _]. lia.
        * (* the call starts *)
          destruct (isIdle (sideOf o) (fsC sh)) eqn:Hid; [|done]. apply isIdle_true in Hid. apply Some_inj_eq in H as <-.
          intros j sh' Hj. cbn [fShards] in Hj. apply list_insert_lookup in Hj as [(-> & -> & _)|[Hne Hj]];
            [|by apply (view_pipe s (fPipe s)); [done|done|apply Hview]].
          destruct Hs as [[(E1 & E2 & E3 & E4) Hix]|(k1 & o1 & E1 & E2 & Hq & Hc1 & Hm)].
          -- right. unfold ops_of in *. rewrite Z2Nat.id in * by lia.
             destruct (ops_inv (fPipe s) i (index_of sh) Hre Hi Hix) as (L0 & D0 & Hx & Hst).
             assert (Hxx : fsC (setWaiter o (Some k) (setC (startCall o (fsC sh)) sh)) = startCall o (fsC sh)) by by destruct o.
             exists k, o, (index_of sh), L0, D0, (enter (callOf o)). split; [by destruct o|]. split; [done|]. cbn [fPipe].
             split; [done|]. split; [done|]. rewrite Hxx. unfold index_of at 3. rewrite Hxx. cbn [startCall cThreads cShard].
             rewrite list_lookup_insert by (by eapply lookup_lt_Some). split; [done|].
             apply sees_glimpse; [by destruct o..|]. by eapply enter_sees.
          -- exfalso. pose proof (one_side murmur n only reqsFirst cap Hn nseg progs _ Hap Hre _ _ _ _ _ Hcall Hc1) as Hsd.
             destruct o, o1; cbn in Hw, Hsd; congruence.
      + assert (Hst : ∃ p', pst k (fPipe s) = Some p' ∧ s' = mkFine p' (fShards s)).
        { destruct (pst k (fPipe s)) as [p'|] eqn:Hps.
          - exists p'. split; [done|]. destruct (pActs p) as [|[[| |]| | | | | |] ?] eqn:Ea; try (by apply Some_inj_eq in H). by destruct (Hno i o l).
          - destruct (pActs p) as [|[[| |]| | | | | |] ?] eqn:Ea; try done. by destruct (Hno i o l). }
        destruct Hst as (p' & Hps & ->). destruct (plain_step murmur n only reqsFirst cap _ _ _ _ Hps Hp Hno) as [H1 H2].
        intros i sh Hi. apply (view_pipe s p'); [done| |by apply Hview]. intros. by apply H2.
    - destruct (fShards s !! i) as [sh|] eqn:Hsh; cbn [mbind option_bind] in H; [|done].
      destruct (cstep t (fsC sh)) as [c|] eqn:Hc; cbn [mbind option_bind] in H; [|done]. apply Some_inj_eq in H as <-.
      intros j sh' Hj. cbn [fShards] in Hj. apply list_insert_lookup in Hj as [(-> & -> & _)|[Hne Hj]];
        [|by apply (view_pipe s (fPipe s)); [done|done|apply Hview]].
      by apply (view_lock s _ sh t); [apply Hinv|apply Hview|].
  Qed.
  Lemma view_reach s : reachf s → view s.
  Proof.
    intros H. assert (Hx : view s ∧ reachf s); [|by destruct Hx].
    revert s H. apply (rtc_ind_r (λ s, view s ∧ reachf s) (fineInit n nseg progs x0 stale looks)).
    - split; [|apply rtc_refl]. intros i sh Hi. cbn [fShards fineInit] in Hi. rewrite list_lookup_fmap in Hi. apply fmap_Some in Hi as (j & _ & ->). by left.
    - intros s1 s2 _ H12 [IH Hr1]. split; [by eapply view_step|]. eapply rtc_r; [exact Hr1|exact H12].
  Qed.
  Lemma opts_reach s i sh : reachf s → fShards s !! i = Some sh → initOptions (index_of sh) = initOptions x0.
  Proof.
    intros H. revert i sh. revert s H. apply (rtc_ind_r (λ s, ∀ i sh, fShards s !! i = Some sh → initOptions (index_of sh) = initOptions x0) (fineInit n nseg progs x0 stale looks)).
    - intros i sh Hi. cbn [fShards fineInit] in Hi. rewrite list_lookup_fmap in Hi. apply fmap_Some in Hi as (j & _ & ->). done.
    - intros s1 s2 _ [m H12] IH i sh' Hi. destruct (fine_cases _ _ _ _ _ _ _ _ _ _ H12 _ _ Hi) as (sh & Hsh & [E|[[t Ht]|(o & Ho & E)]]); unfold index_of.
      + rewrite E. by apply (IH i).
      + rewrite <- (IH _ _ Hsh). apply cstep_inv in Ht as (th & _ & [(? & ? & _ & _ & ->)|(p' & shd & _ & Hts & ->)]); [done|]. cbn [cShard]. by eapply opts_tstep.
      + rewrite E. by apply (IH i).
  Qed.

  (** * What the index of a shard shows *)
  Lemma shard_view s i sh : reachf s → fShards s !! i = Some sh →
    ∃ x L0 D0 live dying, run sortDocs (ops_of s i) x0 = Some x ∧ Inv x L0 D0 ∧
      (Seen (index_of sh) live dying ∧ ∃ p', reachp nseg progs p' ∧ stems (ixCalls (Z.of_nat i) (sLog p')) live dying ∧
         ((∃ k o, calling (fPipe s) k (Z.of_nat i) o ∧ trimmed L0 D0 (touch x o) live dying ∧
            (live = L0 → D0 = ∅ → totalTokenLen (index_of sh) = totalTokenLen x)) ∨
          (run sortDocs (ixCalls (Z.of_nat i) (sLog p')) x0 = Some (index_of sh) ∧ Inv (index_of sh) live dying))) ∧
      ((x = index_of sh ∧ live = L0 ∧ dying = D0) ∨ ∃ k o, calling (fPipe s) k (Z.of_nat i) o ∧ 
         ((isIdle (sideOf o) (fsC sh) = true ∧ step sortDocs x o = Some (index_of sh)) ∨
          (isIdle (sideOf o) (fsC sh) = false ∧ trimmed L0 D0 (touch x o) live dying))).
  Proof.
    intros H Hi. destruct (reach_inv s H) as (Hre & Hlen & Hinv). pose proof (lookup_lt_Some _ _ _ Hi) as Hlt.
    destruct (view_reach s H i sh Hi) as [(E1 & E2 & _)|(k & o & x & L0 & D0 & p & H1 & H2 & H3 & H4 & H5 & H6)].
    - destruct (fine_index murmur n only reqsFirst cap log2 sortDocs Hn nseg progs Hap x0 stale looks s i sh H Hi E1 E2) as [_ Hix].
      destruct (ops_inv (fPipe s) (Z.of_nat i) (index_of sh) Hre ltac:(lia) Hix) as (L0 & D0 & Hx & Hst).
      exists (index_of sh), L0, D0, L0, D0. split; [done|]. split; [done|]. split; [split; [by apply seen_inv|exists (fPipe s); auto]|]. by left.
    - destruct (decide (p = Idle)) as [->|Hne].
      + destruct (Hinv _ _ Hi) as (_ & [((E1 & E2 & _) & _)|(k1 & o1 & E1 & E2 & _ & Hc1 & Hm)]); [destruct o; cbn in H1; congruence|].
        assert (k1 = k) as ->. { destruct o, o1; cbn in H1; congruence. }
        destruct (calling_fun _ _ _ _ _ _ H2 Hc1) as [_ <-].
        destruct Hm as (p1 & Hp1 & Hm). rewrite H5 in Hp1. injection Hp1 as <-. destruct Hm as [|[Hm _]]; [done|]. cbn [rest] in Hm.
        assert (Hst : step sortDocs x o = Some (index_of sh)).
        { change (Some (index_of sh) = run sortDocs (ops_of s i ++ [o]) x0) in Hm. unfold run in *. rewrite foldlM_app, H3 in Hm. cbn [foldlM mbind option_bind] in Hm.
          destruct (step sortDocs x o); [|done]. by rewrite Hm. }
        destruct (calling_step murmur n only reqsFirst cap _ _ _ _ H2) as (s1 & Hs1 & Hl1).
        assert (Hre1 : reachp nseg progs s1) by (eapply rtc_r; [exact Hre|by exists k]).
        destruct (ops_inv s1 (Z.of_nat i) (index_of sh) Hre1 ltac:(lia)) as (L1 & D1 & HI1 & Hst1).
        { rewrite Hl1, ixCalls_app. assert (E : ixCalls (Z.of_nat i) [EvIx (Z.of_nat i) o] = [o]) by (cbn; by rewrite Z.eqb_refl). rewrite E. by symmetry. }
        exists x, L0, D0, L1, D1. split; [done|]. split; [apply H4|]. split.
        { split; [by apply seen_inv|]. exists s1. split; [done|]. split; [done|]. right. split; [|done]. rewrite Hl1, ixCalls_app. cbn. rewrite Z.eqb_refl. by symmetry. } right. exists k, o. split; [done|]. left.
        split; [by apply isIdle_true|done].
      + destruct (glimpse_seen _ _ _ _ _ _ _ Hne H6) as (live & dying & HS & Ht & Hto).
        exists x, L0, D0, live, dying. split; [done|]. split; [apply H4|]. split.
        { split; [done|]. exists (fPipe s). split; [done|]. split; [|left; eauto]. destruct H4 as [_ H4]. destruct Ht as [Ht1 Ht2].
          intros id d [Hd|Hd]; apply (H4 id); [left; destruct (Ht1 id) as [E|[E _]]; congruence|auto]. } right. exists k, o. split; [done|]. right.
        split; [|done]. destruct (isIdle (sideOf o) (fsC sh)) eqn:E; [|done]. apply isIdle_true in E. rewrite H5 in E. injection E as ->. done.
  Qed.
  Lemma index_between s i sh : reachf s → fShards s !! i = Some sh →
    ∃ x, run sortDocs (ixCalls (Z.of_nat i) (sLog (fPipe s))) x0 = Some x ∧
      (x = index_of sh ∨ ∃ k o, calling (fPipe s) k (Z.of_nat i) o ∧ (step sortDocs x o = Some (index_of sh) ∨ between x o (index_of sh))).
  Proof.
    intros H Hi. destruct (shard_view s i sh H Hi) as (x & L0 & D0 & live & dying & H1 & H2 & [H3 _] & H4). exists x. split; [done|].
    destruct H4 as [[-> _]|(k & o & Hc & [[_ Hs]|[_ Ht]])]; [by left|right; eauto|]. right. exists k, o. split; [done|]. right.
    exists L0, live. split; [eapply seen_shows, seen_inv, H2|]. split; [by eapply seen_shows|]. split.
    - intros id d Hd. destruct (proj1 Ht id) as [E|[E _]]; congruence.
    - intros id [d Hd] E. destruct (proj1 Ht id) as [E'|[_ ?]]; [congruence|done].
  Qed.

  (** * Searches *)
  Lemma search_answers s i sh q : reachf s → fShards s !! i = Some sh → plain_logic (qLogic q) →
    ∃ M, shows (index_of sh) M ∧
      answers_on log2 (index_of sh) M q (Lookup log2 (index_of sh) (qTokens q) (qLabels q) (qFilter q) (qCountOnly q) (qLogic q)).
  Proof.
    intros H Hi Hp. destruct (shard_view s i sh H Hi) as (x & L0 & D0 & live & dying & _ & _ & [HS _] & _). exists live. split; [by eapply seen_shows|].
    destruct (seen_plain log2 _ live dying (qTokens q) (qLabels q) (qFilter q) (qLogic q) HS Hp) as (hits & A1 & A2 & A3).
    exists hits. split; [done|]. split; [done|]. destruct A3 as [(B1 & B2 & B3 & B4)|(B1 & docs & B2 & B3 & B4)].
    - left. auto.
    - right. split; [done|]. exists docs. split; [by destruct (qCountOnly q)|done].
  Qed.
  Lemma look_safe s i sh q : reachf s → fShards s !! i = Some sh → safe_query io q →
    Lookup log2 (index_of sh) (qTokens q) (qLabels q) (qFilter q) (qCountOnly q) (qLogic q) ≠ None.
  Proof.
    intros H Hi [Hq1 Hq2] E. destruct (shard_view s i sh H Hi) as (x & L0 & D0 & live & dying & _ & _ & [HS _] & _).
    assert (Hty : IndexType (initOptions (index_of sh)) = IndexType io).
    { rewrite (opts_reach s i sh H Hi). clear -HI. unfold Init in HI. revert HI. cbv zeta. destruct (_ <? 0); [done|]. by intros [= <-]. }
    assert (Hlog : ∀ lg, qLogic q = Some lg → is_logic (qTokens q ++ qLabels q) lg → False).
    { intros lg El HL. rewrite El in E. destruct (seen_logic_crash log2 _ live dying _ _ _ _ _ HS HL E) as (E1 & E2 & E3 & E4 & k & id & Hk & _).
      rewrite (Hq2 lg El E1 E2 E3 E4) in Hk. by apply elem_of_nil in Hk. }
    assert (Hpl : ∀ lq, plain_logic lq → Lookup log2 (index_of sh) (qTokens q) (qLabels q) (qFilter q) (qCountOnly q) lq = None →
      IndexType io = LocsIndex ∧ qTokens q = []).
    { intros lq Hlq Hnone. destruct (seen_plain log2 _ live dying (qTokens q) (qLabels q) (qFilter q) lq HS Hlq) as (hits & _ & _ & [(B1 & B2 & _)|(_ & docs & B2 & B3 & _)]).
      - by rewrite Hty in B1.
      - destruct (qCountOnly q); congruence. }
    destruct (qLogic q) as [lg|] eqn:El.
    - destruct (nonempty (qTokens q ++ qLabels q) && (lMust lg || lShould lg || lNotIn lg) || (nonempty (eMust lg) || nonempty (eShould lg))) eqn:EB.
      + apply (Hlog lg eq_refl). by apply is_logic_b.
      + assert (HE : Lookup log2 (index_of sh) (qTokens q) (qLabels q) (qFilter q) (qCountOnly q) None = None).
        { rewrite <- E. apply orb_false_iff in EB as [E1 E2]. unfold Lookup. by rewrite E1, E2. }
        apply Hpl in HE as [Hty' Htk]; [|done]. destruct (Hq1 Hty') as [|(lg' & Hlg' & HL)]; [done|]. injection Hlg' as <-. by apply (Hlog lg).
    - apply Hpl in E as [Hty' Htk]; [|done]. destruct (Hq1 Hty') as [|(lg' & Hlg' & HL)]; done.
  Qed.

  (** * The answers given *)
  Lemma log_tstep t p s p' s' : tstep log2 sortDocs t p s = Some (p', s') → shLog s' = shLog s ∨
    ∃ q, p = LookRun q ∧ shLog s' = shLog s ++ [(q, Lookup log2 (shIx s) (qTokens q) (qLabels q) (qFilter q) (qCountOnly q) (qLogic q))].
  Proof.
    intros Ht. destruct p; cbn [ModelLocks.tstep] in Ht; cbv zeta in Ht;
      repeat match goal with
      | H : Some _ = Some _ |- _ => injection H as <- <-
      | H : None = Some _ |- _ => discriminate H
      | H : match ?x with _ => _ end = Some _ |- _ => destruct x eqn:?
      end; try (by left). right. by exists q.
  Qed.
  Lemma answers_reach s i sh q r : reachf s → fShards s !! i = Some sh → (q, r) ∈ shLog (cShard (fsC sh)) →
    ∃ s1 sh1, reachf s1 ∧ rtc fineS s1 s ∧ fShards s1 !! i = Some sh1 ∧
      r = Lookup log2 (index_of sh1) (qTokens q) (qLabels q) (qFilter q) (qCountOnly q) (qLogic q).
  Proof.
    intros H. revert i sh q r. revert s H.
    assert (Hgen : ∀ s, reachf s → reachf s ∧ ∀ i sh q r, fShards s !! i = Some sh → (q, r) ∈ shLog (cShard (fsC sh)) →
      ∃ s1 sh1, reachf s1 ∧ rtc fineS s1 s ∧ fShards s1 !! i = Some sh1 ∧
        r = Lookup log2 (index_of sh1) (qTokens q) (qLabels q) (qFilter q) (qCountOnly q) (qLogic q)); [|intros s H; by apply Hgen].
    apply (rtc_ind_r (λ s, reachf s ∧ ∀ i sh q r, fShards s !! i = Some sh → (q, r) ∈ shLog (cShard (fsC sh)) →
      ∃ s1 sh1, reachf s1 ∧ rtc fineS s1 s ∧ fShards s1 !! i = Some sh1 ∧
        r = Lookup log2 (index_of sh1) (qTokens q) (qLabels q) (qFilter q) (qCountOnly q) (qLogic q)) (fineInit n nseg progs x0 stale looks)).
    - split; [apply rtc_refl|]. intros i sh q r Hi Hin. cbn [fShards fineInit] in Hi. rewrite list_lookup_fmap in Hi. apply fmap_Some in Hi as (j & _ & ->).
      by apply elem_of_nil in Hin.
    - intros s1 s2 H01 H12 [Hr1 IH]. split; [eapply rtc_r; [exact Hr1|exact H12]|]. intros i sh' q r Hi Hin.
      assert (Hold : ∀ sh, fShards s1 !! i = Some sh → (q, r) ∈ shLog (cShard (fsC sh)) → ∃ s0 sh0, reachf s0 ∧ rtc fineS s0 s2 ∧ fShards s0 !! i = Some sh0 ∧
        r = Lookup log2 (index_of sh0) (qTokens q) (qLabels q) (qFilter q) (qCountOnly q) (qLogic q)).
      { intros sh Hsh Hq. destruct (IH i sh q r Hsh Hq) as (s0 & sh0 & A & B & C & D). exists s0, sh0. split; [done|]. split; [|done]. by eapply rtc_r. }
      destruct H12 as [m Hm]. destruct (fine_cases _ _ _ _ _ _ _ _ _ _ Hm _ _ Hi) as (sh & Hsh & [E|[[t Ht]|(o & Ho & E)]]).
      + rewrite E in Hin. by apply (Hold sh).
      + apply cstep_inv in Ht as (th & _ & [(? & ? & _ & _ & E)|(p' & shd & _ & Hts & E)]); rewrite E in Hin; cbn [cShard] in Hin; [by apply (Hold sh)|].
        destruct (log_tstep _ _ _ _ _ Hts) as [El|(q1 & _ & El)]; rewrite El in Hin; [by apply (Hold sh)|].
        apply elem_of_app in Hin as [Hin|Hin]; [by apply (Hold sh)|]. apply elem_of_list_singleton in Hin. injection Hin as -> ->.
        exists s1, sh. split; [done|]. split; [apply rtc_once; by exists m|]. done.
      + rewrite E in Hin. by apply (Hold sh).
  Qed.

  (** * No search panics *)
  Definition asks (i : nat) (c : cstate) : Prop := ∀ t th, cThreads c !! t = Some th →
    (∀ q, TLook q ∈ tCalls th → q ∈ mjoin (looks i)) ∧ (∀ q, tPc th = LookLock q ∨ tPc th = LookRun q → q ∈ mjoin (looks i)).
  Lemma asks_start i x st : asks i (shardStart x st [] [] (looks i)).
  Proof.
    intros t th Ht. destruct t as [|[|t]]; [injection Ht as <-; cbn; split; [by intros q ?%elem_of_nil|by intros q [|]]..|].
    cbn [shardStart cThreads] in Ht. change ((λ qs, mkThread (TLook <$> qs) Idle) <$> looks i !! t = Some th) in Ht || idtac.
    assert (Ht' : ((λ qs, mkThread (TLook <$> qs) Idle) <$> looks i) !! t = Some th) by exact Ht.
    rewrite list_lookup_fmap in Ht'. apply fmap_Some in Ht' as (qs & Hqs & ->). cbn [tCalls tPc]. split; [|by intros q [|]].
    intros q (q' & [= <-] & Hq)%elem_of_list_fmap. apply elem_of_list_join. exists qs. split; [done|]. by eapply elem_of_list_lookup_2.
  Qed.
  Lemma asks_step i t c c' : cstep t c = Some c' → asks i c → asks i c'.
  Proof.
    intros H Ha. apply cstep_inv in H as (th & Hth & H). destruct (Ha _ _ Hth) as [A1 A2].
    destruct H as [(cl & cs & Hid & Ecs & ->)|(p' & shd & Hid & Hts & ->)]; intros u thu Hu; cbn [cThreads] in Hu;
      (apply list_insert_lookup in Hu as [(-> & -> & _)|[_ Hu]]; [|by apply (Ha u)]); cbn [tCalls tPc].
    - rewrite Ecs in A1. split; [intros q Hq; apply A1; by right|]. intros q Hq. apply A1. destruct cl; cbn in Hq; destruct Hq; try done; simplify_eq; by left.
    - split; [done|]. intros q Hq. destruct (tPc th) eqn:Ep; cbn [ModelLocks.tstep] in Hts; cbv zeta in Hts;
      repeat match goal with
      | H : Some _ = Some _ |- _ => injection H as <- <-
      | H : None = Some _ |- _ => discriminate H
      | H : match ?x with _ => _ end = Some _ |- _ => destruct x eqn:?
      end; try (destruct Hq; done); try (destruct Hq, k; done); try (destruct Hq, (seqb docId "0"); done).
      + destruct Hq as [|Hq]; [done|]. injection Hq as <-. apply A2. by left.
      + destruct (Lookup _ _ _ _ _ _ _); destruct Hq; done.
  Qed.
  Lemma asks_startCall i o c : asks i c → asks i (startCall o c).
  Proof.
    intros Ha t th Ht. cbn [startCall cThreads] in Ht. apply list_insert_lookup in Ht as [(-> & -> & _)|[_ Ht]]; [|by apply (Ha t)].
    cbn [tCalls tPc]. split; [by intros q ?%elem_of_nil|]. intros q Hq. destruct o, Hq; done.
  Qed.
  Lemma safe_reach s : (∀ i q, (i < Z.to_nat n)%nat → q ∈ mjoin (looks i) → safe_query io q) → reachf s → ¬ search_crashed s.
  Proof.
    intros Hsafe H.
    assert (Hgen : reachf s ∧ ∀ i sh, fShards s !! i = Some sh → asks i (fsC sh) ∧ ∀ t th, (2 <= t)%nat → cThreads (fsC sh) !! t = Some th → tPc th ≠ Crash).
    { revert s H. apply (rtc_ind_r (λ s, reachf s ∧ ∀ i sh, fShards s !! i = Some sh → asks i (fsC sh) ∧ ∀ t th, (2 <= t)%nat → cThreads (fsC sh) !! t = Some th → tPc th ≠ Crash) (fineInit n nseg progs x0 stale looks)).
      - split; [apply rtc_refl|]. intros i sh Hi. cbn [fShards fineInit] in Hi. rewrite list_lookup_fmap in Hi. apply fmap_Some in Hi as (j & Hj & ->).
        apply lookup_seq in Hj as [-> _]. cbn [fsC]. split; [apply asks_start|]. intros t th Ht Hth.
        destruct t as [|[|t]]; [lia|lia|]. cbn [shardStart cThreads] in Hth.
        assert (Ht' : ((λ qs, mkThread (TLook <$> qs) Idle) <$> looks i) !! t = Some th) by exact Hth.
        rewrite list_lookup_fmap in Ht'. by apply fmap_Some in Ht' as (qs & Hqs & ->).
      - intros s1 s2 H01 H12 [Hr1 IH]. split; [eapply rtc_r; [exact Hr1|exact H12]|]. intros i sh' Hi.
        destruct H12 as [m Hm]. destruct (fine_cases _ _ _ _ _ _ _ _ _ _ Hm _ _ Hi) as (sh & Hsh & Hcase). destruct (IH i sh Hsh) as [Ha Hcr].
        destruct Hcase as [E|[[t Ht]|(o & Ho & E)]]; [by rewrite E| |].
        + split; [by eapply asks_step|]. intros u thu Hu Hthu Ecr.
          destruct (reach_inv s1 Hr1) as (_ & Hlen & Hinv). destruct (Hinv _ _ Hsh) as (Hri & _).
          apply cstep_inv in Ht as (th & Hth & [(cl & cs & _ & _ & E)|(p' & shd & _ & Hts & E)]); rewrite E in Hthu; cbn [cThreads] in Hthu;
            (apply list_insert_lookup in Hthu as [(-> & -> & _)|[_ Hthu]]; [|by apply (Hcr u thu)]); cbn [tPc] in Ecr; [by destruct cl|].
          subst p'. destruct (Hri _ _ Hth) as [Hro _]. destruct t as [|[|t]]; [lia|lia|].
          destruct (tPc th) eqn:Ep; try done; cbn [ModelLocks.tstep] in Hts; cbv zeta in Hts; [by destruct (isFree _)|].
          destruct (Lookup log2 _ _ _ _ _ _) eqn:El; [done|].
          apply (look_safe s1 i sh q Hr1 Hsh); [|exact El]. apply (Hsafe i); [rewrite <- Hlen; by eapply lookup_lt_Some|]. apply (proj2 (Ha _ _ Hth)). rewrite Ep. by right.
        + rewrite E. split; [by apply asks_startCall|]. intros t th Ht Hth. cbn [startCall cThreads] in Hth.
          apply list_insert_lookup in Hth as [(-> & -> & _)|[_ Hth]]; [pose proof (sideOf_lt o); lia|by apply (Hcr t)]. }
    destruct Hgen as [_ Hgen]. intros (i & sh & t & th & Hi & Ht & Hth & Ec). destruct (Hgen i sh Hi) as [_ Hx]. by apply (Hx t th).
  Qed.

  (** * Documents with one call do not disappear *)
  Lemma only_calls s i d f ct a fo o k : reachf s → (i < Z.to_nat n)%nat → calling (fPipe s) k (Z.of_nat i) o →
    only_call (mjoin progs) (DocId d) (EIndex d f ct a fo) →
    Forall good_op (ops_of s i ++ [o]) ∧
    (filter (touches (DocId d)) (ops_of s i ++ [o]) = [] ∨ ∃ d' f', filter (touches (DocId d)) (ops_of s i ++ [o]) = [OpAdd (Some d') f']).
  Proof.
    intros Hr Hi Hc Hoc. destruct (reach_inv s Hr) as (Hre & _).
    destruct (calling_step murmur n only reqsFirst cap _ _ _ _ Hc) as (s1 & Hs1 & Hl1).
    assert (Hre1 : reachp nseg progs s1) by (eapply rtc_r; [exact Hre|by exists k]).
    assert (E : ixCalls (Z.of_nat i) (sLog s1) = ops_of s i ++ [o]).
    { rewrite Hl1, ixCalls_app. unfold ops_of. f_equal. cbn. by rewrite Z.eqb_refl. }
    rewrite <- E. split; [apply opts_good; [done|lia]|].
    destruct (in_ix_only murmur n only reqsFirst cap Hn nseg progs s1 (Z.of_nat i) d f ct a fo Hre1 ltac:(lia) Hoc) as [?|(_ & _ & ?)]; [by left|right; eauto].
  Qed.
  Lemma only_untouched s i d f ct a fo o k x : reachf s → (i < Z.to_nat n)%nat → calling (fPipe s) k (Z.of_nat i) o →
    only_call (mjoin progs) (DocId d) (EIndex d f ct a fo) → run sortDocs (ops_of s i) x0 = Some x → HasDoc x (DocId d) = true →
    ¬ touch x o (DocId d).
  Proof.
    intros Hr Hi Hc Hoc Hx Hd Ht. destruct (only_calls s i d f ct a fo o k Hr Hi Hc Hoc) as [Hg Hf].
    apply Forall_app in Hg as [Hg _]. rewrite filter_app in Hf.
    assert (Hne : filter (touches (DocId d)) (ops_of s i) ≠ []).
    { intros E. destruct (untouched_gone sortDocs Hv (DocId d) (ops_of s i) io x0 x HI Hg) as [_ Hg']; [|done|congruence].
      apply Forall_forall. intros y Hy Hyt. assert (y ∈ filter (touches (DocId d)) (ops_of s i)) as Hff by by apply elem_of_list_filter.
      rewrite E in Hff. by apply elem_of_nil in Hff. }
    destruct Ht as [Ht|Ht].
    - assert (Hs : filter (touches (DocId d)) (ops_of s i) = [] ∨ ∃ d' f', filter (touches (DocId d)) (ops_of s i) = [OpAdd (Some d') f']).
      { destruct Hf as [Hf|(d' & f' & Hf)]; [by apply app_nil in Hf as [? _]; left|].
        destruct (filter (touches (DocId d)) (ops_of s i)) as [|y l]; [done|]. cbn in Hf. injection Hf as -> Hf. apply app_nil in Hf as [-> _]. right. eauto. }
      destruct (single_stage sortDocs Hv (DocId d) (ops_of s i) io x0 x HI Hg Hs Hx) as (_ & _ & _ & _ & Hst & _).
      apply occ_zero in Hst; [|done]. done.
    - rewrite filter_cons, decide_True in Hf by done.
      destruct (filter (touches (DocId d)) (ops_of s i)) as [|y l]; [done|]. destruct Hf as [Hf|(d' & f' & Hf)]; [done|].
      cbn in Hf. injection Hf as _ Hf. by destruct l.
  Qed.
  Lemma only_lock s i sh t c d f ct a fo : reachf s → fShards s !! i = Some sh → cstep t (fsC sh) = Some c →
    only_call (mjoin progs) (DocId d) (EIndex d f ct a fo) → HasDoc (index_of sh) (DocId d) = true → HasDoc (shIx (cShard c)) (DocId d) = true.
  Proof.
    intros Hr Hi Hc Hoc Hd. pose proof (lookup_lt_Some _ _ _ Hi) as Hlt. destruct (reach_inv s Hr) as (Hre & Hlen & Hinv).
    rewrite Hlen in Hlt.
    set (s2 := mkFine (fPipe s) (<[i := setC c sh]> (fShards s))).
    assert (Hr2 : reachf s2).
    { eapply rtc_r; [exact Hr|]. exists (MLock i t). cbn [fineDo]. rewrite Hi. cbn [mbind option_bind]. by rewrite Hc. }
    assert (Hi2 : fShards s2 !! i = Some (setC c sh)) by (cbn [s2 fShards]; rewrite list_lookup_insert; [done|lia]).
    destruct (shard_view s i sh Hr Hi) as (x & L0 & D0 & live & dying & H1 & H2 & [H3 _] & H4).
    destruct (shard_view s2 i _ Hr2 Hi2) as (x' & L1 & D1 & live' & dying' & H1' & H2' & [H3' _] & H4').
    change (ops_of s2 i) with (ops_of s i) in H1'. rewrite H1 in H1'. apply Some_inj_eq in H1' as <-.
    change (fPipe s2) with (fPipe s) in H4'. change (shIx (cShard c)) with (index_of (setC c sh)).
    assert (Hx : HasDoc x (DocId d) = true → HasDoc (index_of (setC c sh)) (DocId d) = true).
    { intros Hx. destruct H4' as [[-> _]|(k & o & Hcl & [[_ Hs]|[_ Ht]])]; [done| |].
      - destruct (only_calls s i d f ct a fo o k Hr Hlt Hcl Hoc) as [Hg Hf].
        apply (live_stays sortDocs Hv (DocId d) (ops_of s i) [o] io x0 x); try done.
        unfold run in *. rewrite foldlM_app, H1. cbn [foldlM mbind option_bind]. by rewrite Hs.
      - apply (seen_live _ _ _ H3'). destruct (proj1 Ht (DocId d)) as [E|[_ Hto]]; [|by edestruct only_untouched].
        rewrite E. apply (inv_hasdoc _ _ _ _ H2'). done. }
    destruct H4 as [[-> _]|(k & o & Hcl & [[Hid Hs]|[_ Ht]])]; [by apply Hx| |].
    - apply isIdle_true in Hid. destruct (quiet_step _ _ _ _ _ _ Hc Hid) as [Hto _].
      destruct (Hinv _ _ Hi) as (Hri & [((_ & _ & Q0 & Q1) & _)|(k1 & o1 & E1 & E2 & Hq & Hc1 & Hm)]).
      + destruct (quiet_step _ _ _ _ _ _ Hc Q0) as [N0 _]. destruct (quiet_step _ _ _ _ _ _ Hc Q1) as [N1 _].
        destruct (search_same log2 sortDocs t _ c Hri) as [E3 _]; [lia|done|]. unfold index_of in *. cbn [setC fsC]. by rewrite E3.
      + pose proof (one_side murmur n only reqsFirst cap Hn nseg progs _ Hap Hre _ _ _ _ _ Hcl Hc1) as Hsd.
        destruct (quiet_step _ _ _ _ _ _ Hc Hq) as [N1 _].
        destruct (search_same log2 sortDocs t _ c Hri) as [E3 _]; [destruct o, o1; cbn in *; try done; lia|done|]. unfold index_of in *. cbn [setC fsC]. by rewrite E3.
    - apply Hx. apply (inv_hasdoc _ _ _ _ H2). apply (seen_live _ _ _ H3) in Hd. destruct (proj1 Ht (DocId d)) as [E|[E _]]; [by rewrite <- E|].
      rewrite E in Hd. by destruct Hd.
  Qed.
  Lemma only_stays s s' i sh sh' d f ct a fo : reachf s → rtc fineS s s' → fShards s !! i = Some sh → fShards s' !! i = Some sh' →
    only_call (mjoin progs) (DocId d) (EIndex d f ct a fo) → HasDoc (index_of sh) (DocId d) = true → HasDoc (index_of sh') (DocId d) = true.
  Proof.
    intros Hr Hss Hi Hi' Hoc Hd. revert sh' Hi'.
    assert (Hgen : reachf s' ∧ ∀ sh', fShards s' !! i = Some sh' → HasDoc (index_of sh') (DocId d) = true); [|by apply Hgen].
    revert s' Hss. apply (rtc_ind_r (λ s', reachf s' ∧ ∀ sh', fShards s' !! i = Some sh' → HasDoc (index_of sh') (DocId d) = true) s).
    { split; [done|]. intros sh' Hi'. rewrite Hi in Hi'. by injection Hi' as <-. }
    intros s1 s2 H01 H12 [Hr1 IH]. split; [eapply rtc_r; [exact Hr1|exact H12]|]. intros sh' Hi'.
    destruct H12 as [m Hm]. destruct (fine_cases _ _ _ _ _ _ _ _ _ _ Hm _ _ Hi') as (sh1 & Hsh1 & Hcase). specialize (IH _ Hsh1).
    destruct Hcase as [E|[[t Ht]|(o & Ho & E)]]; [unfold index_of in *; by rewrite E| |unfold index_of in *; by rewrite E].
    by eapply only_lock.
  Qed.
End Search.
