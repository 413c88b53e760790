(** Kept apart, the lock-level indexers do what the atomic ones do. *)
From Verif Require Import SpecFine SpecIndexer SpecRoute SpecPipe SpecLive ProofTopK ProofRoute ProofPipe ProofBlocks ProofFlush ProofFlushThms ProofIxThms ProofLocks ProofGhost ProofSeqEq ProofLive ProofFine.

Lemma Some_inj_eq {A} (x y : A) : Some x = Some y → x = y.
Proof. congruence. Qed.
Lemma list_insert_lookup {A} (l : list A) i j x y : <[i := x]> l !! j = Some y →
  (j = i ∧ y = x ∧ (i < length l)%nat) ∨ (j ≠ i ∧ l !! j = Some y).
Proof.
  intros H. destruct (decide (j = i)) as [->|Hne].
  - left. destruct (decide (i < length l)%nat) as [Hl|Hl].
    + rewrite list_lookup_insert in H by done. injection H as <-. done.
    + rewrite list_insert_ge in H by lia. apply lookup_lt_Some in H. lia.
  - right. by rewrite list_lookup_insert_ne in H.
Qed.

Lemma isIdle_true t c : isIdle t c = true ↔ cThreads c !! t = Some (mkThread [] Idle).
Proof. unfold isIdle. destruct (cThreads c !! t) as [[[|? ?] []]|]; split; intros H; try done; discriminate H. Qed.

Section Sim.
  Context (murmur : string → Z) (n : Z) (only reqsFirst : bool) (cap : chan → nat).
  Context (log2 : F → F) (sortDocs : list DocIndex → list DocIndex).
  Notation pst := (pstep murmur n only reqsFirst cap).
  Notation reachp nseg progs := (pipe_reach murmur n only reqsFirst cap nseg progs).
  Notation fst_ := (fineDo murmur n only reqsFirst cap log2 sortDocs).
  Notation fineS := (fineStep murmur n only reqsFirst cap log2 sortDocs).
  Notation tstep := (tstep log2 sortDocs).
  Notation cstep := (cstep log2 sortDocs).
  Hypothesis Hn : 1 <= n < 2^32.
  Context (nseg : nat) (progs : list (list ecall)) (Hap : kept_apart progs).
  Context (x0 : Indexer) (stale : list string) (looks : nat → list (list query)).
  Notation reachf := (fine_reach murmur n only reqsFirst cap log2 sortDocs nseg progs x0 stale looks).

  (** The call under way in goroutine [a] will leave the indexer [R]. *)
  Definition midcall (a : nat) (R : option Indexer) (c : cstate) : Prop :=
    ∃ p, cThreads c !! a = Some (mkThread [] p) ∧
      (p = Crash ∨
       rest sortDocs p (shIx (cShard c)) (shArray (cShard c)) = R ∧ (inBatch p = true → removeCache (shIx (cShard c)) = [])).
  Definition ops_of (s : fine) (i : nat) : list op := ixCalls (Z.of_nat i) (sLog (fPipe s)).
  Definition shInv (s : fine) (i : nat) (sh : fshard) : Prop :=
    rinv (fsC sh) ∧
    ((at_ease sh ∧ run sortDocs (ops_of s i) x0 = Some (index_of sh)) ∨
     (∃ k o, fsAdding sh = (match o with OpAdd _ _ => Some k | _ => None end) ∧
        fsRemoving sh = (match o with OpAdd _ _ => None | _ => Some k end) ∧
        quiet (1 - sideOf o) (fsC sh) ∧ calling (fPipe s) k (Z.of_nat i) o ∧
        midcall (sideOf o) (run sortDocs (ops_of s i ++ [o]) x0) (fsC sh))).
  Definition fineInv (s : fine) : Prop :=
    reachp nseg progs (fPipe s) ∧ length (fShards s) = Z.to_nat n ∧ ∀ i sh, fShards s !! i = Some sh → shInv s i sh.

  Lemma sideOf_lt o : (sideOf o < 2)%nat.
  Proof. destruct o; cbn; lia. Qed.

  (** ** The goroutines of a shard *)
  Lemma enter_rest o x a : rest sortDocs (enter (callOf o)) x a = step sortDocs x o.
  Proof.
    destruct o as [d f|id f]; [done|]. cbn. destruct (RemoveDocToCache id f x) as [[y b]|]; [|done]. done.
  Qed.
  Lemma start_rinv o c : rinv c → (∃ th, cThreads c !! sideOf o = Some th) → rinv (startCall o c).
  Proof.
    intros Hr (th & Hth) t th' H. cbn in H. apply list_insert_lookup in H as [(-> & -> & _)|[_ H]]; [|by apply Hr].
    destruct o; cbn; split; try done; by apply Forall_nil.
  Qed.
  Lemma start_midcall o c R : cThreads c !! sideOf o = Some (mkThread [] Idle) → step sortDocs (shIx (cShard c)) o = R →
    midcall (sideOf o) R (startCall o c).
  Proof.
    intros Hth HR. exists (enter (callOf o)). cbn [startCall cThreads cShard].
    rewrite list_lookup_insert by (by eapply lookup_lt_Some). split; [done|]. right. split; [by rewrite enter_rest|]. by destruct o.
  Qed.
  Lemma start_quiet o c u : u ≠ sideOf o → quiet u c → quiet u (startCall o c).
  Proof. intros Hne Hq. unfold quiet. cbn [startCall cThreads]. by rewrite list_lookup_insert_ne. Qed.

  Lemma mid_step o R t c c' : rinv c → quiet (1 - sideOf o) c → midcall (sideOf o) R c → cstep t c = Some c' →
    rinv c' ∧ quiet (1 - sideOf o) c' ∧ midcall (sideOf o) R c'.
  Proof.
    intros Hr Hq (p & Hp & HR) H. pose proof (sideOf_lt o) as Hlt.
    assert (Hr' : rinv c') by (eapply rinv_step; [by exists t|done]).
    destruct (quiet_step _ _ _ _ _ _ H Hq) as [Htu Hq']. split; [done|]. split; [done|].
    destruct (decide (t = sideOf o)) as [->|Hne].
    - apply cstep_inv in H as (th & Hth & H). rewrite Hp in Hth. injection Hth as <-. cbn [tPc tCalls] in H.
      destruct H as [(? & ? & _ & E & _)|(p' & sh & Hid & Hs & ->)]; [done|].
      exists p'. cbn [cThreads cShard]. rewrite list_lookup_insert by (by eapply lookup_lt_Some). split; [done|].
      destruct HR as [->|[HR Hb]]; [done|].
      destruct (decide (isCrash p' = true)) as [Hc|Hc]; [left; by destruct p'|]. right.
      destruct (rest_tstep log2 sortDocs _ _ _ _ _ Hs) as [E1 E2].
      + destruct (Hr _ _ Hp) as [Hro _]. cbn [tPc] in Hro. destruct o; cbn in Hro; by destruct p.
      + intros ->. by apply Hc.
      + done.
      + by rewrite E1.
    - destruct (search_same log2 sortDocs t c c' Hr) as [E1 E2]; [lia|done|].
      exists p. rewrite E1, E2. split; [|done].
      apply cstep_inv in H as (th & Hth & [(? & ? & _ & _ & ->)|(p' & sh & _ & _ & ->)]); cbn [cThreads]; by rewrite list_lookup_insert_ne.
  Qed.
  Lemma ease_step t sh c' : rinv (fsC sh) → at_ease sh → cstep t (fsC sh) = Some c' →
    rinv c' ∧ at_ease (setC c' sh) ∧ index_of (setC c' sh) = index_of sh.
  Proof.
    intros Hr (H1 & H2 & H3 & H4) H.
    destruct (quiet_step _ _ _ _ _ _ H H3) as [Ht0 H3']. destruct (quiet_step _ _ _ _ _ _ H H4) as [Ht1 H4'].
    split; [eapply rinv_step; [by exists t|done]|]. split; [done|].
    destruct (search_same log2 sortDocs t _ c' Hr) as [E1 _]; [lia|done|]. done.
  Qed.

  (** ** The pipeline *)
  Lemma ops_log i log e : match e with EvIx j o => False | _ => True end → ixCalls i (log ++ [e]) = ixCalls i log.
  Proof. intros He. rewrite ixCalls_app. destruct e; [|done|]; cbn; by rewrite app_nil_r. Qed.
  (** A step that is no call of an indexer *)
  Lemma plain_step k s s' p : pst k s = Some s' → sProcs s !! k = Some p →
    (∀ i o l, pActs p ≠ ADo (EvIx i o) :: l) →
    (∀ i, ixCalls i (sLog s') = ixCalls i (sLog s)) ∧ (∀ k' i o, calling s k' i o → calling s' k' i o).
  Proof.
    intros (p1 & p' & net' & log' & Hp1 & Hs & ->)%pstep_inv Hp Hno. rewrite Hp in Hp1. apply Some_inj_eq in Hp1 as <-. split.
    - intros i. cbn [sLog]. unfold procStep in Hs. destruct (pActs p) as [|a l] eqn:Ea.
      + destruct (pChan p); [|destruct (pCalls p); [done|by injection Hs as _ _ <-]].
        destruct (takeFirst _ _) as [[m net1]|]; [|done]. cbn in Hs. by injection Hs as _ _ <-.
      + destruct a as [e|ch m| |c|c| |]; cbn zeta in Hs; try (destruct (decide _); [|done]); injection Hs as _ _ <-; try done.
        apply ops_log. destruct e as [|j o|]; try done. by destruct (Hno j o l).
    - intros k' i o (q & l & Hq & Ha). exists q, l. split; [|done]. cbn [sProcs]. destruct (decide (k' = k)) as [->|Hne].
      + rewrite Hp in Hq. apply Some_inj_eq in Hq as <-. by destruct (Hno i o l).
      + by rewrite list_lookup_insert_ne.
  Qed.
  (** The return of a call *)
  Lemma call_step k s s' i o : pst k s = Some s' → calling s k i o →
    sLog s' = sLog s ++ [EvIx i o] ∧ (∀ k' j o', k' ≠ k → calling s k' j o' → calling s' k' j o').
  Proof.
    intros H Hc. destruct (calling_step murmur n only reqsFirst cap _ _ _ _ Hc) as (s1 & H1 & Hl). rewrite H in H1. apply Some_inj_eq in H1 as <-.
    split; [done|]. intros k' j o' Hne (q & l & Hq & Ha). exists q, l. split; [|done].
    apply pstep_inv in H as (p1 & p' & net' & log' & _ & _ & ->). cbn [sProcs]. by rewrite list_lookup_insert_ne.
  Qed.
  Lemma calling_fun s k i o i' o' : calling s k i o → calling s k i' o' → i = i' ∧ o = o'.
  Proof. intros (p & l & Hp & Ha) (q & l' & Hq & Hb). rewrite Hp in Hq. apply Some_inj_eq in Hq as <-. rewrite Ha in Hb. by injection Hb as -> -> _. Qed.

  Lemma shInv_pipe s p' i sh : (ixCalls (Z.of_nat i) (sLog p') = ixCalls (Z.of_nat i) (sLog (fPipe s))) →
    (∀ k o, calling (fPipe s) k (Z.of_nat i) o → waiter o sh = Some k → calling p' k (Z.of_nat i) o) →
    shInv s i sh → ∀ shs, shInv (mkFine p' shs) i sh.
  Proof.
    intros E Hc [Hr H] shs. split; [done|]. unfold ops_of in *. cbn [fPipe]. rewrite E. destruct H as [H|(k & o & H1 & H2 & H3 & H4 & H5)]; [by left|].
    right. exists k, o. repeat (split; [done|]). split; [|done]. apply Hc; [done|]. destruct o; cbn; congruence.
  Qed.

  Lemma fineInv_step s s' : fineS s s' → fineInv s → fineInv s'.
  Proof.
    intros [[k|i t] H] (Hre & Hlen & Hinv); cbn [fineDo] in H.
    - destruct (sProcs (fPipe s) !! k) as [p|] eqn:Hp; cbn [mbind option_bind] in H; [|done].
      assert (Hcase : (∃ i o l, pActs p = ADo (EvIx i o) :: l) ∨ (∀ i o l, pActs p ≠ ADo (EvIx i o) :: l)).
      { destruct (pActs p) as [|[[| |]| | | | | |] ?]; try (right; done). left. eauto. }
      destruct Hcase as [(i & o & l & Ha)|Hno].
      + rewrite Ha in H. assert (Hcall : calling (fPipe s) k i o) by (by exists p, l).
        pose proof (calling_range murmur n only reqsFirst cap Hn _ _ _ _ _ _ Hre Hcall) as Hi.
        destruct (fShards s !! Z.to_nat i) as [sh|] eqn:Hsh; cbn [mbind option_bind] in H; [|done].
        pose proof (Hinv _ _ Hsh) as [Hr Hs]. rewrite Z2Nat.id in Hs by lia.
        assert (Hlt : (Z.to_nat i < length (fShards s))%nat) by (by eapply lookup_lt_Some).
        destruct (waiter o sh) as [k'|] eqn:Hw.
        * (* the call returns *)
          destruct (decide (k' = k)) as [->|]; [|done]. destruct (isIdle _ _) eqn:Hid; [|done]. apply isIdle_true in Hid.
          destruct (pst k (fPipe s)) as [p'|] eqn:Hps; cbn [mbind option_bind] in H; [|done]. apply Some_inj_eq in H as <-.
          destruct (call_step _ _ _ _ _ Hps Hcall) as [Hl Hoth].
          split; [|split]; cbn [fPipe fShards].
          -- eapply rtc_r; [exact Hre|by exists k].
          -- by rewrite insert_length.
          -- intros j sh' Hj. apply list_insert_lookup in Hj as [(-> & -> & _)|[Hne Hj]].
             ++ destruct Hs as [[(E1 & E2 & _) _]|(k1 & o1 & E1 & E2 & Hq & Hc1 & Hm)].
                { destruct o; cbn in Hw; congruence. }
                assert (k1 = k) as ->. { destruct o, o1; cbn in Hw; congruence. }
                destruct (calling_fun _ _ _ _ _ _ Hcall Hc1) as [_ <-].
                split; [by destruct o|]. left. destruct Hm as (q & Hq1 & Hq2). rewrite Hid in Hq1. injection Hq1 as <-.
                destruct Hq2 as [|[Hq2 _]]; [done|]. cbn [rest] in Hq2. split.
                ** destruct o; cbn in *; repeat split; done.
                ** unfold ops_of in *. cbn [fPipe]. rewrite Hl, Z2Nat.id by lia. rewrite ixCalls_app.
                   assert (E : ixCalls i [EvIx i o] = [o]) by (cbn; by rewrite Z.eqb_refl). rewrite E.
                   rewrite Z2Nat.id in Hq2 by lia. rewrite <- Hq2. by destruct o.
             ++ apply (shInv_pipe s p'); [| |by apply Hinv].
                ** rewrite Hl, ixCalls_app. cbn. destruct (Z.eqb_spec i (Z.of_nat j)) as [->|]; [lia|]. by rewrite app_nil_r.
                ** intros k1 o1 Hc1 _. apply Hoth; [|done]. intros ->. destruct (calling_fun _ _ _ _ _ _ Hcall Hc1) as [-> _]. lia.
        * (* the call starts *)
          destruct (isIdle _ _) eqn:Hid; [|done]. apply isIdle_true in Hid. apply Some_inj_eq in H as <-.
          split; [|split]; cbn [fPipe fShards].
          -- done.
          -- by rewrite insert_length.
          -- intros j sh' Hj. apply list_insert_lookup in Hj as [(-> & -> & _)|[Hne Hj]].
             ++ destruct Hs as [[(E1 & E2 & E3 & E4) Hix]|(k1 & o1 & E1 & E2 & Hq & Hc1 & Hm)].
                ** split.
                   { assert (Hx : fsC (setWaiter o (Some k) (setC (startCall o (fsC sh)) sh)) = startCall o (fsC sh)) by by destruct o.
                     rewrite Hx. apply start_rinv; eauto. }
                   right. exists k, o. unfold ops_of in *. cbn [fPipe]. rewrite Z2Nat.id in * by lia.
                   split; [by destruct o; cbn; rewrite ?E1|]. split; [by destruct o; cbn; rewrite ?E2|].
                   assert (Hx : fsC (setWaiter o (Some k) (setC (startCall o (fsC sh)) sh)) = startCall o (fsC sh)) by by destruct o.
                   rewrite Hx. split; [apply start_quiet; destruct o; done|]. split; [done|].
                   apply start_midcall; [done|]. unfold index_of in Hix.
                   unfold run in *. rewrite foldlM_app, Hix. cbn [foldlM mbind option_bind].
                   by destruct (step sortDocs (shIx (cShard (fsC sh))) o).
                ** exfalso. pose proof (one_side murmur n only reqsFirst cap Hn nseg progs _ Hap Hre _ _ _ _ _ Hcall Hc1) as Hsd.
                   destruct o, o1; cbn in Hw, Hsd; congruence.
             ++ apply (shInv_pipe s (fPipe s)); [done|done|by apply Hinv].
      + assert (Hst : ∃ p', pst k (fPipe s) = Some p' ∧ s' = mkFine p' (fShards s)).
        { destruct (pst k (fPipe s)) as [p'|] eqn:Hps.
          - exists p'. split; [done|]. destruct (pActs p) as [|[[| |]| | | | | |] ?] eqn:Ea; try (by apply Some_inj_eq in H). by destruct (Hno i o l).
          - destruct (pActs p) as [|[[| |]| | | | | |] ?] eqn:Ea; try done. by destruct (Hno i o l). }
        destruct Hst as (p' & Hps & ->). destruct (plain_step _ _ _ _ Hps Hp Hno) as [H1 H2].
        split; [|split]; cbn [fPipe fShards]; [eapply rtc_r; [exact Hre|by exists k]|done|].
        intros i sh Hi. apply (shInv_pipe s p'); [done| |by apply Hinv]. intros. by apply H2.
    - destruct (fShards s !! i) as [sh|] eqn:Hsh; cbn [mbind option_bind] in H; [|done].
      destruct (cstep t (fsC sh)) as [c|] eqn:Hc; cbn [mbind option_bind] in H; [|done]. apply Some_inj_eq in H as <-.
      split; [done|]. cbn [fPipe fShards]. split; [by rewrite insert_length|].
      intros j sh' Hj. apply list_insert_lookup in Hj as [(-> & -> & _)|[Hne Hj]]; [|by apply (shInv_pipe s (fPipe s)); [done|done|apply Hinv]].
      destruct (Hinv _ _ Hsh) as [Hr [[He Hx]|(k & o & E1 & E2 & Hq & Hcl & Hm)]].
      + destruct (ease_step _ _ _ Hr He Hc) as (Hr' & He' & Hx'). split; [done|]. left. split; [done|]. by rewrite Hx'.
      + destruct (mid_step _ _ _ _ _ Hr Hq Hm Hc) as (Hr' & Hq' & Hm'). split; [done|]. right. exists k, o. done.
  Qed.

  Lemma fineInv_start : fineInv (fineInit n nseg progs x0 stale looks).
  Proof.
    split; [apply rtc_refl|]. cbn [fShards fineInit]. split; [by rewrite fmap_length, seq_length|].
    intros i sh Hi. rewrite list_lookup_fmap in Hi. apply fmap_Some in Hi as (j & [-> _]%lookup_seq & ->). cbn [fsC].
    split; [apply rinv_start|]. left. done.
  Qed.
  Lemma fineInv_reach s : reachf s → fineInv s.
  Proof.
    intros H. revert s H. apply (rtc_ind_r fineInv (fineInit n nseg progs x0 stale looks)); [apply fineInv_start|].
    intros s1 s2 _ H12 IH. by eapply fineInv_step.
  Qed.
End Sim.
