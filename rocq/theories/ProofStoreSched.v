(** Schedules of the store side: orderly ones, and unlucky ones. *)
From Verif Require Import ModelStore SpecStore SpecIndexer ProofSegment ProofTopK ProofEngine ProofStore ProofStoreRun ProofStoreThms.

Section Sched.
  Variable accepts : string → string → bool.
  Variable encode : DocData → option string.
  Variable murmur : string → Z.
  Variable n : Z.
  Variable dbs : Z → kv.
  Notation step := (storeStep accepts encode murmur n).
  Notation shard id := (Z.to_nat (storeShard murmur n id)).
  Notation written := (written accepts encode).
  Notation writable := (writable accepts encode).
  Notation content := (content murmur n dbs).
  Notation istep := (istep accepts encode murmur n).
  Notation hold := (hold accepts encode murmur n).
  Notation sinv := (sinv accepts encode murmur n).
  Notation map_call := (map_call accepts encode).

  (** * Orderly executions *)
  Definition mv (id : string) (log : list sevent) : option string :=
    map_value accepts encode (dbs (storeShard murmur n id) !! id) (requests log) id.
  Lemma mv_snoc id log e : mv id (log ++ [e]) =
    match e with
    | EvSent id' d => map_call id (mv id log) (SIndex id' d)
    | EvSpawn id' => map_call id (mv id log) (SRemove id')
    | _ => mv id log
    end.
  Proof. unfold mv, map_value. rewrite requests_snoc, foldl_app. by destruct e. Qed.

  Definition nstart id (log : list sevent) := length (filter (λ e, starts_on id e = true) log).
  Definition nend id (log : list sevent) := length (filter (λ e, ends_on id e = true) log).
  Lemma seqb_bd a b : seqb a b = bool_decide (a = b).
  Proof. apply eq_true_iff_eq. by rewrite seqb_eq, bool_decide_eq_true. Qed.
  Lemma nstart_eq id log : nstart id log = (length (sents accepts encode id log) + spawned id log)%nat.
  Proof.
    unfold nstart, sents, spawned. induction log as [|e log IH] using rev_ind; [done|].
    rewrite !filter_blen_snoc, omap_snoc, app_length, IH. destruct e; cbn [starts_on isSpawn length]; try lia;
      destruct (decide (docId = id)) as [E|E];
      rewrite ?(proj2 (seqb_eq _ _) E), ?(proj2 (seqb_neq _ _) E), ?bool_decide_eq_true_2, ?bool_decide_eq_false_2 by done; cbn [length]; lia.
  Qed.
  Lemma nend_eq id log : nend id log = (length (writes id log) + deleted id log)%nat.
  Proof.
    unfold nend, writes, deleted. induction log as [|e log IH] using rev_ind; [done|].
    rewrite !filter_blen_snoc, omap_snoc, app_length, IH. destruct e; cbn [ends_on isDel length]; try lia;
      destruct (decide (docId = id)) as [E|E];
      rewrite ?(proj2 (seqb_eq _ _) E), ?(proj2 (seqb_neq _ _) E), ?bool_decide_eq_true_2, ?bool_decide_eq_false_2 by done; cbn [length]; lia.
  Qed.
  Lemma balance id s : sinv s → nstart id (ssLog s) = (nend id (ssLog s) + length (hold id (ssWork s)) + pending id (ssDels s))%nat.
  Proof. intros [_ _ H3 H4]. rewrite nstart_eq, nend_eq, (H3 id), (H4 id), app_length. lia. Qed.

  Lemma orderly_prefix id l e : orderly id (l ++ [e]) → orderly id l.
  Proof. intros H l1 e1 l2 -> He. apply (H l1 e1 (l2 ++ [e])); [|done]. by rewrite <-app_assoc. Qed.
  Lemma orderly_last id l e : orderly id (l ++ [e]) → starts_on id e = true → nstart id l = nend id l.
  Proof. intros H He. by apply (H l e []). Qed.

  Definition osum (id : string) (s : sstate) : Prop :=
    match hold id (ssWork s), pending id (ssDels s) with
    | [], O => content id (ssLog s) = mv id (ssLog s)
    | [w], O => match w with Some v => Some v | None => content id (ssLog s) end = mv id (ssLog s)
    | [], S O => mv id (ssLog s) = None
    | _, _ => False
    end.
  Lemma map_call_index id o d : map_call id o (SIndex id d) = match written id d with Some v => Some v | None => o end.
  Proof.
    cbn. rewrite decide_True by done. unfold ModelStore.written. destruct (encode d) as [v|]; [|done]. by destruct (accepts id v).
  Qed.
  Lemma map_call_other id id' o d : id' ≠ id → map_call id o (SIndex id' d) = o.
  Proof. intros H. cbn. by rewrite decide_False. Qed.

  Lemma map_call_remove id id' o : map_call id o (SRemove id') = if decide (id' = id) then None else o.
  Proof. done. Qed.

  Lemma osum_step id s s' : sinv s → istep s s' → (orderly id (ssLog s) → osum id s) → orderly id (ssLog s') → osum id s'.
  Proof.
    intros HI Hs IH. pose proof (balance id _ HI) as Hb. destruct Hs; cbn [ssLog ssWork ssDels ssClients] in *; intros HO; try (by apply IH).
    - apply orderly_prefix in HO as HP. specialize (IH HP). unfold osum in *. cbn [ssLog ssWork ssDels] in *.
      rewrite content_snoc, mv_snoc. done.
    - apply orderly_prefix in HO as HP. specialize (IH HP). unfold osum in *. cbn [ssLog ssWork ssDels] in *.
      rewrite content_snoc, mv_snoc. destruct (decide (id0 = id)) as [->|Hne].
      + apply orderly_last in HO; [|cbn; by apply seqb_eq]. rewrite HO in Hb.
        assert (pending id d = 0%nat) as Hp by lia. rewrite Hp in *. destruct (hold id w) eqn:Eh; [|cbn in Hb; lia].
        rewrite hold_insert_eq by (by eapply lookup_lt_Some). rewrite decide_True by done. rewrite map_call_index, IH. done.
      + rewrite map_call_other by done. destruct (decide (shard id0 = shard id)) as [E|E].
        * rewrite E. rewrite hold_insert_eq by (rewrite <-E; by eapply lookup_lt_Some). rewrite decide_False by done.
          unfold ProofStoreRun.hold in IH. by rewrite <-E, H1 in IH.
        * by rewrite hold_insert.
    - apply orderly_prefix in HO as HP. specialize (IH HP). unfold osum in *. cbn [ssLog ssWork ssDels] in *.
      rewrite content_snoc, mv_snoc. unfold pending in *. rewrite filter_len_snoc. destruct (decide (id0 = id)) as [->|Hne].
      + apply orderly_last in HO; [|cbn; by apply seqb_eq]. rewrite HO in Hb.
        destruct (hold id w) eqn:Eh; [|cbn in Hb; lia]. cbn [length] in Hb.
        assert (length (filter (λ x, x = id) d) = 0%nat) as -> by lia. by rewrite map_call_remove, decide_True.
      + by rewrite Nat.add_0_r, map_call_remove, decide_False.
    - apply orderly_prefix in HO as HP. specialize (IH HP). unfold osum in *. cbn [ssLog ssWork ssDels] in *.
      rewrite content_snoc, mv_snoc. pose proof (si_place _ _ _ _ _ HI _ _ _ H) as ->. destruct (decide (id0 = id)) as [->|Hne].
      + rewrite hold_insert_eq by (by eapply lookup_lt_Some). unfold ProofStoreRun.hold in IH. rewrite H, decide_True in IH by done.
        destruct (pending id d); [|done]. by destruct (written id dat).
      + assert ((match written id0 dat with Some v => content id l | None => content id l end) = content id l) as -> by by destruct (written id0 dat).
        destruct (decide (shard id0 = shard id)) as [E|E].
        * rewrite E. rewrite hold_insert_eq by (rewrite <-E; by eapply lookup_lt_Some).
          unfold ProofStoreRun.hold in IH. by rewrite <-E, H, decide_False in IH.
        * by rewrite hold_insert.
    - apply orderly_prefix in HO as HP. specialize (IH HP). unfold osum in *. cbn [ssLog ssWork ssDels] in *.
      rewrite content_snoc, mv_snoc. destruct (decide (j = shard id)) as [->|Hne].
      + rewrite hold_insert_eq by (by eapply lookup_lt_Some). unfold ProofStoreRun.hold in IH. by rewrite H in IH.
      + by rewrite hold_insert.
    - apply orderly_prefix in HO as HP. specialize (IH HP). unfold osum in *. cbn [ssLog ssWork ssDels] in *.
      rewrite content_snoc, mv_snoc. rewrite (pending_delete id _ _ _ H) in IH. destruct (decide (id0 = id)) as [->|Hne].
      + rewrite Nat.add_1_r in IH. destruct (hold id w) as [|? [|]]; [|done|done]. by destruct (pending id (delete k d)).
      + by rewrite Nat.add_0_r in IH.
  Qed.

  Lemma orderly_lem progs s id : store_reach accepts encode murmur n progs s → store_quiet s → orderly id (ssLog s) →
    content id (ssLog s) = mv id (ssLog s).
  Proof.
    intros Hr (_ & Hw & Hd) HO.
    assert (H : orderly id (ssLog s) → osum id s).
    { clear Hw Hd HO. unfold store_reach in Hr. revert s Hr. apply (rtc_ind_r (R := step) (λ s, orderly id (ssLog s) → osum id s)).
      - intros _. unfold osum. cbn [storeStart ssWork ssDels ssLog].
        pose proof (sinv_start accepts encode murmur n progs) as [_ _ Hf _]. specialize (Hf id). cbn in Hf. rewrite <-Hf. done.
      - intros y z Hy Hs%step_i IH. eapply osum_step; [by eapply sinv_reach|done|done]. }
    specialize (H HO). unfold osum in H. rewrite hold_idle, Hd in H by done. done.
  Qed.

  (** * Schedules *)
  Definition idle (w : list sworker) : Prop := length w = Z.to_nat n ∧ Forall (eq WIdle) w.
  Lemma idle_at w id : 1 <= n → idle w → w !! shard id = Some WIdle.
  Proof.
    intros Hn [H1 H2]. pose proof (shard_range murmur n id Hn). destruct (w !! shard id) as [x|] eqn:E.
    - rewrite Forall_lookup in H2. by rewrite <-(H2 _ _ E).
    - apply lookup_ge_None in E. lia.
  Qed.
  Notation st cs acts r w d l := (mkSS [mkSC cs acts r] w d l).

  Lemma go_call c cs r w d l : step (st (c :: cs) [] r w d l) (st cs (scallActs c) 0 w d l).
  Proof. by exists (MClient 0). Qed.
  Lemma go_req cs acts r w d l : step (st cs (SReq :: acts) r w d l) (st cs acts r w d (l ++ [EvReq])).
  Proof. by exists (MClient 0). Qed.
  Lemma go_send cs acts r w d l id dat : w !! shard id = Some WIdle →
    step (st cs (SSend id dat :: acts) r w d l) (st cs acts r (<[shard id := WHold id dat]> w) d (l ++ [EvSent id dat])).
  Proof. intros H. exists (MClient 0). unfold smoveStep, clientStep. cbn. by rewrite H. Qed.
  Lemma go_spawn cs acts r w d l id : step (st cs (SSpawn id :: acts) r w d l) (st cs acts r w (d ++ [id]) (l ++ [EvSpawn id])).
  Proof. by exists (MClient 0). Qed.
  Lemma go_read cs acts r w d l : step (st cs (SRead :: acts) r w d l) (st cs acts (numReqs l) w d l).
  Proof. by exists (MClient 0). Qed.
  Lemma go_pass cs acts r w d l : r = numStored l → step (st cs (SLoop :: acts) r w d l) (st cs acts r w d l).
  Proof. intros H. exists (MClient 0). unfold smoveStep, clientStep. cbn. by rewrite (proj2 (Z.eqb_eq _ _) H). Qed.
  Lemma go_write cl w d l id dat : w !! shard id = Some (WHold id dat) →
    step (mkSS cl w d l) (mkSS cl (<[shard id := WWritten]> w) d (l ++ [EvWrite id (written id dat)])).
  Proof. intros H. exists (MWorker (shard id)). unfold smoveStep, workerStep. cbn. by rewrite H. Qed.
  Lemma go_stored cl w d l j : w !! j = Some WWritten → step (mkSS cl w d l) (mkSS cl (<[j := WIdle]> w) d (l ++ [EvStored])).
  Proof. intros H. exists (MWorker j). unfold smoveStep, workerStep. cbn. by rewrite H. Qed.
  Lemma go_del cl w d l k id : d !! k = Some id → step (mkSS cl w d l) (mkSS cl w (delete k d) (l ++ [EvDel id])).
  Proof. intros H. exists (MDel k). unfold smoveStep, delStep. cbn. by rewrite H. Qed.

  Lemma insert_idle (w : list sworker) (j : nat) : w !! j = Some WIdle → <[j := WIdle]> w = w.
  Proof. intros H. by apply list_insert_id. Qed.

  (** a worker carries out its request *)
  Lemma go_store cl w d l id dat : w !! shard id = Some WIdle →
    rtc step (mkSS cl (<[shard id := WHold id dat]> w) d l)
             (mkSS cl w d (l ++ [EvWrite id (written id dat); EvStored])).
  Proof.
    intros H. assert (Hl : (shard id < length w)%nat) by (by eapply lookup_lt_Some).
    eapply rtc_l; [apply go_write; by apply list_lookup_insert|].
    eapply rtc_l; [apply (go_stored _ _ _ _ (shard id)); rewrite list_insert_insert; by apply list_lookup_insert|].
    rewrite !list_insert_insert, insert_idle by done. by rewrite <-app_assoc.
  Qed.

  Lemma go_index cs r w d l id dat : id ≠ "0" → w !! shard id = Some WIdle →
    rtc step (st (SIndex id dat :: cs) [] r w d l)
      (st cs [] 0 w d (l ++ [EvReq; EvSent id dat; EvWrite id (written id dat); EvStored])).
  Proof.
    intros H0 Hw. eapply rtc_l; [apply go_call|]. cbn [scallActs]. apply seqb_neq in H0 as ->.
    eapply rtc_l; [apply go_req|]. eapply rtc_l; [by apply go_send|].
    assert (l ++ [EvReq; EvSent id dat; EvWrite id (written id dat); EvStored] =
      ((l ++ [EvReq]) ++ [EvSent id dat]) ++ [EvWrite id (written id dat); EvStored]) as -> by by rewrite <-!app_assoc.
    by apply go_store.
  Qed.
  Lemma go_flush cs r w d l : numReqs l = numStored l → ∃ r', rtc step (st (SFlush :: cs) [] r w d l) (st cs [] r' w d l).
  Proof.
    intros H. eexists. eapply rtc_l; [apply go_call|]. eapply rtc_l; [apply go_read|]. eapply rtc_l; [by apply go_pass|]. done.
  Qed.
  Lemma go_remove cs r w d l id : id ≠ "0" → rtc step (st (SRemove id :: cs) [] r w d l) (st cs [] 0 w (d ++ [id]) (l ++ [EvSpawn id])).
  Proof.
    intros H0. eapply rtc_l; [apply go_call|]. cbn [scallActs]. apply seqb_neq in H0 as ->. eapply rtc_l; [apply go_spawn|]. done.
  Qed.

  Lemma counts_app l l' : numReqs l = numStored l → numReqs l' = numStored l' → numReqs (l ++ l') = numStored (l ++ l').
  Proof. unfold numReqs, numStored, zlen. rewrite !filter_app, !app_length. lia. Qed.

  Lemma go_all cs r w d l : 1 <= n → idle w → numReqs l = numStored l →
    ∃ r' d' l', rtc step (st cs [] r w d l) (st [] [] r' w d' l') ∧ numReqs l' = numStored l' ∧
      (∀ id, id ∈ d → id ∈ d') ∧ (∀ id, id ≠ "0" → SRemove id ∈ cs → id ∈ d').
  Proof.
    intros Hn Hw. revert r d l. induction cs as [|c cs IH]; intros r d l Hl.
    { exists r, d, l. split; [done|]. split; [done|]. split; [done|]. intros id _ H. by apply elem_of_nil in H. }
    destruct c as [id dat|id|].
    - destruct (decide (id = "0")) as [->|H0].
      + destruct (IH 0 d l Hl) as (r' & d' & l' & H1 & H2 & H3 & H4). exists r', d', l'. split; [|split; [done|split; [done|]]].
        * eapply rtc_l; [apply go_call|]. done.
        * intros id H Hin. apply elem_of_cons in Hin as [?|Hin]; [done|]. by apply H4.
      + destruct (IH 0 d (l ++ [EvReq; EvSent id dat; EvWrite id (written id dat); EvStored])) as (r' & d' & l' & H1 & H2 & H3 & H4).
        { by apply counts_app. }
        exists r', d', l'. split; [|split; [done|split; [done|]]].
        * etrans; [|done]. apply go_index; [done|]. by apply idle_at.
        * intros id' H Hin. apply elem_of_cons in Hin as [?|Hin]; [done|]. by apply H4.
    - destruct (decide (id = "0")) as [->|H0].
      + destruct (IH 0 d l Hl) as (r' & d' & l' & H1 & H2 & H3 & H4). exists r', d', l'. split; [|split; [done|split; [done|]]].
        * eapply rtc_l; [apply go_call|]. done.
        * intros id H Hin. apply elem_of_cons in Hin as [E|Hin]; [by injection E as ->|]. by apply H4.
      + destruct (IH 0 (d ++ [id]) (l ++ [EvSpawn id])) as (r' & d' & l' & H1 & H2 & H3 & H4).
        { by apply counts_app. }
        exists r', d', l'. split; [|split; [done|split]].
        * etrans; [|done]. by apply go_remove.
        * intros id' H. apply H3. apply elem_of_app. by left.
        * intros id' H Hin. apply elem_of_cons in Hin as [E|Hin]; [|by apply H4]. injection E as ->. apply H3. apply elem_of_app. right.
          by apply elem_of_list_singleton.
    - destruct (go_flush cs r w d l Hl) as [r1 Hf]. destruct (IH r1 d l Hl) as (r' & d' & l' & H1 & H2 & H3 & H4).
      exists r', d', l'. split; [|split; [done|split; [done|]]].
      + by etrans.
      + intros id H Hin. apply elem_of_cons in Hin as [E|Hin]; [done|]. by apply H4.
  Qed.

  Lemma go_drain cl w d l : ∃ l', rtc step (mkSS cl w d l) (mkSS cl w [] l') ∧
    (numReqs l = numStored l → numReqs l' = numStored l') ∧ (∀ id, content id l = None → content id l' = None) ∧ (∀ id, id ∈ d → content id l' = None).
  Proof.
    revert l. induction d as [|x d IH]; intros l.
    { exists l. split; [done|]. split; [done|]. split; [done|]. intros id H. by apply elem_of_nil in H. }
    destruct (IH (l ++ [EvDel x])) as (l' & H1 & H2 & H3 & H4). exists l'. split; [|split; [|split]].
    - eapply rtc_l; [by apply (go_del _ _ _ _ 0)|]. done.
    - intros Hc. apply H2. by apply counts_app.
    - intros id Hid. apply H3. rewrite content_snoc. by case_decide.
    - intros id Hin. apply elem_of_cons in Hin as [->|Hin]; [|by apply H4]. apply H3. rewrite content_snoc. by rewrite decide_True.
  Qed.

  Lemma idle_start : idle (replicate (Z.to_nat n) WIdle).
  Proof. split; [by rewrite replicate_length|]. apply Forall_replicate. done. Qed.

  Lemma removals_win_lem cs : 1 <= n → ∃ s, store_reach accepts encode murmur n [cs] s ∧ store_quiet s ∧
    ∀ id, id ≠ "0" → SRemove id ∈ cs → content id (ssLog s) = None.
  Proof.
    intros Hn. destruct (go_all cs 0 _ [] [] Hn idle_start eq_refl) as (r' & d' & l' & H1 & _ & _ & H2).
    destruct (go_drain [mkSC [] [] r'] (replicate (Z.to_nat n) WIdle) d' l') as (l2 & H3 & _ & _ & H4).
    eexists. split; [unfold store_reach; etrans; [exact H1|exact H3]|]. split.
    - split; [by constructor|]. split; [apply idle_start|done].
    - intros id H0 Hin. by apply H4, H2.
  Qed.

  (** The calls that follow do not matter *)
  Lemma go_app cs cs2 r w dl l r' d' l' : rtc step (st cs [] r w dl l) (st [] [] r' w d' l') →
    rtc step (st (cs ++ cs2) [] r w dl l) (st cs2 [] r' w d' l').
  Proof.

      intros H.
      assert (G : ∀ s s', rtc step s s' → ∀ c, ssClients s = [c] → ∃ c', ssClients s' = [c'] ∧
        rtc step (mkSS [mkSC (scCalls c ++ cs2) (scActs c) (scReg c)] (ssWork s) (ssDels s) (ssLog s))
                 (mkSS [mkSC (scCalls c' ++ cs2) (scActs c') (scReg c')] (ssWork s') (ssDels s') (ssLog s'))).
      { clear. induction 1 as [s|s s1 s2 Hs _ IH]; intros c Hc; [by exists c|].
        assert (∃ c1, ssClients s1 = [c1] ∧ step (mkSS [mkSC (scCalls c ++ cs2) (scActs c) (scReg c)] (ssWork s) (ssDels s) (ssLog s))
                 (mkSS [mkSC (scCalls c1 ++ cs2) (scActs c1) (scReg c1)] (ssWork s1) (ssDels s1) (ssLog s1))) as (c1 & Hc1 & Hst).
        { destruct s as [cl w dl l]. cbn in Hc. subst. destruct c as [calls acts r]. destruct Hs as [[k|k|j|k] Hs].
          - destruct k as [|k]; [|done]. unfold storeStep. cbn in Hs. destruct acts as [|a acts].
            + destruct calls as [|call calls]; [done|]. cbn in Hs. injection Hs as <-. eexists. split; [done|]. by exists (MClient 0).
            + destruct a; cbn in Hs; try (injection Hs as <-; eexists; split; [done|]; by exists (MClient 0)).
              destruct (w !! shard docId) as [[]|] eqn:E; try done. injection Hs as <-. eexists. split; [done|]. exists (MClient 0). cbn. by rewrite E.
          - destruct k as [|k]; [|done]. unfold storeStep. cbn in Hs. destruct acts as [|[] [|[] acts]]; try done. injection Hs as <-.
            eexists. split; [done|]. by exists (MAlt 0).
          - cbn in Hs. unfold workerStep in Hs. cbn in Hs. destruct (w !! j) as [[]|] eqn:E; try done; injection Hs as <-; eexists; (split; [done|]);
              exists (MWorker j); cbn; unfold workerStep; cbn; by rewrite E.
          - cbn in Hs. unfold delStep in Hs. cbn in Hs. destruct (dl !! k) as [x|] eqn:E; try done; injection Hs as <-; eexists; (split; [done|]);
              exists (MDel k); cbn; unfold delStep; cbn; by rewrite E. }
        destruct (IH c1 Hc1) as (c' & Hc' & Hr). exists c'. split; [done|]. by eapply rtc_l. }
      destruct (G _ _ H _ eq_refl) as (c' & Hc' & Hr). cbn in Hc'. injection Hc' as <-. done.
  Qed.

  (** The write comes after the deletion *)
  Lemma removal_lost_lem cs id d v : 1 <= n → id ≠ "0" → writable id d v →
    ∃ s, store_reach accepts encode murmur n [cs ++ [SIndex id d; SRemove id]] s ∧ store_quiet s ∧ content id (ssLog s) = Some v.
  Proof.
    intros Hn H0 Hv. destruct (go_all cs 0 _ [] [] Hn idle_start eq_refl) as (r' & d' & l' & H1 & _).
    apply (go_app cs [SIndex id d; SRemove id]) in H1.
    destruct (go_drain [mkSC [SIndex id d; SRemove id] [] r'] (replicate (Z.to_nat n) WIdle) d' l') as (l2 & H3 & _).
    pose proof (idle_at _ id Hn idle_start) as Hw.
    eexists. split.
    - unfold store_reach. etrans; [exact H1|]. etrans; [exact H3|]. eapply rtc_l; [apply go_call|]. cbn [scallActs]. rewrite (proj2 (seqb_neq _ _) H0).
      eapply rtc_l; [apply go_req|]. eapply rtc_l; [by apply go_send|].
      etrans; [by apply go_remove|]. cbn [app]. eapply rtc_l; [by apply (go_del _ _ _ _ 0)|]. cbn. by apply go_store.
    - split.
      + split; [by constructor|]. split; [apply idle_start|done].
      + cbn [ssLog]. rewrite (proj2 (written_writable accepts encode _ _ _) Hv).
        match goal with |- content id (?l ++ [?a; ?b]) = _ => change [a; b] with ([a] ++ [b]) end.
        rewrite app_assoc, !content_snoc. by rewrite decide_True.
  Qed.
End Sched.
