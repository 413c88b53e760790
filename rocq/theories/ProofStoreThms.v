(** What is in the store when everything has been carried out. *)
From Verif Require Import ModelStore SpecStore SpecIndexer ProofSegment ProofTopK ProofEngine ProofStore ProofStoreRun.

Section Thms.
  Variable accepts : string → string → bool.
  Variable encode : DocData → option string.
  Variable murmur : string → Z.
  Variable n : Z.
  Hypothesis Hn : 1 <= n < 2^32.
  Variable dbs : Z → kv.
  Notation step := (storeStep accepts encode murmur n).
  Notation shard id := (Z.to_nat (storeShard murmur n id)).
  Notation written := (written accepts encode).
  Notation writable := (writable accepts encode).
  Notation content := (content murmur n dbs).
  Notation istep := (istep accepts encode murmur n).
  Notation hold := (hold accepts encode murmur n).

  (** The write requests of a list of calls *)
  Definition puts (id : string) (cs : list scall) : list (option string) :=
    omap (λ c, match c with SIndex id' d => if decide (id' = id) then Some (written id d) else None | _ => None end) cs.
  Lemma sents_requests id log : sents accepts encode id log = puts id (requests log).
  Proof.
    unfold sents, puts, requests. induction log as [|e log IH]; [done|]. cbn [omap list_omap] in *.
    destruct e; cbn; try done. case_decide; [|done]. by rewrite <-IH.
  Qed.
  Lemma puts_ordinary id cs : id ≠ "0" → puts id (filter ordinary cs) = puts id cs.
  Proof.
    intros H0. unfold puts. induction cs as [|c cs IH]; [done|]. rewrite filter_cons. case_decide as E; cbn [omap list_omap]; rewrite IH; [done|].
    destruct c as [id' d| |]; [|done|done]. case_decide; [|done]. subst. by destruct E.
  Qed.
  Lemma puts_inv id cs w1 v w2 : puts id cs = w1 ++ v :: w2 →
    ∃ cs1 d cs2, cs = cs1 ++ SIndex id d :: cs2 ∧ v = written id d ∧ puts id cs2 = w2.
  Proof.
    revert w1. induction cs as [|c cs IH]; intros w1 H; [by destruct w1|].
    destruct c as [id' d|id'|]; cbn [puts omap list_omap] in H.
    - case_decide as E.
      + subst. destruct w1 as [|w w1]; cbn in H.
        * injection H as <- <-. by exists [], d, cs.
        * injection H as _ H. apply IH in H as (cs1 & d' & cs2 & -> & ? & ?). by exists (SIndex id d :: cs1), d', cs2.
      + apply IH in H as (cs1 & d' & cs2 & -> & ? & ?). by exists (SIndex id' d :: cs1), d', cs2.
    - apply IH in H as (cs1 & d' & cs2 & -> & ? & ?). by exists (SRemove id' :: cs1), d', cs2.
    - apply IH in H as (cs1 & d' & cs2 & -> & ? & ?). by exists (SFlush :: cs1), d', cs2.
  Qed.
  Lemma puts_none id cs : Forall (eq None) (puts id cs) ↔ never_written accepts encode cs id.
  Proof.
    unfold never_written. rewrite Forall_forall. unfold puts. split.
    - intros H d v Hin. revert v. apply (proj1 (written_none accepts encode id d)). symmetry. apply H. apply elem_of_list_omap. exists (SIndex id d). split; [done|].
      by rewrite decide_True.
    - intros H v Hin. apply elem_of_list_omap in Hin as ([id' d| |] & Hin & E); [|done|done]. case_decide; [|done].
      subst. injection E as <-. symmetry. apply written_none. intros v. by eapply H.
  Qed.

  Lemma hold_idle id w : Forall (eq WIdle) w → hold id w = [].
  Proof.
    intros H. unfold ProofStoreRun.hold. destruct (w !! shard id) as [x|] eqn:E; [|done].
    rewrite Forall_lookup in H. by rewrite <-(H _ _ E).
  Qed.
  Lemma quiet_writes progs s id : store_reach accepts encode murmur n progs s → store_quiet s →
    writes id (ssLog s) = puts id (requests (ssLog s)).
  Proof.
    intros Hr (_ & Hw & _). pose proof (sinv_reach accepts encode murmur n _ _ Hr) as [_ _ Hf _].
    specialize (Hf id). rewrite hold_idle, app_nil_r in Hf by done. by rewrite <-Hf, sents_requests.
  Qed.
  Lemma quiet_requests cs s : store_reach accepts encode murmur n [cs] s → clients_done s →
    requests (ssLog s) = filter ordinary cs.
  Proof.
    intros Hr Hd. destruct (one_reach accepts encode murmur n _ _ Hr) as (c & Hc & Hq & _).
    unfold clients_done in Hd. rewrite Hc in Hd. apply Forall_cons in Hd as [[H1 H2] _]. unfold todo in Hq.
    rewrite H1, H2 in Hq. cbn in Hq. by rewrite app_nil_r in Hq.
  Qed.
  Lemma deleted_in id log : (0 < deleted id log)%nat ↔ EvDel id ∈ log.
  Proof.
    unfold deleted. split.
    - intros H. destruct (filter _ log) as [|e l] eqn:E; [cbn in H; lia|].
      assert (He : e ∈ filter (λ e, isDel id e = true) log) by (rewrite E; left).
      apply elem_of_list_filter in He as [He Hin]. destruct e; try done. cbn in He. apply bool_decide_eq_true in He. by subst.
    - intros H. assert (He : EvDel id ∈ filter (λ e, isDel id e = true) log).
      { apply elem_of_list_filter. split; [|done]. cbn. by apply bool_decide_eq_true. }
      destruct (filter _ log); [by apply elem_of_nil in He|cbn; lia].
  Qed.
  Lemma spawned_in id log : (0 < spawned id log)%nat ↔ SRemove id ∈ requests log.
  Proof.
    unfold spawned, requests. split.
    - intros H. destruct (filter _ log) as [|e l] eqn:E; [cbn in H; lia|].
      assert (He : e ∈ filter (λ e, isSpawn id e = true) log) by (rewrite E; left).
      apply elem_of_list_filter in He as [He Hin]. destruct e; try done. cbn in He. apply bool_decide_eq_true in He. subst.
      apply elem_of_list_omap. by exists (EvSpawn id).
    - intros H. apply elem_of_list_omap in H as (e & Hin & E). destruct e; try done. injection E as ->.
      assert (He : EvSpawn id ∈ filter (λ e, isSpawn id e = true) log).
      { apply elem_of_list_filter. split; [|done]. cbn. by apply bool_decide_eq_true. }
      destruct (filter _ log); [by apply elem_of_nil in He|cbn; lia].
  Qed.
  Lemma quiet_dels progs s id : store_reach accepts encode murmur n progs s → ssDels s = [] →
    EvDel id ∈ ssLog s ↔ SRemove id ∈ requests (ssLog s).
  Proof.
    intros Hr Hd. pose proof (sinv_reach accepts encode murmur n _ _ Hr) as [_ _ _ H].
    rewrite <-deleted_in, <-spawned_in, (H id), Hd. unfold pending. cbn. lia.
  Qed.

  (** C46: one client, everything carried out *)
  Lemma outcomes_lem cs s id : id ≠ "0" → store_reach accepts encode murmur n [cs] s → store_quiet s →
    (∃ v, last_written accepts encode cs id v ∧ content id (ssLog s) = Some v) ∨
    (SRemove id ∈ cs ∧ content id (ssLog s) = None) ∨
    (SRemove id ∉ cs ∧ never_written accepts encode cs id ∧ content id (ssLog s) = dbs (storeShard murmur n id) !! id).
  Proof.
    intros H0 Hr Hq. pose proof Hq as (Hd & Hw & Hdel). pose proof (quiet_requests _ _ Hr Hd) as Hreq.
    pose proof (quiet_writes _ _ id Hr Hq) as Hwr. rewrite Hreq, puts_ordinary in Hwr by done.
    pose proof (quiet_dels _ _ id Hr Hdel) as Hde. rewrite Hreq, elem_of_list_filter in Hde.
    destruct (content_cases accepts murmur n dbs id (ssLog s)) as [(v & w1 & w2 & H1 & H2 & H3)|[[H1 H2]|(H1 & H2 & H3)]].
    - left. exists v. split; [|done]. rewrite Hwr in H1. apply puts_inv in H1 as (cs1 & d & cs2 & -> & E & <-).
      exists cs1, d, cs2. split; [done|]. split; [by apply written_writable|]. by apply puts_none.
    - right; left. split; [|done]. by apply Hde in H2 as [_ ?].
    - right; right. rewrite Hwr in H2. apply puts_none in H2. split; [|done]. intros Hin. apply H3, Hde. done.
  Qed.

  (** * Flush waits for the writes *)
  Definition workers (p : sworker → bool) (w : list sworker) : Z := zlen (filter (λ x, p x = true) w).
  Definition isHold (x : sworker) : bool := match x with WHold _ _ => true | _ => false end.
  Definition isWritten (x : sworker) : bool := match x with WWritten => true | _ => false end.
  Lemma workers_insert p w j x y : w !! j = Some x →
    workers p (<[j := y]> w) = workers p w - (if p x then 1 else 0) + (if p y then 1 else 0).
  Proof.
    intros H. unfold workers, zlen. apply elem_of_list_split_length in H as (l1 & l2 & -> & ->).
    rewrite insert_app_r_alt by done. rewrite Nat.sub_diag. cbn [insert list_insert]. rewrite !filter_app, !app_length, !filter_cons.
    destruct (p x), (p y); cbn [length]; repeat case_decide; cbn [length]; try done; lia.
  Qed.
  Definition counted (s : sstate) : Prop :=
    nsents (ssLog s) = numStored (ssLog s) + workers isHold (ssWork s) + workers isWritten (ssWork s).
  Lemma counted_step s s' : istep s s' → counted s → counted s'.
  Proof.
    unfold counted. intros Hs H. destruct Hs; cbn [ssLog ssWork] in *; rewrite ?nsents_snoc, ?nstored_snoc; cbn [isStored]; try lia.
    - rewrite !(workers_insert _ _ _ _ _ H2). cbn. lia.
    - rewrite !(workers_insert _ _ _ _ _ H0). cbn. lia.
    - rewrite !(workers_insert _ _ _ _ _ H0). cbn. lia.
  Qed.
  Lemma workers_zero p w x j : workers p w <= 0 → w !! j = Some x → p x = false.
  Proof.
    unfold workers, zlen. intros H Hx. destruct (p x) eqn:E; [|done]. exfalso.
    assert (Hin : x ∈ filter (λ x, p x = true) w) by (apply elem_of_list_filter; split; [done|by eapply elem_of_list_lookup_2]).
    destruct (filter _ w); [by apply elem_of_nil in Hin|]. cbn in H. lia.
  Qed.
  Lemma workers_nonneg p w : 0 <= workers p w.
  Proof. unfold workers, zlen. lia. Qed.

  (** After the flush: nobody writes [id] any more *)
  Definition gone_soon (id : string) (s : sstate) (c : sclient) : Prop :=
    (∀ j d, ssWork s !! j ≠ Some (WHold id d)) ∧ (∀ d, SSend id d ∉ todo c) ∧
    (content id (ssLog s) = None ∨ id ∈ ssDels s ∨ SSpawn id ∈ todo c).
  Definition flushing (post : list sact) (id : string) (s : sstate) : Prop :=
    ∃ c, ssClients s = [c] ∧ ((∃ pre, todo c = pre ++ SLoop :: post) ∨ todo c = SLoopReqs :: post ∨ gone_soon id s c).

  Lemma flushing_step cs post id s s' : (∀ d, SSend id d ∉ post) → SSpawn id ∈ post →
    sinv accepts encode murmur n s → counted s → one cs s → istep s s' → flushing post id s → flushing post id s'.
  Proof.
    intros Hpost1 Hpost2 HI HC HO Hs (c0 & Hc & Hf).
    destruct HO as (c1 & Hc1 & _ & Hq & Hg & _). rewrite Hc in Hc1. injection Hc1 as <-.
    destruct Hs; cbn [ssClients ssLog ssWork ssDels] in *; subst.
    1-10: destruct k as [|k]; [|done]; cbn in H; injection H as ->; cbn [list_insert insert].
    - eexists. split; [done|]. unfold todo in *. cbn [scActs scCalls] in *. rewrite H0, H1, fmap_cons, join_cons in Hf. cbn [app] in Hf.
      destruct Hf as [Hf|[Hf|Hf]]; [by left|by right; left|]. right; right. unfold gone_soon, todo in *. cbn [ssWork ssLog ssDels scActs scCalls] in *.
      rewrite H0, H1, fmap_cons, join_cons in Hf. done.
    - eexists. split; [done|]. destruct Hf as [[pre Hf]|[Hf|(G1 & G2 & G3)]]; [|by unfold todo in Hf; rewrite H0 in Hf|].
      + left. unfold todo in *. cbn [scActs scCalls] in *. rewrite H0 in Hf. destruct pre as [|a pre]; [done|].
        injection Hf as _ Hf. eauto.
      + right; right. unfold gone_soon, todo in *. cbn [ssWork ssLog ssDels scActs scCalls] in *. rewrite H0 in G2, G3. cbn [app] in G2, G3.
        split; [done|]. setoid_rewrite elem_of_cons in G2. rewrite elem_of_cons in G3. rewrite content_snoc.
        split; [naive_solver|]. naive_solver.
    - eexists. split; [done|]. destruct Hf as [[pre Hf]|[Hf|(G1 & G2 & G3)]]; [|by unfold todo in Hf; rewrite H0 in Hf|].
      + left. unfold todo in *. cbn [scActs scCalls] in *. rewrite H0 in Hf. destruct pre as [|a pre]; [done|].
        injection Hf as _ Hf. eauto.
      + right; right. unfold gone_soon, todo in *. cbn [ssWork ssLog ssDels scActs scCalls] in *. rewrite H0 in G2, G3. cbn [app] in G2, G3.
        setoid_rewrite elem_of_cons in G2. rewrite elem_of_cons in G3. rewrite content_snoc.
        split; [|split; [naive_solver|naive_solver]].
        intros j d' Hj. destruct (decide (j = shard id0)) as [->|Hne].
        * rewrite list_lookup_insert in Hj by (by eapply lookup_lt_Some). injection Hj as -> ->. naive_solver.
        * rewrite list_lookup_insert_ne in Hj by done. by eapply G1.
    - eexists. split; [done|]. destruct Hf as [[pre Hf]|[Hf|(G1 & G2 & G3)]]; [|by unfold todo in Hf; rewrite H0 in Hf|].
      + left. unfold todo in *. cbn [scActs scCalls] in *. rewrite H0 in Hf. destruct pre as [|a pre]; [done|].
        injection Hf as _ Hf. eauto.
      + right; right. unfold gone_soon, todo in *. cbn [ssWork ssLog ssDels scActs scCalls] in *. rewrite H0 in G2, G3. cbn [app] in G2, G3.
        split; [done|]. setoid_rewrite elem_of_cons in G2. rewrite elem_of_cons in G3. rewrite content_snoc, elem_of_app, elem_of_list_singleton.
        split; [naive_solver|]. naive_solver.
    - eexists. split; [done|]. destruct Hf as [[pre Hf]|[Hf|(G1 & G2 & G3)]]; [|by unfold todo in Hf; rewrite H0 in Hf|].
      + left. unfold todo in *. cbn [scActs scCalls] in *. rewrite H0 in Hf. destruct pre as [|a pre]; [done|].
        injection Hf as _ Hf. eauto.
      + right; right. unfold gone_soon, todo in *. cbn [ssWork ssLog ssDels scActs scCalls] in *. rewrite H0 in G2, G3. cbn [app] in G2, G3.
        split; [done|]. setoid_rewrite elem_of_cons in G2. rewrite elem_of_cons in G3.
        split; [naive_solver|]. naive_solver.
    - eexists. split; [done|]. destruct Hf as [[pre Hf]|[Hf|(G1 & G2 & G3)]]; [|by unfold todo in Hf; rewrite H0 in Hf|].
      + unfold todo in *. cbn [scActs scCalls] in *. rewrite H0 in Hf. destruct pre as [|a pre].
        * right; right. injection Hf as Hf. rewrite H0 in Hg, Hq. rewrite Z.add_0_r in Hq.
          unfold counted in HC. cbn [ssLog ssWork] in HC. pose proof (workers_nonneg isHold w). pose proof (workers_nonneg isWritten w).
          assert (Hw0 : workers isHold w <= 0) by lia.
          unfold gone_soon, todo. cbn [ssWork ssLog ssDels scActs scCalls]. rewrite Hf. split; [|by eauto].
          intros j d' Hj. pose proof (workers_zero isHold _ _ _ Hw0 Hj). done.
        * left. injection Hf as _ Hf. eauto.
      + right; right. unfold gone_soon, todo in *. cbn [ssWork ssLog ssDels scActs scCalls] in *. rewrite H0 in G2, G3. cbn [app] in G2, G3.
        split; [done|]. setoid_rewrite elem_of_cons in G2. rewrite elem_of_cons in G3.
        split; [naive_solver|]. naive_solver.
    - eexists. split; [done|]. destruct Hf as [[pre Hf]|[Hf|(G1 & G2 & G3)]]; [|by unfold todo in Hf; rewrite H0 in Hf|].
      + left. unfold todo in *. cbn [scActs scCalls] in *. rewrite H0 in Hf. cbn [app] in Hf |- *. exists (SRead :: pre). cbn. by rewrite <-Hf.
      + right; right. unfold gone_soon, todo in *. cbn [ssWork ssLog ssDels scActs scCalls] in *. rewrite H0 in G2, G3. cbn [app] in G2, G3 |- *.
        split; [done|]. setoid_rewrite elem_of_cons. setoid_rewrite elem_of_cons. setoid_rewrite elem_of_cons in G2. rewrite elem_of_cons in G3.
        split; [naive_solver|]. naive_solver.
    - eexists. split; [done|]. destruct Hf as [[pre Hf]|[Hf|(G1 & G2 & G3)]]; [|by unfold todo in Hf; rewrite H0 in Hf|].
      + unfold todo in *. cbn [scActs scCalls] in *. rewrite H0 in Hf. destruct pre as [|a [|b pre]]; [done| |].
        * right; left. injection Hf as _ Hf. cbn [app]. by f_equal.
        * left. injection Hf as _ _ Hf. exists (SLoopReqs :: pre). cbn [app]. by f_equal.
      + right; right. unfold gone_soon, todo in *. cbn [ssWork ssLog ssDels scActs scCalls] in *. rewrite H0 in G2, G3. cbn [app] in G2, G3 |- *.
        split; [done|]. rewrite ?elem_of_cons in *. repeat setoid_rewrite elem_of_cons. repeat setoid_rewrite elem_of_cons in G2.
        split; [naive_solver|]. naive_solver.
    - eexists. split; [done|]. destruct Hf as [[pre Hf]|[Hf|(G1 & G2 & G3)]].
      + left. unfold todo in *. cbn [scActs scCalls] in *. rewrite H0 in Hf. destruct pre as [|a pre]; [done|].
        injection Hf as _ Hf. eauto.
      + right; right. unfold todo in Hf. rewrite H0 in Hf. injection Hf as Hf. rewrite H0 in Hg, Hq. rewrite Z.add_0_r in Hq.
        unfold counted in HC. cbn [ssLog ssWork] in HC. pose proof (workers_nonneg isHold w). pose proof (workers_nonneg isWritten w).
        assert (Hw0 : workers isHold w <= 0) by lia.
        unfold gone_soon, todo. cbn [ssWork ssLog ssDels scActs scCalls]. rewrite Hf. split; [|by eauto].
        intros j d' Hj. pose proof (workers_zero isHold _ _ _ Hw0 Hj). done.
      + right; right. unfold gone_soon, todo in *. cbn [ssWork ssLog ssDels scActs scCalls] in *. rewrite H0 in G2, G3. cbn [app] in G2, G3 |- *.
        split; [done|]. rewrite ?elem_of_cons in *. repeat setoid_rewrite elem_of_cons. repeat setoid_rewrite elem_of_cons in G2.
        split; [naive_solver|]. naive_solver.
    - eexists. split; [done|]. destruct Hf as [[pre Hf]|[Hf|(G1 & G2 & G3)]].
      + left. unfold todo in *. cbn [scActs scCalls] in *. rewrite H0 in Hf. destruct pre as [|a pre]; [done|].
        injection Hf as _ Hf. exists (SRead :: SLoop :: pre). cbn [app]. by do 2 f_equal.
      + left. unfold todo in *. cbn [scActs scCalls] in *. rewrite H0 in Hf. injection Hf as Hf. exists [SRead]. cbn [app]. by do 2 f_equal.
      + right; right. unfold gone_soon, todo in *. cbn [ssWork ssLog ssDels scActs scCalls] in *. rewrite H0 in G2, G3. cbn [app] in G2, G3 |- *.
        split; [done|]. rewrite ?elem_of_cons in *. repeat setoid_rewrite elem_of_cons. repeat setoid_rewrite elem_of_cons in G2.
        split; [naive_solver|]. naive_solver.
    - exists c0. split; [done|]. destruct Hf as [Hf|[Hf|(G1 & G2 & G3)]]; [by left|by right; left|]. right; right.
      cbn [ssWork ssLog ssDels] in *. assert (id0 ≠ id) by (intros ->; by eapply G1).
      split; [|split; [done|]].
      + cbn [ssWork]. intros j' d' Hj. destruct (decide (j' = j)) as [->|Hne].
        * by rewrite list_lookup_insert in Hj by (by eapply lookup_lt_Some).
        * rewrite list_lookup_insert_ne in Hj by done. by eapply G1.
      + cbn [ssLog ssDels]. rewrite content_snoc. destruct (written id0 dat); [|done]. by rewrite decide_False.
    - exists c0. split; [done|]. destruct Hf as [Hf|[Hf|(G1 & G2 & G3)]]; [by left|by right; left|]. right; right.
      cbn [ssWork ssLog ssDels] in *. split; [|split; [done|]].
      + cbn [ssWork]. intros j' d' Hj. destruct (decide (j' = j)) as [->|Hne].
        * by rewrite list_lookup_insert in Hj by (by eapply lookup_lt_Some).
        * rewrite list_lookup_insert_ne in Hj by done. by eapply G1.
      + cbn [ssLog ssDels]. by rewrite content_snoc.
    - exists c0. split; [done|]. destruct Hf as [Hf|[Hf|(G1 & G2 & G3)]]; [by left|by right; left|]. right; right.
      cbn [ssWork ssLog ssDels] in *. split; [done|]. split; [done|]. cbn [ssLog ssDels]. rewrite content_snoc.
      case_decide as E; [by left|]. destruct G3 as [G3|[G3|G3]]; [by left| |by right; right]. right; left.
      rewrite (delete_Permutation _ _ _ H) in G3. apply elem_of_cons in G3 as [->|G3]; [done|done].
  Qed.

  Lemma after_flush_lem cs1 cs2 s id : id ≠ "0" → store_reach accepts encode murmur n [cs1 ++ SFlush :: cs2] s → store_quiet s →
    SRemove id ∈ cs2 → (∀ d, SIndex id d ∉ cs2) → content id (ssLog s) = None.
  Proof.
    intros H0 Hr Hq Hrem Hno.
    set (post := mjoin (scallActs <$> cs2)).
    assert (P1 : ∀ d, SSend id d ∉ post).
    { intros d Hin. apply elem_of_list_join in Hin as (l & Hin & Hl). apply elem_of_list_fmap in Hl as (c & -> & Hc).
      destruct c as [id' d'|id'|]; cbn in Hin.
      - destruct (seqb id' "0"); [by apply elem_of_nil in Hin|]. rewrite !elem_of_cons in Hin.
        destruct Hin as [?|[E|Hin]]; [done| |by apply elem_of_nil in Hin]. injection E as <- <-. by eapply Hno.
      - destruct (seqb id' "0"); [by apply elem_of_nil in Hin|]. by apply elem_of_list_singleton in Hin.
      - rewrite !elem_of_cons in Hin. destruct Hin as [?|[?|Hin]]; [done|done|by apply elem_of_nil in Hin]. }
    assert (P2 : SSpawn id ∈ post).
    { apply elem_of_list_join. exists (scallActs (SRemove id)). split; [cbn|by apply elem_of_list_fmap_1].
      apply seqb_neq in H0 as ->. by left. }
    assert (H : flushing post id s ∧ counted s).
    { clear Hq. unfold store_reach in Hr.
      revert s Hr. apply (rtc_ind_r (R := step) (λ s, flushing post id s ∧ counted s)).
      - split.
        + eexists. split; [done|]. left. unfold todo. cbn [scActs scCalls app]. rewrite fmap_app, join_app, fmap_cons, join_cons.
          exists (mjoin (scallActs <$> cs1) ++ [SRead]). by rewrite <-app_assoc.
        + unfold counted. cbn. unfold workers. induction (Z.to_nat n) as [|m IH]; [done|]. cbn [replicate]. by rewrite !filter_cons.
      - intros y z Hy Hs%step_i [I1 I2]. split; [|by eapply counted_step].
        eapply flushing_step; [done|done|by eapply sinv_reach|done|by eapply one_reach|done|done]. }
    destruct H as [(c & Hc & Hf) _]. destruct Hq as (Hd & _ & Hdel). unfold clients_done in Hd. rewrite Hc in Hd.
    apply Forall_cons in Hd as [[E1 E2] _]. unfold gone_soon, todo in Hf. rewrite E1, E2, Hdel in Hf. cbn [fmap list_fmap app] in Hf.
    destruct Hf as [[pre Hf]|[Hf|(_ & _ & [?|[Hf|Hf]])]]; [by destruct pre|done|done|by apply elem_of_nil in Hf|by apply elem_of_nil in Hf].
  Qed.
End Thms.
