(** What the servers bring into the database files. *)
From Verif Require Import SpecNet ModelServer ModelEngine SpecIndexer SpecSearch SpecRank SpecRoute SpecPipe SpecSegment SpecEngine SpecFlight SpecStore SpecEnd
  SpecLife SpecClose SpecWhole SpecServer ProofTopK ProofPipe ProofFlushThms ProofStore ProofStoreRun ProofStoreThms ProofSegThms ProofEnd ProofWholeThms ProofWholeLive.

Section Unstored.
  Variables (accepts : string → string → bool) (encode : DocData → option string) (murmur : string → Z) (n : Z).
  Notation istep := (istep accepts encode murmur n).

  (** * No call can be stored *)
  Definition lost_call (c : scall) : Prop := match c with SIndex _ d => encode d = None | _ => True end.
  Definition lost_act (a : sact) : Prop := match a with SSend _ d => encode d = None | _ => True end.
  Definition lost_worker (w : sworker) : Prop := match w with WHold _ d => encode d = None | _ => True end.
  Definition lost_event (e : sevent) : Prop := match e with EvWrite _ v => v = None | _ => True end.
  Definition lost (s : sstate) : Prop :=
    Forall (λ c, Forall lost_call (scCalls c) ∧ Forall lost_act (scActs c)) (ssClients s) ∧
    Forall lost_worker (ssWork s) ∧ Forall lost_event (ssLog s).

  Lemma lost_acts c : lost_call c → Forall lost_act (scallActs c).
  Proof. destruct c as [id d|id|]; cbn; intros H; [destruct (seqb id "0")|destruct (seqb id "0")|]; by repeat constructor. Qed.
  Lemma lost_clients cl k c calls acts reg : Forall (λ c, Forall lost_call (scCalls c) ∧ Forall lost_act (scActs c)) cl →
    cl !! k = Some c → (Forall lost_call (scCalls c) → Forall lost_act (scActs c) → Forall lost_call calls ∧ Forall lost_act acts) →
    Forall (λ c, Forall lost_call (scCalls c) ∧ Forall lost_act (scActs c)) (<[k := mkSC calls acts reg]> cl).
  Proof.
    intros H Hk Hp. apply Forall_insert; [done|]. cbn [scCalls scActs]. pose proof (Forall_lookup_1 _ _ _ _ H Hk) as [H1 H2]. auto.
  Qed.
  Lemma lost_log l e : Forall lost_event l → lost_event e → Forall lost_event (l ++ [e]).
  Proof. intros H He. apply Forall_app. split; [done|]. by apply Forall_singleton. Qed.
  Lemma lost_step s s' : istep s s' → lost s → lost s'.
  Proof.
    intros Hs (Hc & Hw & Hl).
    destruct Hs; cbn [ssClients ssWork ssLog] in Hc, Hw, Hl; (split; [|split]); cbn [ssClients ssWork ssLog];
      try exact Hc; try exact Hw; try exact Hl;
      try (eapply lost_clients; [exact Hc|eassumption|]; intros Hcc Hca; split; [try exact Hcc|]);
      try (apply lost_log; [exact Hl|exact I]);
      try (match goal with H : scActs _ = _ |- _ => rewrite H in Hca end;
           repeat (match goal with H : Forall lost_act (_ :: _) |- _ => apply Forall_cons in H as [? ?] end);
           repeat (apply Forall_cons; split; [exact I|]); assumption).
    all: try (match goal with H : scCalls _ = _ |- _ => rewrite H in Hcc; apply Forall_cons in Hcc as [? ?] end).
    - assumption.
    - by apply lost_acts.
    - apply Forall_insert; [done|]. cbn. pose proof (Forall_lookup_1 _ _ _ _ Hc H) as [_ Ha]. rewrite H0 in Ha. by apply Forall_cons in Ha as [Ha _].
    - by apply Forall_insert.
    - apply lost_log; [exact Hl|]. cbn. pose proof (Forall_lookup_1 _ _ _ _ Hw H) as He. cbn in He. unfold written. by rewrite He.
    - by apply Forall_insert.
  Qed.
  Lemma lost_reach progs s : store_reach accepts encode murmur n progs s → Forall lost_call (mjoin progs) → lost s.
  Proof.
    intros Hr Hp. revert s Hr. apply (rtc_ind_r (R := storeStep accepts encode murmur n)).
    - split; [|split]; cbn; [|by apply Forall_replicate|constructor]. apply Forall_forall. intros c (cs & -> & Hin)%elem_of_list_fmap. cbn.
      split; [|constructor]. apply Forall_forall. intros x Hx. rewrite Forall_forall in Hp. apply Hp. apply elem_of_list_join. eauto.
    - intros y z _ Hm IH. eapply lost_step; [|exact IH]. by apply step_i.
  Qed.
  Lemma lost_files dbs log j : Forall lost_event log → dbAfter murmur n dbs log j ⊆ dbs j.
  Proof.
    unfold dbAfter. generalize (dbs j) as db. induction log as [|e log IH]; intros db H; [done|]. apply Forall_cons in H as [He H].
    cbn [foldl]. etrans; [by apply IH|]. destruct e as [| | |id [v|]| |id]; try done. cbn. destruct (_ =? _); [|done]. apply delete_subseteq.
  Qed.

  (** * Every write attempt is counted *)
  Definition isPut (e : sevent) : bool := match e with EvWrite _ _ => true | _ => false end.
  Definition tried (log : list sevent) : Z := zlen (filter (λ e, isPut e = true) log).
  Lemma tried_snoc log e : tried (log ++ [e]) = tried log + if isPut e then 1 else 0.
  Proof. unfold tried, zlen. rewrite (filter_blen_snoc isPut). destruct (isPut e); lia. Qed.
  Lemma tried_step s s' : istep s s' → tried (ssLog s) = numStored (ssLog s) + workers isWritten (ssWork s) →
    tried (ssLog s') = numStored (ssLog s') + workers isWritten (ssWork s').
  Proof.
    intros Hs H. destruct Hs; cbn [ssLog ssWork] in *; rewrite ?tried_snoc, ?nstored_snoc; cbn [isStored isPut]; try lia.
    - rewrite (workers_insert _ _ _ _ _ H2). cbn. lia.
    - rewrite (workers_insert _ _ _ _ _ H0). cbn. lia.
    - rewrite (workers_insert _ _ _ _ _ H0). cbn. lia.
  Qed.
  Lemma tried_reach progs s : store_reach accepts encode murmur n progs s →
    tried (ssLog s) = numStored (ssLog s) + workers isWritten (ssWork s).
  Proof.
    intros Hr. revert s Hr. apply (rtc_ind_r (R := storeStep accepts encode murmur n)).
    - cbn. unfold workers, tried, numStored. cbn. assert (H : ∀ k, filter (λ x, isWritten x = true) (replicate k WIdle) = []).
      { induction k as [|k IH]; [done|]. cbn [replicate]. rewrite filter_cons_False by done. done. }
      by rewrite H.
    - intros y z _ Hm IH. eapply tried_step; [|exact IH]. by apply step_i.
  Qed.
End Unstored.

Section Servers.
  Variables (murmur : string → Z) (n : Z) (only reqsFirst : bool) (cap : chan → nat) (accepts : string → string → bool)
    (encode : DocData → option string) (nS : Z) (reqsFirst2 : bool).
  Variables (box : Attri → Iface) (unmarshal : string → string * Z) (X : Ext) (stop : gset string) (o : SegOpts).
  Notation from_server := (from_server box unmarshal X stop o).

  Lemma server_lost registered c : gob_rule registered encode → attri_unknown registered box → from_server c → lost_call encode (storeCall c).
  Proof.
    intros Hg Ha Hf. assert (HL : ∀ d a, ddAttri d = box a → encode d = None).
    { intros d a E. destruct (encode d) as [v|] eqn:Ev; [|done]. exfalso. destruct (Hg _ _ Ev) as [[H|H] _]; rewrite E in H; destruct (Ha a); congruence. }
    destruct Hf as [-> |[[(time & ts & r & H)|(r & H)]|(q & H)]]; [done| | |]; cbn in H.
    - destruct (segDoc _ _ _ _ _) as [doc|]; [|done]. injection H as <-. cbn. by eapply HL.
    - injection H as <-. done.
    - destruct (segDoc _ _ _ _ _) as [doc|]; [|done]. injection H as <-. cbn. by eapply HL.
  Qed.
  Lemma storeProg_join (progs : list (list wcall)) : mjoin (storeProg <$> progs) = storeCall <$> mjoin progs.
  Proof. induction progs as [|cs progs IH]; [done|]. cbn. rewrite fmap_app. by f_equal. Qed.
  Lemma servers_lost registered nseg progs s : gob_rule registered encode → attri_unknown registered box →
    whole_reach murmur n only reqsFirst cap accepts encode nS reqsFirst2 nseg progs s → Forall from_server (mjoin progs) →
    Forall lost_event (wSLog s).
  Proof.
    intros Hg Ha Hr Hf. destruct (whole_store _ _ _ _ _ _ _ _ _ _ _ _ Hr) as (q & Hq & Hl & _). rewrite <-Hl.
    eapply (lost_reach accepts encode murmur nS); [exact Hq|]. rewrite storeProg_join. apply Forall_fmap.
    eapply Forall_impl; [exact Hf|]. intros c Hc. by eapply server_lost.
  Qed.
  Theorem servers_store_nothing registered nseg progs s dbs j : gob_rule registered encode → attri_unknown registered box →
    whole_reach murmur n only reqsFirst cap accepts encode nS reqsFirst2 nseg progs s → Forall from_server (mjoin progs) →
    dbAfter murmur nS dbs (wSLog s) j ⊆ dbs j.
  Proof. intros Hg Ha Hr Hf. apply lost_files. by eapply servers_lost. Qed.

  (** * All of it counts as stored *)
  Definition isPutOp (p : dbop) : bool := match p with PutOp _ _ => true | _ => false end.
  Lemma tried_ops log : tried log = zlen (filter (λ p, isPutOp p = true) (omap store_op log)).
  Proof.
    unfold tried, zlen. f_equal. induction log as [|e log IH]; [done|]. cbn [omap list_omap].
    destruct e; cbn [store_op]; rewrite ?(filter_cons _ (PutOp _ _)), ?(filter_cons _ (DelOp _)), filter_cons; cbn [isPut isPutOp];
      repeat (rewrite decide_False by done); repeat (rewrite decide_True by done); cbn [length]; by rewrite ?IH.
  Qed.
  Lemma asked_puts cs : zlen (filter (λ p, isPutOp p = true) (omap (asked_op accepts encode) cs)) =
    zlen (filter (λ c, index_call c = true) cs).
  Proof.
    unfold zlen. f_equal. induction cs as [|c cs IH]; [done|]. cbn [omap list_omap]. rewrite (filter_cons _ c).
    destruct c as [d da fo|id fo|]; cbn [asked_op index_call].
    - destruct (decide (DocId d = "0")) as [E|E].
      + rewrite bool_decide_eq_false_2 by naive_solver. rewrite decide_False by done. exact IH.
      + rewrite bool_decide_eq_true_2 by done. rewrite filter_cons. cbn [isPutOp]. rewrite !decide_True by done. cbn [length]. by rewrite IH.
    - rewrite (decide_False (P := false = true)) by done.
      destruct (decide (id = "0")); [exact IH|]. rewrite filter_cons. cbn [isPutOp]. rewrite decide_False by done. exact IH.
    - rewrite decide_False by done. exact IH.
  Qed.
  Lemma workers_idle p l : p WIdle = false → Forall (eq WIdle) l → workers p l = 0.
  Proof.
    intros Hp H. unfold workers. induction H as [|x l <- _ IH]; [done|]. rewrite filter_cons_False by (by rewrite Hp). exact IH.
  Qed.
  Theorem all_count_stored nseg progs s :
    whole_reach murmur n only reqsFirst cap accepts encode nS reqsFirst2 nseg progs s → at_rest s →
    numStored (wSLog s) = zlen (filter (λ c, index_call c = true) (mjoin progs)).
  Proof.
    intros Hr Hat. pose proof (whole_ops _ _ _ _ _ _ _ _ _ _ _ _ Hr Hat) as Hops.
    destruct Hat as (Hret & Hp & Hs & Hd). destruct (whole_store _ _ _ _ _ _ _ _ _ _ _ _ Hr) as (q & Hq & Hl & Hw & _).
    pose proof (tried_reach _ _ _ _ _ _ Hq) as HT. rewrite Hl, Hw in HT. rewrite (workers_idle isWritten) in HT by done.
    rewrite <-asked_puts. rewrite tried_ops in HT. unfold zlen in *. rewrite Hops in HT. lia.
  Qed.

  (** * After a restart *)
  Variables (iter : kv → list (string * string)) (decode : string → DocData * bool).
  Hypothesis Hn : 1 <= n < 2^32.
  Hypothesis Hit : valid_iter iter.
  Lemma recover_empty dbs progs : (∀ j, dbs j = ∅) → recoverProgs iter decode X stop o nS dbs = Some progs → mjoin progs = [].
  Proof.
    intros He H. unfold recoverProgs in H. apply mapM_Some in H. induction H as [|j p js ps Hj _ IH]; [done|]. change (mjoin (p :: ps)) with (p ++ mjoin ps). rewrite IH, app_nil_r.
    assert (Hsi : storeInit iter decode (dbs j) = []).
    { unfold storeInit, ForEach. rewrite He. pose proof (Hit ∅) as Hi. rewrite map_to_list_empty in Hi. symmetry in Hi. apply Permutation_nil in Hi. by rewrite Hi. }
    cbn beta in Hj. rewrite Hsi in Hj. by injection Hj as <-.
  Qed.
  Lemma shards_unique sortDocs s0 s shards shards' : engine_shards sortDocs s0 only n s shards → engine_shards sortDocs s0 only n s shards' →
    shards = shards'.
  Proof.
    intros [H1 H2] [H1' H2']. apply list_eq. intros i.
    destruct (shards !! i) as [sh|] eqn:E, (shards' !! i) as [sh'|] eqn:E'.
    - destruct (H2 _ _ E) as [Ha Hb], (H2' _ _ E') as [Ha' Hb']. destruct sh as [x r], sh' as [x' r']. cbn in *. congruence.
    - apply lookup_lt_Some in E. apply lookup_ge_None in E'. unfold zlen in *. lia.
    - apply lookup_lt_Some in E'. apply lookup_ge_None in E. unfold zlen in *. lia.
    - done.
  Qed.
  Theorem restart_finds_nothing sortDocs sortBy io s0 nseg dbs progs s shards log2 req order :
    valid_sort sortDocs → valid_sortBy sortBy → Init io = Some s0 → (∀ j, dbs j = ∅) →
    recoverProgs iter decode X stop o nS dbs = Some progs →
    pipe_reach murmur n only reqsFirst cap nseg (progs ++ [[EFlush]]) s → quiescent s →
    engine_shards sortDocs s0 only n s shards →
    plain_request io req → scores_numbers log2 req shards → all_arrive (length shards) order →
    Search log2 sortBy req shards order = Some (nothing_found req).
  Proof.
    intros Hv Hvb HI He Hp Hr Hq Hsh Hreq Hnan Hall. pose proof (recover_empty _ _ He Hp) as Hj.
    assert (Hc : mjoin (progs ++ [[EFlush]]) = [EFlush]). { rewrite join_app, Hj. done. }
    assert (Hon : once_each (mjoin (progs ++ [[EFlush]]))). { rewrite Hc. split; [by apply Forall_singleton|constructor]. }
    destruct (end_forced murmur n only reqsFirst cap Hn sortDocs io s0 nseg _ s Hv HI Hr Hq Hon) as (shards' & Hsh' & Hw).
    { rewrite Hc. by apply Forall_singleton. }
    rewrite (shards_unique _ _ _ _ _ Hsh' Hsh) in Hw.
    destruct (end_search murmur n only reqsFirst cap Hn sortDocs sortBy io s0 nseg _ s shards log2 req order Hv Hvb HI Hr Hq Hon Hsh Hw Hreq Hnan Hall)
      as (full & out & HS & HA).
    destruct HA as (_ & _ & Hsub & _ & Hin & _).
    assert (full = []) as ->.
    { destruct full as [|h full]; [done|]. destruct (Hin h) as (d & f & ct & a & fo & Hd & _); [by left|]. rewrite Hc in Hd.
      apply elem_of_list_singleton in Hd. done. }
    apply submseteq_nil_r in Hsub as ->. exact HS.
  Qed.
End Servers.
