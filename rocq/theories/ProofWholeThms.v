(** Consequences for the engine with UseStore. *)
From Verif Require Import ModelWhole ModelEngine SpecIndexer SpecSearch SpecRank SpecRoute SpecPipe SpecSegment SpecEngine SpecFlight SpecStore SpecEnd SpecLife SpecClose SpecWhole
  ProofSegThms ProofStore ProofStoreRun ProofStoreEnd ProofStoreThms ProofRecover ProofFlushThms ProofEnd ProofLife ProofClose ProofWhole.

Lemma mjoin_cons {A} (x : list A) l : mjoin (x :: l) = x ++ mjoin l.
Proof. done. Qed.
Lemma mjoin_app {A} (l1 l2 : list (list A)) : mjoin (l1 ++ l2) = mjoin l1 ++ mjoin l2.
Proof. induction l1 as [|x l1 IH]; [done|]. rewrite <-app_comm_cons, !mjoin_cons, IH, app_assoc. done. Qed.

Section WholeThms.
  Context (murmur : string → Z) (n : Z) (only reqsFirst : bool) (cap : chan → nat) (Hn : 1 <= n < 2^32).
  Context (accepts : string → string → bool) (encode : DocData → option string) (nS : Z) (HnS : 1 <= nS < 2^32) (reqsFirst2 : bool).
  Notation wreach := (whole_reach murmur n only reqsFirst cap accepts encode nS reqsFirst2).

  Lemma pipeProg_program phases : pipeProg (wprogram phases) = program (pipeProg <$> phases).
  Proof.
    unfold pipeProg, wprogram, program. induction phases as [|ph phs IH]; [done|].
    rewrite !fmap_cons, !mjoin_cons, !fmap_app, IH. done.
  Qed.
  Lemma store_flush phases : phases ≠ [] → ∃ cs, storeProg (wprogram phases) = cs ++ [SFlush].
  Proof.
    intros H. destruct (exists_last H) as (phs & ph & ->). unfold storeProg, wprogram.
    rewrite fmap_app, mjoin_app, fmap_app. cbn [fmap list_fmap]. rewrite mjoin_cons, app_nil_r, fmap_app, app_assoc. cbn [fmap list_fmap storeCall]. eauto.
  Qed.
  Lemma one_all nseg prog s : wreach nseg [prog] s → wreturned 0 s → all_returned s.
  Proof.
    intros Hr (c & Hc & H1 & H2). destruct (store_view murmur n only reqsFirst cap accepts encode nS reqsFirst2 nseg [prog] s Hr) as (q & Hq & _).
    assert (Hl : length (wClients s) = 1%nat).
    { clear -Hr. unfold whole_reach in Hr. revert s Hr. apply (rtc_ind_r (R := wholeStep _ _ _ _ _ _ _ _ _) (λ s, length (wClients s) = 1%nat)); [done|].
      intros y z _ [m Hm] H. rewrite <-H. destruct m as [k|k|j|k]; cbn in Hm.
      - unfold wclientStep in Hm. destruct (wClients y !! k) as [c|]; [|done]. cbn in Hm.
        destruct (wActs c) as [|[] acts]; simplify_option_eq; repeat case_match; simplify_eq; by cbn; rewrite ?insert_length.
      - unfold wprocStep in Hm. simplify_option_eq. repeat case_match; by simplify_eq.
      - unfold wstoreStep in Hm. by simplify_option_eq.
      - unfold wstoreStep in Hm. by simplify_option_eq. }
    unfold all_returned. destruct (wClients s) as [|c' [|]]; [done| |done]. injection Hc as ->. by repeat constructor.
  Qed.

  Lemma quiescent_view nseg progs s : wreach nseg progs s → all_returned s → pipe_rest s →
    ∃ q, pipe_reach murmur n only reqsFirst cap nseg (pipeProg <$> progs) q ∧ quiescent q ∧ sLog q = wLog s.
  Proof.
    intros Hr Ha Hp. destruct (pipe_view _ _ _ _ _ _ _ _ _ _ _ _ Hr) as (q & Hq & _ & El & _ & H).
    exists q. split; [done|]. split; [|done]. apply H; [done|done|].
    destruct (cinv_reach _ _ _ _ _ _ _ _ _ _ _ _ Hr) as [_ Hw]. eapply Forall_impl; [exact Hw|]. by intros p (? & ? & ?).
  Qed.
  Lemma rest_view nseg phases s : phases ≠ [] → wreach nseg [wprogram phases] s → wreturned 0 s →
    ∃ cs q, storeProg (wprogram phases) = cs ++ [SFlush] ∧ rest_state accepts encode murmur nS cs q ∧
      ssLog q = wSLog s ∧ ssWork q = wWork s ∧ ssDels q = wDels s.
  Proof.
    intros Hne Hr Hret. destruct (store_flush phases Hne) as [cs Ecs].
    pose proof (one_all _ _ _ Hr Hret) as Hall.
    destruct (store_view _ _ _ _ _ _ _ _ _ _ _ _ Hr) as (q & Hq & E1 & E2 & E3 & _ & Hd).
    exists cs, q. split; [done|]. split; [|done]. cbn in Hq. rewrite Ecs in Hq. specialize (Hd Hall).
    split; [done|]. split; [done|]. eapply flush_done; done.
  Qed.

  Theorem flush_both sortDocs o s0 nseg dbs phases s :
    valid_sort sortDocs → Init o = Some s0 → Forall (λ ph, good_phase (pipeProg ph)) phases → phases ≠ [] →
    wreach nseg [wprogram phases] s → wreturned 0 s →
    (∀ i, 0 <= i < n → ∃ ix M, run sortDocs (ixCalls i (wLog s)) s0 = Some ix ∧ shows ix M ∧ clean ix M ∧
       addCache ix = [] ∧ removeCache ix = [] ∧ ∀ id, M !! id = version murmur n i (pipeProg (wprogram phases)) id) ∧
    (∀ id, id ≠ "0" → closed_value accepts encode (dbs (storeShard murmur nS id) !! id) (storeProg (wprogram phases)) id
       (dbAfter murmur nS dbs (wSLog s) (storeShard murmur nS id) !! id)) ∧
    Forall (eq WIdle) (wWork s).
  Proof.
    intros Hv HI Hg Hne Hr Hret. split; [|split].
    - intros i Hi. destruct (pipe_view _ _ _ _ _ _ _ _ _ _ _ _ Hr) as (q & Hq & _ & El & Hk & _). rewrite <-El. cbn in Hq.
      rewrite pipeProg_program in Hq |- *. eapply C39_lem; try done; [by apply Forall_fmap|by apply Hk].
    - intros id H0. destruct (rest_view _ _ _ Hne Hr Hret) as (cs & q & -> & Hrs & <- & _).
      pose proof (rest_writes accepts encode murmur nS _ _ id H0 Hrs) as Hw. unfold closed_value.
      destruct (content_cases accepts murmur nS dbs id (ssLog q)) as [(v & w1 & w2 & H1 & H2 & H3)|[[H1 H2]|(H1 & H2 & H3)]].
      + left. exists v. split; [|done]. rewrite Hw in H1. apply puts_inv in H1 as (cs1 & d & cs2 & -> & E & <-).
        exists cs1, d, (cs2 ++ [SFlush]). split; [by rewrite <-app_assoc|]. split; [by apply written_writable|].
        intros d' v' [Hin|Hin%elem_of_list_singleton]%elem_of_app; [|done]. by eapply puts_none.
      + right; left. split; [|done]. apply elem_of_app. left. eapply rest_dels; [done|by left].
      + right; right. split; [|done]. rewrite Hw in H2. intros d v [Hin|Hin%elem_of_list_singleton]%elem_of_app; [|done].
        by eapply puts_none.
    - destruct (rest_view _ _ _ Hne Hr Hret) as (cs & q & _ & (_ & _ & Hrs) & _ & <- & _). done.
  Qed.

  Context (X : Ext) (stop : gset string) (o : SegOpts).

  Lemma calls_docs cs req full out : segmented X stop o accepts encode cs →
    answers_calls only (pipeProg cs) req full out → answers_docs only X stop o (given cs) req full out.
  Proof.
    intros Hs (F1 & F2 & F3 & F4 & F5 & F6). split; [done|]. split; [done|]. split; [done|]. split; [done|]. split.
    - intros h Hh. destruct (F5 h Hh) as (doc & f & ct & a & fo & Hc & Hw & Hsc).
      apply elem_of_list_fmap in Hc as ([doc' d fo'| |] & E & Hc); [|done|done]. injection E as -> -> -> -> ->.
      exists (DocId doc'), d, doc'. split; [by exists doc', fo'|]. split; [by apply (Hs _ _ _ Hc)|done].
    - intros id d (doc & fo & Hc & <-). exists doc. split; [by apply (Hs _ _ _ Hc)|]. split; [done|]. intros Hw Hacc.
      eapply F6; [|done|done]. apply elem_of_list_fmap. exists (WIndex doc d fo). done.
  Qed.
  Lemma answers_ext there1 there2 req full out : (∀ id d, there1 id d ↔ there2 id d) →
    answers_docs only X stop o there1 req full out → answers_docs only X stop o there2 req full out.
  Proof.
    intros HE (F1 & F2 & F3 & F4 & F5 & F6). split; [done|]. split; [done|]. split; [done|]. split; [done|]. split.
    - intros h Hh. destruct (F5 h Hh) as (id & d & doc & Hst & Hrest). exists id, d, doc. split; [by apply HE|done].
    - intros id d Hst. apply F6. by apply HE.
  Qed.
  Lemma answers_same there req full1 out1 full2 out2 : answers_docs only X stop o there req full1 out1 →
    answers_docs only X stop o there req full2 out2 → same_documents there req full1 full2.
  Proof.
    assert (Hsub : ∀ full1 out1 full2 out2, answers_docs only X stop o there req full1 out1 → answers_docs only X stop o there req full2 out2 →
      (∀ id d, there id d → score_accepts (ScoringCriteria (rqOpts req)) id (ddFields d)) → ∀ id, id ∈ sdDocId <$> full1 → id ∈ sdDocId <$> full2).
    { clear. intros full1 out1 full2 out2 (_ & _ & _ & _ & H & _) (_ & _ & _ & _ & _ & H') Hacc id Hid.
      apply elem_of_list_fmap in Hid as (h & -> & Hh). destruct (H h Hh) as (id & d & doc & Ht & Hs & Hw & Hsc).
      destruct (H' id d Ht) as (doc' & Hs' & Hid' & Hf). rewrite Hs in Hs'. injection Hs' as <-.
      destruct (Hf Hw (Hacc id d Ht)) as (h2 & Hh2 & Hsc2). apply elem_of_list_fmap. exists h2. split; [|done].
      destruct Hsc as [-> _]. by destruct Hsc2 as [-> _]. }
    intros H1 H2 Hacc. apply NoDup_Permutation; [apply H1|apply H2|]. intros id. split; by eapply Hsub.
  Qed.

  Lemma shards_unique sortDocs s0 s sh1 sh2 : engine_shards sortDocs s0 only n s sh1 → engine_shards sortDocs s0 only n s sh2 → sh1 = sh2.
  Proof.
    intros [L1 H1] [L2 H2]. apply list_eq_same_length with (n := length sh1); [unfold zlen in *; lia|done|].
    intros i x y _ Hx Hy. destruct (H1 i x Hx) as [E1 E2], (H2 i y Hy) as [E3 E4]. destruct x as [a b], y as [c d]. cbn in *. congruence.
  Qed.
  Lemma shards_pipe sortDocs s0 q s sh : sLog q = wLog s → engine_shards sortDocs s0 only n (pipePart s) sh ↔ engine_shards sortDocs s0 only n q sh.
  Proof. intros E. unfold engine_shards. cbn [pipePart sLog]. by rewrite E. Qed.

  (** Searches in the running engine, after Flush, when the rankers have caught up. *)
  Theorem whole_search sortDocs sortBy io s0 nseg phases s log2 req order shards :
    valid_sort sortDocs → valid_sortBy sortBy → Init io = Some s0 →
    Forall (λ ph, good_phase (pipeProg ph)) phases → phases ≠ [] → once_each (pipeProg (wprogram phases)) →
    segmented X stop o accepts encode (wprogram phases) →
    wreach nseg [wprogram phases] s → wreturned 0 s → pipe_rest s →
    engine_shards sortDocs s0 only n (pipePart s) shards →
    plain_request io req → scores_numbers log2 req shards → all_arrive (length shards) order →
    ∃ full out, Search log2 sortBy req shards order = Some (mkResp (rqTokens req) false (zlen full) (Some out)) ∧
      answers_docs only X stop o (given (wprogram phases)) req full out.
  Proof.
    intros Hv Hvb HI Hg Hne Hon Hseg Hr Hret Hpr Hsh Hreq Hnan Ha.
    destruct (quiescent_view _ _ _ Hr (one_all _ _ _ Hr Hret) Hpr) as (q & Hq & Hqq & El).
    apply (shards_pipe _ _ q) in Hsh; [|done]. cbn in Hq.
    assert (Hw : Forall nothing_waits shards).
    { rewrite pipeProg_program in Hq.
      destruct (end_flushed murmur n only reqsFirst cap Hn sortDocs io s0 nseg _ q Hv HI Hq Hqq) as (sh & Hsh' & Hw); [by apply Forall_fmap|].
      by rewrite (shards_unique _ _ _ _ _ Hsh Hsh'). }
    destruct (end_search murmur n only reqsFirst cap Hn sortDocs sortBy io s0 nseg _ q shards log2 req order Hv Hvb HI Hq Hqq) as (full & out & HS & HA); try done.
    { by rewrite mjoin_cons, app_nil_r. }
    exists full, out. split; [done|]. apply calls_docs; [done|]. by rewrite mjoin_cons, app_nil_r in HA.
  Qed.

  Context (iter : kv → list (string * string)) (Hiter : valid_iter iter) (decode : string → DocData * bool) (HX : valid_range X).

  Lemma given_survives cs id d : once_each (pipeProg cs) →
    survives murmur nS decode (λ _, ∅) (storeProg cs) id d ↔ given cs id d.
  Proof.
    intros [Hg Hnd]. assert (Hin : ∀ id d, SIndex id d ∈ storeProg cs ↔ given cs id d).
    { clear. intros id d. unfold given, storeProg. rewrite elem_of_list_fmap. split.
      - intros ([doc d' fo| |] & E & Hc); [|done|done]. injection E as -> ->. by exists doc, fo.
      - intros (doc & fo & Hc & <-). by exists (WIndex doc d fo). }
    unfold survives. split.
    - intros [[_ (cs1 & cs2 & E & _)]|[_ (v & Hv & _)]]; [|by rewrite lookup_empty in Hv].
      apply Hin. rewrite E. apply elem_of_app. right. by left.
    - intros (doc & fo & Hc & <-). left. split.
      + rewrite Forall_forall in Hg. assert (Hp : pipeCall (WIndex doc d fo) ∈ pipeProg cs) by by apply elem_of_list_fmap_1.
        destruct (Hg _ Hp) as [_ H]. cbn in H. congruence.
      + apply elem_of_list_split in Hc as (cs1 & cs2 & ->). unfold storeProg. rewrite fmap_app, fmap_cons.
        exists (storeCall <$> cs1), (storeCall <$> cs2). split; [done|]. intros d' Hd'.
        unfold pipeProg in Hnd. rewrite fmap_app, fmap_cons, omap_app in Hnd. cbn in Hnd. apply NoDup_app in Hnd as (_ & _ & Hnd).
        apply NoDup_cons in Hnd as [Hnd _]. apply Hnd. apply elem_of_list_fmap in Hd' as ([doc' d'' fo'| |] & E & Hc'); [|done|done].
        injection E as E ->. apply elem_of_list_omap. exists (pipeCall (WIndex doc' d'' fo')). split; [by apply elem_of_list_fmap_1|]. cbn. congruence.
  Qed.

  (** Searches before and after a restart. *)
  Theorem restart_same sortDocs sortBy io s0 nseg phases s log2 req order shards progs2 s2 shards2 order2 :
    valid_sort sortDocs → valid_sortBy sortBy → Init io = Some s0 → round_trip encode decode →
    Forall (λ ph, good_phase (pipeProg ph)) phases → phases ≠ [] → once_each (pipeProg (wprogram phases)) →
    segmented X stop o accepts encode (wprogram phases) → no_removal (wprogram phases) →
    wreach nseg [wprogram phases] s → wreturned 0 s → pipe_rest s →
    engine_shards sortDocs s0 only n (pipePart s) shards →
    recoverProgs iter decode X stop o nS (dbAfter murmur nS (λ _, ∅) (wSLog s)) = Some progs2 →
    pipe_reach murmur n only reqsFirst cap nseg (progs2 ++ [[EFlush]]) s2 → quiescent s2 →
    engine_shards sortDocs s0 only n s2 shards2 → Forall nothing_waits shards2 →
    plain_request io req → scores_numbers log2 req (shards ++ shards2) →
    all_arrive (length shards) order → all_arrive (length shards2) order2 →
    ∃ full1 out1 full2 out2,
      Search log2 sortBy req shards order = Some (mkResp (rqTokens req) false (zlen full1) (Some out1)) ∧
      Search log2 sortBy req shards2 order2 = Some (mkResp (rqTokens req) false (zlen full2) (Some out2)) ∧
      answers_docs only X stop o (given (wprogram phases)) req full1 out1 ∧
      answers_docs only X stop o (given (wprogram phases)) req full2 out2 ∧
      same_documents (given (wprogram phases)) req full1 full2.
  Proof.
    intros Hv Hvb HI Hrt Hg Hne Hon Hseg Hnr Hr Hret Hpr Hsh Hrec Hr2 Hq2 Hsh2 Hw2 Hreq [Hnan Hnan2]%numbers_app Ha Ha2.
    destruct (whole_search sortDocs sortBy io s0 nseg phases s log2 req order shards) as (full1 & out1 & HS1 & HA1); try done.
    destruct (rest_view _ _ _ Hne Hr Hret) as (cs & q & Ecs & (Hqr & Hqd & Hqw) & El & Ew & Ed).
    assert (Hnos : ∀ id, SRemove id ∉ cs ++ [SFlush]).
    { rewrite <-Ecs. intros id Hin. apply elem_of_list_fmap in Hin as ([| id' fo|] & E & Hin); [done| |done]. by eapply Hnr. }
    assert (Hdels : ssDels q = []).
    { destruct (ssDels q) as [|id l] eqn:E; [done|]. exfalso. apply (Hnos id), elem_of_app. left.
      eapply (rest_dels accepts encode murmur nS); [done|]. right. rewrite E. by left. }
    rewrite <-El in Hrec.
    destruct (life_whole murmur n only reqsFirst cap Hn iter Hiter decode X stop o HX accepts encode sortDocs sortBy io s0 nseg nS (λ _, ∅)
      (cs ++ [SFlush]) q progs2 s2 shards2 log2 req order2) as (full2 & out2 & HS2 & HA2); try done.
    { intros j id _ [v Hv']. by rewrite lookup_empty in Hv'. }
    { intros id d. rewrite <-Ecs. intros Hin. apply elem_of_list_fmap in Hin as ([doc d' fo| |] & E & Hc); [|done|done].
      injection E as -> ->. by destruct (Hseg _ _ _ Hc) as [_ ?]. }
    rewrite <-Ecs in HA2. apply (answers_ext _ (given (wprogram phases))) in HA2; [|intros id d; by apply given_survives].
    exists full1, out1, full2, out2. do 4 (split; [done|]). by eapply answers_same.
  Qed.
End WholeThms.

Section WholeViews.
  Context (murmur : string → Z) (n : Z) (only reqsFirst : bool) (cap : chan → nat).
  Context (accepts : string → string → bool) (encode : DocData → option string) (nS : Z) (reqsFirst2 : bool).
  Notation wreach := (whole_reach murmur n only reqsFirst cap accepts encode nS reqsFirst2).

  Theorem whole_pipe nseg progs s : wreach nseg progs s →
    ∃ q, pipe_reach murmur n only reqsFirst cap nseg (pipeProg <$> progs) q ∧ sNet q = wNet s ∧ sLog q = wLog s ∧
      (∀ k, wreturned k s → returned k q) ∧ (all_returned s → pipe_rest s → quiescent q).
  Proof.
    intros Hr. destruct (pipe_view _ _ _ _ _ _ _ _ _ _ _ _ Hr) as (q & Hq & En & El & Hk & H).
    exists q. split; [done|]. split; [done|]. split; [done|]. split; [done|]. intros Ha Hp. apply H; [done|done|].
    destruct (cinv_reach _ _ _ _ _ _ _ _ _ _ _ _ Hr) as [_ Hw]. eapply Forall_impl; [exact Hw|]. by intros p (? & ? & ?).
  Qed.
  Theorem whole_store nseg progs s : wreach nseg progs s →
    ∃ q, store_reach accepts encode murmur nS (storeProg <$> progs) q ∧ ssLog q = wSLog s ∧ ssWork q = wWork s ∧ ssDels q = wDels s ∧
      (all_returned s → clients_done q) ∧ (all_returned s → store_rest s → store_quiet q).
  Proof.
    intros Hr. destruct (store_view _ _ _ _ _ _ _ _ _ _ _ _ Hr) as (q & Hq & E1 & E2 & E3 & _ & Hd).
    exists q. do 5 (split; [done|]). intros Ha [Hw Hs]. split; [by apply Hd|]. by rewrite E2, E3.
  Qed.
  Theorem whole_counts nseg progs s : wreach nseg progs s → value (wLog s) NumIndexingReqs = numReqs (wSLog s).
  Proof. intros Hr. by destruct (cinv_reach _ _ _ _ _ _ _ _ _ _ _ _ Hr) as [<- _]. Qed.
End WholeViews.
