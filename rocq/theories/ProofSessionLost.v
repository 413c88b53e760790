(** Removals before the first Flush of a session. *)
From Verif Require Import ModelSession ModelEngine SpecLive SpecIndexer SpecSearch SpecRank SpecRoute SpecPipe SpecSegment SpecEngine SpecFlight SpecStore SpecEnd SpecLife SpecClose SpecWhole SpecSession
  ProofTopK ProofIndexer ProofCache ProofHistory ProofSegThms ProofStore ProofStoreRun ProofStoreEnd ProofStoreThms ProofRecover ProofRoute ProofPipe ProofBlocks ProofFlush ProofFlushThms ProofLive ProofEnd ProofLife ProofClose ProofRanker ProofWhole ProofWholeThms ProofHttp ProofSession ProofSessionThms.

Section Waiting.
  Context (sortDocs : list DocIndex → list DocIndex) (Hsort : valid_sort sortDocs).
  Definition start_op (o : op) : Prop := (∃ d, o = OpAdd (Some d) false ∧ good_doc d) ∨ ∃ id f, o = OpRemove id f.
  Lemma waiting_run ops : ∀ s, Inv s ∅ ∅ → Forall start_op ops → adds ops + zlen (addCache s) < cap s →
    ∃ s', run sortDocs ops s = Some s' ∧ Inv s' ∅ ∅ ∧ addCache s' = addCache s ++ (omap doc_added ops).*1.
  Proof.
    induction ops as [|op ops IH]; intros s HI Hq Hlen; [exists s; split; [done|]; split; [done|]; by rewrite app_nil_r|].
    apply Forall_cons in Hq as [Ho Hq]. pose proof (adds_nonneg ops). rewrite adds_cons in Hlen.
    destruct Ho as [(d & -> & Hd)|(id & f & ->)]; cbn [isAdd] in Hlen.
    - destruct (AddDocToCache_inv sortDocs Hsort (Some d) false s ∅ ∅) as (s1 & Hrun & Ho & Hcase); [done|split; [lia|done]|].
      assert (Hw : zlen (waiting (Some d) s) = zlen (addCache s) + 1) by (unfold waiting; rewrite zlen_app; done).
      unfold addFlush in Hcase. rewrite Hw in Hcase. destruct (Z.leb_spec (cap s) (zlen (addCache s) + 1)); [lia|]. cbn in Hcase.
      destruct Hcase as [HI1 Hc1]. destruct (IH s1 HI1 Hq) as (s' & Hrun' & HI' & Hc').
      { rewrite Hc1, Hw. unfold cap in *. rewrite Ho. lia. }
      exists s'. split; [|split; [done|]]; [unfold run in *; simpl; by rewrite Hrun|].
      rewrite Hc', Hc1. unfold waiting. by rewrite <-app_assoc.
    - pose proof (RemoveDocToCache_inv s ∅ ∅ id f HI) as H1. unfold aMark in H1. rewrite lookup_empty in H1.
      assert (E : (if decide (id = "0") then (∅, ∅) else (∅, ∅)) = (∅ : docmap, ∅ : docmap)) by by destruct (decide (id = "0")).
      rewrite E in H1. destruct H1 as (s1 & Hrun & HI1 & Hc1 & Ho1). assert (rmFlush s ∅ f = false) as Hf by done. rewrite Hf in HI1.
      destruct (IH s1 HI1 Hq) as (s' & Hrun' & HI' & Hc'). { rewrite Hc1. unfold cap in *. rewrite Ho1. lia. }
      exists s'. split; [|split; [done|]]; [unfold run in *; simpl; by rewrite Hrun|]. by rewrite Hc', Hc1.
  Qed.
  Lemma waiting_flush ops s : Inv s ∅ ∅ → addCache s = [] → Forall start_op ops → adds ops < cap s →
    ∃ s' l, run sortDocs (ops ++ [OpAdd None true]) s = Some s' ∧ Inv s' (insertAll l ∅) ∅ ∧ addCache s' = [] ∧ l ≡ₚ (omap doc_added ops).*1.
  Proof.
    intros HI Hc Hq Hlen. destruct (waiting_run ops s HI Hq) as (s1 & Hr1 & HI1 & Hc1); [rewrite Hc, zlen_nil; lia|].
    rewrite Hc in Hc1. cbn [app] in Hc1.
    destruct (AddDocToCache_inv sortDocs Hsort None true s1 ∅ ∅ HI1 I) as (s2 & Hr2 & Ho2 & Hcase).
    assert (HW : waiting None s1 = (omap doc_added ops).*1) by (unfold waiting; cbn; rewrite ?app_nil_r; done).
    rewrite HW in Hcase. set (W := (omap doc_added ops).*1) in *.
    assert (Hrun : run sortDocs (ops ++ [OpAdd None true]) s = Some s2).
    { rewrite run_app, Hr1. cbn [mbind option_bind]. unfold run. cbn [foldlM step]. by rewrite Hr2. }
    assert (Hd1 : dying1 W ∅ ∅ = ∅). { apply map_eq. intros id. rewrite dying1_lookup, lookup_empty. by destruct (decide _). }
    assert (Hl1 : live1 W ∅ = ∅). { apply map_eq. intros id. rewrite live1_lookup, lookup_empty. by destruct (decide _). }
    destruct (addFlush s1 W true) eqn:EF.
    2: { destruct Hcase as [HI2 Hc2]. assert (W = []) as HWn.
         { unfold addFlush in EF. rewrite orb_true_r in EF. by destruct W. }
         exists s2, []. split; [done|]. split; [done|]. by rewrite Hc2, HWn. }
    cbv zeta in Hcase. rewrite Hd1, Hl1 in Hcase. assert (rmFlush s1 ∅ true = false) as Hf by done. rewrite Hf in Hcase.
    destruct Hcase as (kept & other & l & H1 & H2 & H3 & H4 & _ & H5 & H6).
    assert (kept = []) as ->. { destruct kept as [|z kept]; [done|]. destruct (H2 z) as [? Hz]; [left|]. by rewrite lookup_empty in Hz. }
    exists s2, l. split; [done|]. split; [done|]. split; [done|]. by rewrite H4.
  Qed.
End Waiting.

Section Lost.
  Context (murmur : string → Z) (n : Z) (only reqsFirst : bool) (cap : chan → nat) (Hn : 1 <= n < 2^32).
  Context (accepts : string → string → bool) (encode : DocData → option string) (nS : Z) (HnS : 1 <= nS < 2^32) (reqsFirst2 : bool).
  Context (iter : kv → list (string * string)) (Hiter : valid_iter iter) (decode : string → DocData * bool).
  Context (X : Ext) (stop : gset string) (o : SegOpts) (HX : valid_range X).
  Notation sreachp := (session_reach murmur n only reqsFirst cap accepts encode nS reqsFirst2).
  Notation ixs := (ixStream murmur n).

  Lemma recs_stream recs i : Forall (λ c, ∃ doc f ct a, c = EIndex doc f ct a false ∧ good_doc doc ∧ DocId doc ≠ "0") (mjoin recs) →
    Forall start_op (ixs i (mjoin recs)) ∧ adds (ixs i (mjoin recs)) <= zlen (mjoin recs) ∧
    (∀ doc f ct a fo, EIndex doc f ct a fo ∈ mjoin recs → u32 (murmur (String.append (DocId doc) ct)) `mod` n = i →
       doc ∈ (omap doc_added (ixs i (mjoin recs))).*1) ∧
    (∀ doc, doc ∈ (omap doc_added (ixs i (mjoin recs))).*1 → ∃ f ct a fo, EIndex doc f ct a fo ∈ mjoin recs).
  Proof.
    generalize (mjoin recs). clear recs. induction 1 as [|c cs (doc & f & ct & a & -> & Hg & H0) _ (IH1 & IH2 & IH3 & IH4)].
    { split; [constructor|]. split; [done|]. split; [by intros ????? ?%elem_of_nil|by intros ? ?%elem_of_nil]. }
    change (ixs i (EIndex doc f ct a false :: cs)) with (ixMsgs murmur n i (EIndex doc f ct a false) ++ ixs i cs). cbn [ixMsgs].
    destruct (seqb (DocId doc) "0") eqn:E0; [by apply seqb_eq in E0|]. rewrite zlen_cons.
    rewrite (shardOf_mod murmur n _ _ Hn). destruct (Z.eqb_spec (u32 (murmur (String.append (DocId doc) ct)) `mod` n) i) as [Ei|Ei].
    - cbn [app]. split; [constructor; [left; eauto|done]|]. split; [rewrite adds_cons; cbn [isAdd]; lia|].
      change ((omap doc_added (OpAdd (Some doc) false :: ixs i cs)).*1) with (doc :: (omap doc_added (ixs i cs)).*1). split.
      + intros doc' f' ct' a' fo' Hc Ei'. apply elem_of_cons in Hc as [E|Hc]; [injection E as -> -> -> -> ->; left|]. right. by eapply IH3.
      + intros doc' Hd. apply elem_of_cons in Hd as [->|Hd]; [by exists f, ct, a, false; left|].
        destruct (IH4 doc' Hd) as (f' & ct' & a' & fo' & Hc). exists f', ct', a', fo'. by right.
    - cbn [app]. split; [done|]. split; [lia|]. split.
      + intros doc' f' ct' a' fo' Hc Ei'. apply elem_of_cons in Hc as [E|Hc]; [injection E as -> -> -> -> ->; done|]. by eapply IH3.
      + intros doc' Hd. destruct (IH4 doc' Hd) as (f' & ct' & a' & fo' & Hc). exists f', ct', a', fo'. by right.
  Qed.
  Lemma removals_stream i ph : Forall (λ c, ∃ id fo, c = WRemove id fo ∧ id ≠ "0") ph →
    Forall start_op (ixs i (pipeProg ph)) ∧ adds (ixs i (pipeProg ph)) = 0 ∧ omap doc_added (ixs i (pipeProg ph)) = [].
  Proof.
    induction 1 as [|c cs (id & fo & -> & H0) _ (IH1 & IH2 & IH3)]; [split; [constructor|done]|].
    change (ixs i (pipeProg (WRemove id fo :: cs))) with (OpRemove id fo :: ixs i (pipeProg cs)).
    split; [constructor; [right; eauto|done]|]. by rewrite adds_cons.
  Qed.
  Lemma adds_perm l1 l2 : l1 ≡ₚ l2 → adds l1 = adds l2.
  Proof. intros H. unfold adds, zlen. by rewrite H. Qed.

  Theorem removals_lost sortDocs io s0 nseg recs dbs ph s :
    valid_sort sortDocs → Init io = Some s0 → placed murmur nS dbs → no_zero nS dbs → recoverProgs iter decode X stop o nS dbs = Some recs →
    zlen (mjoin recs) < DocCacheSize (initOptions s0) → Forall (λ c, ∃ id fo, c = WRemove id fo ∧ id ≠ "0") ph →
    sreachp nseg recs [wprogram [ph]] s → wreturned 0 s →
    (∀ id d, stored murmur nS decode dbs id d → ∃ ix M doc,
       run sortDocs (ixCalls (u32 (murmur (String.append id (ddContent d))) `mod` n) (wLog s)) s0 = Some ix ∧ shows ix M ∧
       addCache ix = [] ∧ segDoc X stop o id d = Some doc ∧ M !! id = Some doc) ∧
    (store_rest s → ∀ id fo, WRemove id fo ∈ ph → dbAfter murmur nS dbs (wSLog s) (storeShard murmur nS id) !! id = None).
  Proof.
    intros Hv HI Hpl Hz Hp Hlen Hph Hr Hret.
    destruct (recs_write murmur nS HnS iter Hiter decode X stop o HX dbs recs Hpl Hz Hp) as (Hw & [_ Hnd] & Hin1 & Hin2). split.
    - intros id d Hst. destruct (Hin2 id d Hst) as (doc & Hsd & <- & Hc).
      set (i := u32 (murmur (String.append (DocId doc) (ddContent d))) `mod` n). assert (Hi : 0 <= i < n) by (apply Z.mod_pos_bound; lia).
      assert (Hph' : Forall write_call (pipeProg ph)).
      { apply Forall_fmap. eapply Forall_impl; [exact Hph|]. by intros c (id & fo & -> & H0). }
      destruct (session_staged murmur n only reqsFirst cap Hn accepts encode nS reqsFirst2 nseg recs ph [] s) as (p & q & l & _ & _ & _ & _ & El & _ & Hstg & Hk & _);
        [done|by constructor|done|].
      pose proof (staged_end murmur n only reqsFirst _ q i Hstg (Hk 0%nat Hret) Hi) as HB.
      unfold phases_after in HB. cbn [fmap list_fmap] in HB. inversion HB as [|phs ops ph' l' HB0 Hl E1 E2].
      assert (phs = [] ∧ ph' = mjoin recs ++ pipeProg ph) as [-> ->].
      { destruct phs as [|x [|y phs]]; [by injection E1|done|done]. }
      inversion HB0 as [|? ? ? ? ? ? E3]; [|by destruct (app_cons_not_nil _ _ _ (eq_sym E3))]. subst ops. clear HB0 E1.
      rewrite <-app_assoc, !ixStream_app in Hl. change (ixs i [EFlush]) with [OpAdd None true] in Hl. rewrite app_assoc in Hl. apply Permutation_app_inv_r in Hl.
      destruct (recs_stream recs i) as (R1 & R2 & R3 & R4).
      { apply Forall_forall. intros c Hcin. rewrite Forall_forall in Hw. specialize (Hw c Hcin).
        destruct (recover_calls iter decode X stop o nS dbs recs Hp) as (rs & _ & HF).
        apply elem_of_list_lookup in Hcin as [k Hkk]. destruct (Forall2_lookup_r _ _ _ _ _ HF Hkk) as (pp & _ & H).
        unfold indexCall in H. destruct (segDoc X stop o pp.1 pp.2) as [doc'|]; [|done]. injection H as <-. destruct Hw as [? ?]. by eexists _, _, _, _. }
      destruct (removals_stream i ph Hph) as (S1 & S2 & S3).
      destruct (Init_inv io s0 HI) as [HInv Hc0].
      destruct (waiting_flush sortDocs Hv l' s0 HInv Hc0) as (ix & W & Hrun & HIx & Hac & HW).
      { rewrite Hl. by apply Forall_app. }
      { rewrite (adds_perm _ _ Hl). unfold adds in *. rewrite filter_app, zlen_app. unfold ProofIndexer.cap. lia. }
      exists ix, (insertAll W ∅), doc. split; [rewrite <-El, <-E2; exact Hrun|]. split; [by eapply inv_shows|]. split; [done|]. split; [done|].
      assert (Hdoc : doc ∈ W).
      { rewrite HW, Hl, omap_app, S3, app_nil_r. by eapply R3. }
      destruct (insertAll_lookup_in W ∅ (DocId doc)) as (doc' & Hlk & Hd' & Eid); [by apply elem_of_list_fmap_1|].
      rewrite Hlk. f_equal. rewrite HW, Hl, omap_app, S3, app_nil_r in Hd'. destruct (R4 doc' Hd') as (f' & ct' & a' & fo' & Hc').
      assert (HE : EIndex doc' f' ct' a' fo' = EIndex doc (ddFields d) (ddContent d) (ddAttri d) false); [|by injection HE].
      eapply (omap_inj call_id _ _ _ (DocId doc)); [exact Hnd|exact Hc'|exact Hc|cbn; by rewrite Eid|done].
    - intros [Hidle Hdel] id fo Hin. assert (H0 : id ≠ "0").
      { rewrite Forall_forall in Hph. destruct (Hph _ Hin) as (id' & fo' & E & H0). by injection E as -> ->. }
      destruct (session_rest_view murmur n only reqsFirst cap Hn accepts encode nS reqsFirst2 nseg recs [ph] s ltac:(done) Hr Hret) as (cs & q & pre & Ecs & (Hqr & Hqd & Hqw) & E1 & Hpre & E2 & E3).
      rewrite E1, (db_phantom murmur nS) by done.
      assert (Hns : ∀ d, SIndex id d ∉ cs ++ [SFlush]).
      { rewrite <-Ecs. intros d Hd. apply elem_of_list_fmap in Hd as ([doc d' fo'| |] & E & Hc); [|done|done].
        cbn in Hc. rewrite app_nil_r in Hc. apply elem_of_app in Hc as [Hc|Hc%elem_of_list_singleton]; [|done].
        rewrite Forall_forall in Hph. by destruct (Hph _ Hc) as (? & ? & ? & _). }
      assert (Hrin : SRemove id ∈ cs ++ [SFlush]).
      { rewrite <-Ecs. apply elem_of_list_fmap. exists (WRemove id fo). split; [done|]. cbn. rewrite app_nil_r. apply elem_of_app. by left. }
      destruct (outcomes_lem accepts encode murmur nS dbs (cs ++ [SFlush]) q id H0 Hqr) as [(v & (c1 & d & c2 & E & _) & _)|[[_ H]|[H _]]]; [| |done|done].
      { split; [done|]. split; [done|]. by rewrite E3. }
      exfalso. apply (Hns d). rewrite E. apply elem_of_app. right. by left.
  Qed.
End Lost.

(** * The recovery before a session *)
Section Recovery.
  Context (murmur : string → Z) (n : Z) (only reqsFirst : bool) (cap : chan → nat) (Hn : 1 <= n < 2^32).
  Context (nS : Z) (HnS : 1 <= nS < 2^32).
  Context (iter : kv → list (string * string)) (Hiter : valid_iter iter) (decode : string → DocData * bool).
  Context (X : Ext) (stop : gset string) (o : SegOpts) (HX : valid_range X).
  Notation preach := (pipe_reach murmur n only reqsFirst cap).
  Notation ixs := (ixStream murmur n).

  Lemma recovered_calls nseg recs p i : preach nseg recs p → recovered (length recs) p →
    Forall (λ c, ∃ doc f ct a, c = EIndex doc f ct a false ∧ good_doc doc ∧ DocId doc ≠ "0") (mjoin recs) → 0 <= i < n →
    ixCalls i (sLog p) ≡ₚ ixs i (mjoin recs).
  Proof.
    intros Hp Hrec Hc Hi. pose proof (ixs_recovered murmur n only reqsFirst cap Hn nseg recs p i Hp Hrec Hi) as HP.
    destruct (ixCalls i (ProofPipe.todo murmur n only p)) as [|x l] eqn:E; [by rewrite app_nil_r in HP|]. exfalso.
    assert (Hx : x ∈ ixCalls i (ProofPipe.todo murmur n only p)) by (rewrite E; by left).
    assert (Hxs : start_op x).
    { destruct (recs_stream murmur n Hn recs i Hc) as (R1 & _). rewrite <-HP in R1. apply Forall_app in R1 as [_ R1]. by apply Forall_cons in R1 as [? _]. }
    assert (Hxa : ∃ d, x = OpAdd (Some d) false).
    { destruct Hxs as [(d & -> & _)|(id & f & ->)]; [by exists d|]. exfalso.
      assert (Hin : OpRemove id f ∈ ixs i (mjoin recs)) by (rewrite <-HP; apply elem_of_app; right; by left).
      clear -Hin Hc. unfold ixStream in Hin. apply elem_of_list_join in Hin as (l & Hin & Hl). apply elem_of_list_fmap in Hl as (c & -> & Hcc).
      rewrite Forall_forall in Hc. destruct (Hc c Hcc) as (doc & g & ct & a & -> & _ & _). cbn in Hin.
      repeat case_match; try (by apply elem_of_nil in Hin); by apply elem_of_list_singleton in Hin. }
    destruct Hxa as [d ->]. apply ixCalls_elem in Hx.
    pose proof (todo_paired murmur n only reqsFirst cap Hn nseg recs p Hp PDocs _ Hx eq_refl) as Hfin. revert Hfin.
    destruct Hrec as [Hrec Hval]. eapply (eq_drained murmur n only reqsFirst cap Hn PDocs); [exact Hp| |cbn; lia].
    unfold ProofPipe.todo, evsP. rewrite elem_of_app. intros [H|H].
    - assert (Hnr : noreq (mjoin (ProofPipe.evsA murmur n only ∘ pActs <$> sProcs p))); [|by apply Hnr in H].
      apply (noreq_join n Hn). rewrite <-(take_drop (length recs) (sProcs p)). apply Forall_app. split.
      + eapply Forall_impl; [exact Hrec|]. intros c [Ha _]. cbn. rewrite Ha. apply noreq_nil.
      + eapply Forall_impl; [by apply (workers_ok murmur n only reqsFirst cap Hn nseg)|]. by intros c [(_ & _ & ?) _].
    - assert (Hnr : noreq (ProofPipe.evsN murmur n only (sNet p))) by (apply (noreq_join n Hn), Forall_true; intros []; apply noreq_M; done).
      by apply Hnr in H.
  Qed.

  Theorem recovery_complete nseg recs dbs p : placed murmur nS dbs → no_zero nS dbs → recoverProgs iter decode X stop o nS dbs = Some recs →
    preach nseg recs p → recovered (length recs) p →
    ∀ id d, stored murmur nS decode dbs id d → ∃ doc, segDoc X stop o id d = Some doc ∧
      OpAdd (Some doc) false ∈ ixCalls (u32 (murmur (String.append id (ddContent d))) `mod` n) (sLog p).
  Proof.
    intros Hpl Hz Hp Hr Hrec id d Hst.
    destruct (recs_write murmur nS HnS iter Hiter decode X stop o HX dbs recs Hpl Hz Hp) as (Hw & _ & Hin1 & Hin2).
    destruct (Hin2 id d Hst) as (doc & Hsd & <- & Hc). exists doc. split; [done|].
    set (i := u32 (murmur (String.append (DocId doc) (ddContent d))) `mod` n). assert (Hi : 0 <= i < n) by (apply Z.mod_pos_bound; lia).
    assert (HF : Forall (λ c, ∃ doc f ct a, c = EIndex doc f ct a false ∧ good_doc doc ∧ DocId doc ≠ "0") (mjoin recs)).
    { apply Forall_forall. intros c Hcin. rewrite Forall_forall in Hw. specialize (Hw c Hcin).
      destruct (recover_calls iter decode X stop o nS dbs recs Hp) as (rs & _ & HF).
      apply elem_of_list_lookup in Hcin as [k Hkk]. destruct (Forall2_lookup_r _ _ _ _ _ HF Hkk) as (pp & _ & H).
      unfold indexCall in H. destruct (segDoc X stop o pp.1 pp.2) as [doc'|]; [|done]. injection H as <-. destruct Hw as [? ?]. by eexists _, _, _, _. }
    rewrite (recovered_calls nseg recs p i Hr Hrec HF Hi).
    destruct (recs_stream murmur n Hn recs i HF) as (R1 & _ & R3 & _). pose proof (R3 _ _ _ _ _ Hc eq_refl) as Hd.
    apply elem_of_list_fmap in Hd as ([doc' fo] & E & Hd). cbn in E. subst doc'. apply elem_of_list_omap in Hd as (x & Hx & Ex).
    rewrite Forall_forall in R1. destruct (R1 x Hx) as [(d' & -> & _)|(? & ? & ->)]; [|done]. cbn in Ex. by injection Ex as -> <-.
  Qed.

  Theorem recovery_ends nseg recs s ks : (∀ ch, (1 <= cap ch)%nat) → (1 <= nseg)%nat → preach nseg recs s →
    fair (length recs + nseg + 4 * Z.to_nat n) ks →
    ∃ i, recovered (length recs) (after (pstep murmur n only reqsFirst cap) ks s i).
  Proof.
    intros Hcap Hs Hr Hf. destruct (rest_lem murmur n only reqsFirst cap Hn Hcap nseg recs s ks Hs Hr Hf) as [i Hi].
    exists i. set (q := after (pstep murmur n only reqsFirst cap) ks s i) in *.
    assert (Hq : preach nseg recs q).
    { subst q. clear -Hr. induction i as [|i IH]; [done|]. cbn [after]. unfold turn. destruct (pstep _ _ _ _ _ _ _) eqn:E; [|done].
      eapply rtc_r; [exact IH|]. by eexists. }
    destruct (C38_lem murmur n only reqsFirst cap Hn nseg recs q Hq) as (H1 & _). destruct Hi as [Hnet Hps].
    split; [apply Forall_take; eapply Forall_impl; [exact Hps|]; by intros c [? ?]|].
    rewrite H1. unfold in_flight. rewrite Hnet.
    assert (HZ : zsum (proc_owed docs_owed NumIndexingReqs NumDocsIndexed <$> sProcs q) = 0); [|cbn in *; lia].
    clear -Hps. induction Hps as [|c l [Ha _] _ IH]; [done|]. rewrite fmap_cons. change (zsum (?x :: ?y)) with (x + zsum y). rewrite IH.
    unfold proc_owed. rewrite Ha. by destruct (not_counted _ _).
  Qed.
End Recovery.
