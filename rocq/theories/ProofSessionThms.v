(** Sessions of the engine on the same files: Flush, searches, many sessions. *)
From Verif Require Import ModelSession ModelEngine SpecIndexer SpecSearch SpecRank SpecRoute SpecPipe SpecSegment SpecEngine SpecFlight SpecStore SpecEnd SpecLife SpecClose SpecWhole SpecSession
  ProofSegThms ProofSegEnd ProofStore ProofStoreRun ProofStoreEnd ProofStoreThms ProofRecover ProofPipe ProofBlocks ProofFlush ProofFlushThms ProofEnd ProofLife ProofClose ProofRanker ProofWhole ProofWholeThms ProofSession.

Section SessionThms.
  Context (murmur : string → Z) (n : Z) (only reqsFirst : bool) (cap : chan → nat) (Hn : 1 <= n < 2^32).
  Context (accepts : string → string → bool) (encode : DocData → option string) (nS : Z) (HnS : 1 <= nS < 2^32) (reqsFirst2 : bool).
  Notation preach := (pipe_reach murmur n only reqsFirst cap).
  Notation sreachp := (session_reach murmur n only reqsFirst cap accepts encode nS reqsFirst2).
  Notation todo := (ProofPipe.todo murmur n only).
  Notation evsA := (ProofPipe.evsA murmur n only).

  (** * The stages of the client *)
  Lemma ixs_recovered nseg recs p i : preach nseg recs p → recovered (length recs) p → 0 <= i < n →
    ixCalls i (sLog p) ++ ixCalls i (todo p) ≡ₚ ixStream murmur n i (mjoin recs).
  Proof.
    intros Hp [Hrec _] Hi. pose proof (reach_all murmur n only reqsFirst cap nseg recs p Hp) as Ha.
    assert (HE : evsAll murmur n only reqsFirst p = todo p).
    { unfold evsAll, ProofPipe.todo, evsP. f_equal. f_equal. rewrite <-(take_drop (length recs) (sProcs p)), !fmap_app. 
      assert (HF : ∀ l : list proc, Forall (λ c, pCalls c = []) l → evsPr murmur n only reqsFirst <$> l = evsA ∘ pActs <$> l).
      { clear. induction 1 as [|c l Hc _ IH]; [done|]. rewrite !fmap_cons, IH. f_equal. unfold evsPr. rewrite Hc. apply app_nil_r. }
      rewrite !HF; [done|..].
      - eapply Forall_impl; [by apply (workers_ok murmur n only reqsFirst cap Hn nseg)|]. by intros c [(_ & ? & _) _].
      - eapply Forall_impl; [exact Hrec|]. by intros c [_ ?]. }
    rewrite HE in Ha. rewrite <-ixCalls_app, (ixCalls_perm i _ _ Ha). by rewrite ixCalls_calls.
  Qed.
  Definition phases_after (recs : list (list ecall)) (ph1 : list wcall) (rest : list (list wcall)) : list (list ecall) :=
    (mjoin recs ++ pipeProg ph1) :: (pipeProg <$> rest).
  Lemma program_after recs ph1 rest : program (phases_after recs ph1 rest) = mjoin recs ++ pipeProg (wprogram (ph1 :: rest)).
  Proof. rewrite pipeProg_program. unfold phases_after, program. rewrite !fmap_cons, !mjoin_cons, <-!app_assoc. done. Qed.
  Lemma start_staged nseg recs p ph1 rest : preach nseg recs p → recovered (length recs) p → Forall write_call (mjoin recs) →
    staged murmur n only reqsFirst (phases_after recs ph1 rest) (fr [pipeProg (wprogram (ph1 :: rest))] p).
  Proof.
    intros Hp Hrec Hw. exists (client (pipeProg (wprogram (ph1 :: rest)))), (sProcs p). split.
    - split; [done|]. split; [done|]. rewrite <-(take_drop (length recs) (sProcs p)). apply Forall_app. split.
      + eapply Forall_impl; [apply Hrec|]. intros c [Ha Hc]. split; [by right|]. split; [done|]. rewrite Ha. apply noreq_nil.
      + eapply Forall_impl; [by apply (workers_ok murmur n only reqsFirst cap Hn nseg)|]. by intros c [? _].
    - eapply (StA _ _ _ _ _ _ _ [] (phases_after recs ph1 rest) (mjoin recs)); [done| |by apply ProofBlocks.writes_loose|constructor|].
      + by rewrite program_after.
      + intros i Hi. exists [], (ixCalls i (sLog p)). cbn [fr sLog app]. split; [done|]. split; [constructor|].
        change (todo (fr [pipeProg (wprogram (ph1 :: rest))] p)) with (todo p). by eapply ixs_recovered.
  Qed.
  Lemma session_staged nseg recs ph1 rest s : Forall write_call (mjoin recs) → Forall (Forall write_call) (pipeProg <$> (ph1 :: rest)) →
    sreachp nseg recs [wprogram (ph1 :: rest)] s →
    ∃ p q l, preach nseg recs p ∧ recovered (length recs) p ∧ preach nseg ([pipeProg (wprogram (ph1 :: rest))] ++ recs) q ∧
      sNet q = wNet s ∧ sLog q = wLog s ∧ wLog s = sLog p ++ l ∧
      staged murmur n only reqsFirst (phases_after recs ph1 rest) q ∧
      (∀ k, wreturned k s → returned k q) ∧ (all_returned s → pipe_rest s → quiescent q).
  Proof.
    intros Hw Hph (p & Hp & Hrec & Hr).
    destruct (pinv_view murmur n only reqsFirst cap s (fr (pipeProg <$> [wprogram (ph1 :: rest)]) p) (take (length recs) (sProcs p))) as (q & P & Hq & E1 & E2 & E3 & El & H1 & H2).
    { eapply pinv_rtc; [exact Hr|]. intros b. by apply start_pinv. }
    { apply Hrec. }
    assert (Hlog : ∃ l, sLog q = sLog p ++ l).
    { clear -Hq. change (sLog p) with (sLog (fr (pipeProg <$> [wprogram (ph1 :: rest)]) p)). revert Hq. generalize (fr (pipeProg <$> [wprogram (ph1 :: rest)]) p).
      intros p0 Hq. induction Hq as [x|x y z [k Hk] _ [l IH]]; [exists []; by rewrite app_nil_r|].
      apply pstep_inv in Hk as (c & c' & net' & log' & Hc & Hs & ->). cbn [sLog] in IH.
      destruct (procStep_perm _ _ _ _ _ _ _ _ _ _ _ Hs) as (_ & [d Hd] & _). exists (d ++ l). by rewrite IH, Hd, app_assoc. }
    destruct Hlog as [l Hl]. exists p, q, l. split; [done|]. split; [done|].
    assert (Hst : preach nseg ([pipeProg (wprogram (ph1 :: rest))] ++ recs) (fr (pipeProg <$> [wprogram (ph1 :: rest)]) p)) by by apply fr_reach.
    split; [unfold pipe_reach in *; by etrans|]. split; [done|]. split; [done|]. split; [congruence|].
    split; [|split; [done|]].
    - eapply (stage_rtc murmur n only reqsFirst cap Hn); [|exact Hst|by apply (start_staged nseg)|exact Hq].
      rewrite fmap_cons in Hph. apply Forall_cons in Hph as [Hph1 Hph]. constructor; [apply ProofBlocks.writes_loose; by apply Forall_app|].
      eapply Forall_impl; [exact Hph|]. intros ph. apply ProofBlocks.writes_loose.
    - intros Ha Hpr. apply H2; [done|done|].
      assert (HC : cinv s). { eapply cinv_rtc; [exact Hr|]. by eapply (start_cinv murmur n only reqsFirst cap). }
      destruct HC as [_ HW]. eapply Forall_impl; [exact HW|]. by intros w (? & ? & ?).
  Qed.

  (** * The files *)
  Lemma rest_value dbs cs q id : id ≠ "0" → rest_state accepts encode murmur nS cs q →
    closed_value accepts encode (dbs (storeShard murmur nS id) !! id) (cs ++ [SFlush]) id (dbAfter murmur nS dbs (ssLog q) (storeShard murmur nS id) !! id).
  Proof.
    intros H0 Hrs. pose proof (rest_writes accepts encode murmur nS _ _ id H0 Hrs) as Hw. unfold closed_value.
    destruct (content_cases accepts murmur nS dbs id (ssLog q)) as [(v & w1 & w2 & H1 & H2 & H3)|[[H1 H2]|(H1 & H2 & H3)]].
    - left. exists v. split; [|done]. rewrite Hw in H1. apply puts_inv in H1 as (cs1 & d & cs2 & -> & E & <-).
      exists cs1, d, (cs2 ++ [SFlush]). split; [by rewrite <-app_assoc|]. split; [by apply written_writable|].
      intros d' v' [Hin|Hin%elem_of_list_singleton]%elem_of_app; [|done]. by eapply puts_none.
    - right; left. split; [|done]. apply elem_of_app. left. eapply rest_dels; [done|by left].
    - right; right. split; [|done]. rewrite Hw in H2. intros d v [Hin|Hin%elem_of_list_singleton]%elem_of_app; [|done].
      by eapply puts_none.
  Qed.
  Lemma session_all nseg recs prog s : sreachp nseg recs [prog] s → wreturned 0 s → all_returned s.
  Proof.
    intros (p & _ & _ & Hr) (c & Hc & H1 & H2).
    assert (Hl : length (wClients s) = 1%nat).
    { clear -Hr. revert s Hr. apply (rtc_ind_r (R := wholeStep _ _ _ _ _ _ _ _ _) (λ s, length (wClients s) = 1%nat)); [done|].
      intros y z _ [m Hm] H. rewrite <-H. destruct m as [k|k|j|k]; cbn in Hm.
      - unfold wclientStep in Hm. destruct (wClients y !! k) as [c|]; [|done]. cbn in Hm.
        destruct (wActs c) as [|[] acts]; simplify_option_eq; repeat case_match; simplify_eq; by cbn; rewrite ?insert_length.
      - unfold wprocStep in Hm. simplify_option_eq. repeat case_match; by simplify_eq.
      - unfold wstoreStep in Hm. by simplify_option_eq.
      - unfold wstoreStep in Hm. by simplify_option_eq. }
    unfold all_returned. destruct (wClients s) as [|c' [|]]; [done| |done]. injection Hc as ->. by repeat constructor.
  Qed.
  Lemma session_rest_view nseg recs phases s : phases ≠ [] → sreachp nseg recs [wprogram phases] s → wreturned 0 s →
    ∃ cs q ph, storeProg (wprogram phases) = cs ++ [SFlush] ∧ rest_state accepts encode murmur nS cs q ∧ wSLog s = ph ++ ssLog q ∧ Forall phantom ph ∧
      ssWork q = wWork s ∧ ssDels q = wDels s.
  Proof.
    intros Hne Hr Hret. destruct (store_flush phases Hne) as [cs Ecs]. pose proof (session_all _ _ _ _ Hr Hret) as Hall.
    destruct (session_store murmur n only reqsFirst cap accepts encode nS reqsFirst2 nseg recs _ s Hn Hr) as (q & ph & Hq & E1 & Hph & _ & E2 & E3 & _ & Hd).
    exists cs, q, ph. split; [done|]. split; [|done]. cbn in Hq. rewrite Ecs in Hq. specialize (Hd Hall).
    split; [done|]. split; [done|]. eapply flush_done; done.
  Qed.

  (** * Flush *)
  Theorem session_flush sortDocs io s0 nseg recs dbs ph1 rest s :
    valid_sort sortDocs → Init io = Some s0 → Forall write_call (mjoin recs) →
    good_phase (mjoin recs ++ pipeProg ph1) → Forall (λ ph, good_phase (pipeProg ph)) rest →
    sreachp nseg recs [wprogram (ph1 :: rest)] s → wreturned 0 s →
    (∀ i, 0 <= i < n → ∃ ix M, run sortDocs (ixCalls i (wLog s)) s0 = Some ix ∧ shows ix M ∧ clean ix M ∧
       addCache ix = [] ∧ removeCache ix = [] ∧ ∀ id, M !! id = version murmur n i (mjoin recs ++ pipeProg (wprogram (ph1 :: rest))) id) ∧
    (∀ id, id ≠ "0" → closed_value accepts encode (dbs (storeShard murmur nS id) !! id) (storeProg (wprogram (ph1 :: rest))) id
       (dbAfter murmur nS dbs (wSLog s) (storeShard murmur nS id) !! id)) ∧
    Forall (eq WIdle) (wWork s).
  Proof.
    intros Hv HI Hw Hg1 Hg Hr Hret.
    destruct (session_rest_view nseg recs (ph1 :: rest) s ltac:(done) Hr Hret) as (cs & q & ph & Ecs & Hrs & E1 & Hph & E2 & _).
    split; [|split].
    - intros i Hi. assert (HG : Forall good_phase (phases_after recs ph1 rest)) by (constructor; [done|by apply Forall_fmap]).
      destruct (session_staged nseg recs ph1 rest s) as (p & qq & l & _ & _ & _ & _ & El & _ & Hst & Hk & _); [done| |done|].
      { rewrite fmap_cons. constructor; [destruct Hg1 as [Hg1 _]; by apply Forall_app in Hg1 as [_ ?]|]. apply Forall_fmap. eapply Forall_impl; [exact Hg|]. by intros ? [? _]. }
      rewrite <-El, <-program_after. eapply (C39_gen murmur n only reqsFirst Hn); try done. by apply Hk.
    - intros id H0. rewrite E1, (db_phantom murmur nS) by done. rewrite Ecs. by apply rest_value.
    - rewrite <-E2. apply Hrs.
  Qed.

  Context (iter : kv → list (string * string)) (Hiter : valid_iter iter) (decode : string → DocData * bool).
  Context (X : Ext) (stop : gset string) (o : SegOpts) (HX : valid_range X).

  (** * Documents from the files and documents from the calls *)
  Lemma recs_write dbs recs : placed murmur nS dbs → no_zero nS dbs → recoverProgs iter decode X stop o nS dbs = Some recs →
    Forall write_call (mjoin recs) ∧ once_each (mjoin recs) ∧
    (∀ doc f ct a fo, EIndex doc f ct a fo ∈ mjoin recs →
       ∃ d, stored murmur nS decode dbs (DocId doc) d ∧ segDoc X stop o (DocId doc) d = Some doc ∧
         f = ddFields d ∧ ct = ddContent d ∧ a = ddAttri d) ∧
    (∀ id d, stored murmur nS decode dbs id d → ∃ doc, segDoc X stop o id d = Some doc ∧ DocId doc = id ∧
       EIndex doc (ddFields d) (ddContent d) (ddAttri d) false ∈ mjoin recs).
  Proof.
    intros Hpl Hz Hp. destruct (recover_members murmur iter Hiter decode X stop o HX nS dbs recs HnS Hpl Hz Hp) as ([Hg Hnd] & H1 & H2).
    rewrite mjoin_app, mjoin_cons in Hg, Hnd, H1, H2. cbn [mjoin list_join] in *. rewrite app_nil_r in *.
    apply Forall_app in Hg as [Hg _]. rewrite omap_app, app_nil_r in Hnd.
    destruct (recover_calls iter decode X stop o nS dbs recs Hp) as (rs & _ & HF).
    assert (HE : ∀ c, c ∈ mjoin recs → c ≠ EFlush ∧ ∀ id f, c ≠ ERemove id f).
    { intros c Hc. apply elem_of_list_lookup in Hc as [k Hk]. destruct (Forall2_lookup_r _ _ _ _ _ HF Hk) as (p & _ & H).
      unfold indexCall in H. destruct (segDoc X stop o p.1 p.2); [|done]. by injection H as <-. }
    split; [|split; [done|split]].
    - apply Forall_forall. intros c Hc. rewrite Forall_forall in Hg. destruct (Hg c Hc) as [Hgc H0], (HE c Hc) as [E1 E2].
      destruct c as [doc f ct a fo|id f|]; [|by destruct (E2 id f)|done]. cbn in *. split; [done|congruence].
    - intros doc f ct a fo Hc. eapply H1. apply elem_of_app. by left.
    - intros id d Hst. destruct (H2 id d Hst) as (doc & ? & ? & Hc). exists doc. split; [done|]. split; [done|].
      apply elem_of_app in Hc as [Hc|Hc%elem_of_list_singleton]; done.
  Qed.
  Lemma recs_ids dbs recs id : placed murmur nS dbs → no_zero nS dbs → recoverProgs iter decode X stop o nS dbs = Some recs →
    id ∈ omap call_id (mjoin recs) → is_Some (dbs (storeShard murmur nS id) !! id).
  Proof.
    intros Hpl Hz Hp Hid. destruct (recs_write dbs recs Hpl Hz Hp) as (Hw & _ & H1 & _).
    apply elem_of_list_omap in Hid as (c & Hc & E). destruct (recover_calls iter decode X stop o nS dbs recs Hp) as (rs & _ & HF).
    pose proof Hc as Hc'. apply elem_of_list_lookup in Hc' as [k Hk]. destruct (Forall2_lookup_r _ _ _ _ _ HF Hk) as (p & _ & H).
    unfold indexCall in H. destruct (segDoc X stop o p.1 p.2) as [doc|]; [|done]. cbn in H. injection H as <-. injection E as <-.
    destruct (H1 _ _ _ _ _ Hc) as (d & (v & Hv & _) & _). by eexists.
  Qed.
  Lemma fresh_nodup dbs recs cs : placed murmur nS dbs → no_zero nS dbs → recoverProgs iter decode X stop o nS dbs = Some recs →
    fresh_ids murmur nS dbs cs → NoDup (omap call_id (pipeProg cs)) → NoDup (omap call_id (mjoin recs ++ pipeProg cs)).
  Proof.
    intros Hpl Hz Hp Hf Hnd. rewrite omap_app. apply NoDup_app. split; [apply (recs_write dbs recs Hpl Hz Hp)|]. split; [|done].
    intros id Hid Hid2. destruct (recs_ids dbs recs id Hpl Hz Hp Hid) as [v Hv].
    apply elem_of_list_omap in Hid2 as (c & Hc & E). apply elem_of_list_fmap in Hc as (c' & -> & Hc'). by rewrite (Hf _ _ Hc' E) in Hv.
  Qed.
  Lemma fresh_phase dbs recs ph : placed murmur nS dbs → no_zero nS dbs → recoverProgs iter decode X stop o nS dbs = Some recs →
    fresh_ids murmur nS dbs ph → good_phase (pipeProg ph) → good_phase (mjoin recs ++ pipeProg ph).
  Proof.
    intros Hpl Hz Hp Hf [Hw Hnd]. split; [|by eapply fresh_nodup]. apply Forall_app. split; [|done]. by eapply recs_write.
  Qed.

  Theorem C88_flush_lem sortDocs io s0 nseg recs dbs ph1 rest s :
    valid_sort sortDocs → Init io = Some s0 → placed murmur nS dbs → no_zero nS dbs → recoverProgs iter decode X stop o nS dbs = Some recs →
    Forall (λ ph, good_phase (pipeProg ph)) (ph1 :: rest) → fresh_ids murmur nS dbs ph1 →
    sreachp nseg recs [wprogram (ph1 :: rest)] s → wreturned 0 s →
    (∀ i, 0 <= i < n → ∃ ix M, run sortDocs (ixCalls i (wLog s)) s0 = Some ix ∧ shows ix M ∧ clean ix M ∧
       addCache ix = [] ∧ removeCache ix = [] ∧ ∀ id, M !! id = version murmur n i (mjoin recs ++ pipeProg (wprogram (ph1 :: rest))) id) ∧
    (∀ id, id ≠ "0" → closed_value accepts encode (dbs (storeShard murmur nS id) !! id) (storeProg (wprogram (ph1 :: rest))) id
       (dbAfter murmur nS dbs (wSLog s) (storeShard murmur nS id) !! id)) ∧
    Forall (eq WIdle) (wWork s).
  Proof.
    intros Hv HI Hpl Hz Hp Hg Hf. apply Forall_cons in Hg as [Hg1 Hg]. apply (session_flush sortDocs io s0); try done; [by eapply recs_write|by eapply fresh_phase].
  Qed.

  (** * Searches in a session *)
  Theorem session_search sortDocs sortBy io s0 nseg recs dbs phases s log2 req order shards :
    valid_sort sortDocs → valid_sortBy sortBy → Init io = Some s0 → placed murmur nS dbs → no_zero nS dbs →
    recoverProgs iter decode X stop o nS dbs = Some recs →
    Forall (λ ph, good_phase (pipeProg ph)) phases → phases ≠ [] → once_each (pipeProg (wprogram phases)) →
    fresh_ids murmur nS dbs (wprogram phases) → segmented X stop o accepts encode (wprogram phases) →
    sreachp nseg recs [wprogram phases] s → wreturned 0 s → pipe_rest s →
    engine_shards sortDocs s0 only n (pipePart s) shards →
    plain_request io req → scores_numbers log2 req shards → all_arrive (length shards) order →
    ∃ full out, Search log2 sortBy req shards order = Some (mkResp (rqTokens req) false (zlen full) (Some out)) ∧
      answers_docs only X stop o (stored_or_given murmur nS decode dbs (wprogram phases)) req full out.
  Proof.
    intros Hv Hvb HI Hpl Hz Hp Hg Hne [Hon Hnd] Hf Hseg Hr Hret Hpr Hsh Hreq Hnan Ha.
    destruct (recs_write dbs recs Hpl Hz Hp) as (Hw & [Hon2 _] & Hin1 & Hin2).
    destruct phases as [|ph1 rest]; [done|].
    assert (Hf1 : fresh_ids murmur nS dbs ph1).
    { intros c id Hc. apply Hf. change (wprogram (ph1 :: rest)) with ((ph1 ++ [WFlush]) ++ wprogram rest). apply elem_of_app. left. apply elem_of_app. by left. }
    pose proof Hg as Hg'. apply Forall_cons in Hg' as [Hg1 Hgr].
    destruct (session_staged nseg recs ph1 rest s) as (p & q & l & _ & _ & Hq & _ & El & _ & Hst & Hk & Hqq); [done| |done|].
    { apply Forall_fmap. eapply Forall_impl; [exact Hg|]. by intros ? [? _]. }
    specialize (Hqq (session_all _ _ _ _ Hr Hret) Hpr).
    assert (HG : Forall good_phase (phases_after recs ph1 rest)).
    { constructor; [by eapply fresh_phase|by apply Forall_fmap]. }
    apply (shards_pipe _ _ _ _ q) in Hsh; [|done].
    assert (Hnw : Forall nothing_waits shards).
    { destruct (shards_exist n only Hn sortDocs s0 q) as (sh & Hsh' & Hnw).
      - intros i Hi. destruct (C27_lem only (rkCalls i (sLog q))) as (rk & Hrk & _); [eapply drained_engine; [exact Hn|exact Hq|done|done]|].
        destruct (C39_gen murmur n only reqsFirst Hn sortDocs io s0 (phases_after recs ph1 rest) q i) as (ix & M & Hx & _ & _ & H1 & H2 & _); try done; [by apply Hk|].
        by exists ix, rk.
      - by rewrite (shards_unique _ _ _ _ _ _ _ Hsh Hsh'). }
    destruct (end_search murmur n only reqsFirst cap Hn sortDocs sortBy io s0 nseg _ q shards log2 req order Hv Hvb HI Hq Hqq) as (full & out & HS & HA); try done.
    { rewrite mjoin_app, mjoin_cons. cbn [mjoin list_join]. rewrite app_nil_r. split; [by apply Forall_app|].
      rewrite omap_app, Permutation_app_comm, <-omap_app. by eapply fresh_nodup. }
    exists full, out. split; [done|]. rewrite mjoin_app, mjoin_cons in HA. cbn [mjoin list_join] in HA. rewrite app_nil_r in HA.
    destruct HA as (F1 & F2 & F3 & F4 & F5 & F6). split; [done|]. split; [done|]. split; [done|]. split; [done|]. split.
    - intros h Hh. destruct (F5 h Hh) as (doc & f & ct & a & fo & [Hc|Hc]%elem_of_app & Hwn & Hsc).
      + apply elem_of_list_fmap in Hc as ([doc' d fo'| |] & E & Hc); [|done|done]. injection E as -> -> -> -> ->.
        exists (DocId doc'), d, doc'. split; [right; by exists doc', fo'|]. split; [by apply (Hseg _ _ _ Hc)|done].
      + destruct (Hin1 _ _ _ _ _ Hc) as (d & Hstd & Hsd & -> & -> & ->). exists (DocId doc), d, doc. split; [by left|done].
    - intros id d [Hs|(doc & fo & Hc & <-)].
      + destruct (Hin2 id d Hs) as (doc & Hsd & <- & Hc). exists doc. split; [done|]. split; [done|]. intros Hwn Hacc.
        eapply F6; [|done|done]. apply elem_of_app. by right.
      + exists doc. split; [by apply (Hseg _ _ _ Hc)|]. split; [done|]. intros Hwn Hacc.
        eapply F6; [|done|done]. apply elem_of_app. left. apply elem_of_list_fmap. by exists (WIndex doc d fo).
  Qed.

  (** * Any number of sessions *)
  Notation sess := (sessions murmur n only reqsFirst cap accepts encode nS reqsFirst2 iter decode X stop o).
  Lemma given_app cs1 cs2 id d : given (cs1 ++ cs2) id d ↔ given cs1 id d ∨ given cs2 id d.
  Proof.
    unfold given. split.
    - intros (doc & fo & [Hc|Hc]%elem_of_app & E); [left|right]; by exists doc, fo.
    - intros [(doc & fo & Hc & E)|(doc & fo & Hc & E)]; exists doc, fo; (split; [|done]); apply elem_of_app; [by left|by right].
  Qed.
  Lemma given_id cs id d : given cs id d → id ∈ omap call_id (pipeProg cs).
  Proof.
    intros (doc & fo & Hc & <-). apply elem_of_list_omap. exists (pipeCall (WIndex doc d fo)). split; [by apply elem_of_list_fmap_1|done].
  Qed.
  Lemma all_calls_app hist phases : all_calls (hist ++ [phases]) = all_calls hist ++ wprogram phases.
  Proof. unfold all_calls. rewrite fmap_app, mjoin_app. cbn [fmap list_fmap]. rewrite mjoin_cons. cbn [mjoin list_join]. by rewrite app_nil_r. Qed.
  Lemma once_each_app cs1 cs2 : once_each (pipeProg (cs1 ++ cs2)) → once_each (pipeProg cs1) ∧ once_each (pipeProg cs2) ∧
    (∀ id, id ∈ omap call_id (pipeProg cs1) → id ∉ omap call_id (pipeProg cs2)).
  Proof.
    unfold pipeProg. rewrite fmap_app. intros [Hg Hnd]. apply Forall_app in Hg as [Hg1 Hg2]. rewrite omap_app in Hnd.
    by apply NoDup_app in Hnd as (? & ? & ?).
  Qed.

  Theorem sessions_files nseg hist dbs : round_trip encode decode → sess nseg hist dbs → once_each (pipeProg (all_calls hist)) →
    segmented X stop o accepts encode (all_calls hist) → no_removal (all_calls hist) →
    placed murmur nS dbs ∧ no_zero nS dbs ∧ (∀ id v, dbs (storeShard murmur nS id) !! id = Some v → ∃ d, given (all_calls hist) id d) ∧
    ∀ id d, stored murmur nS decode dbs id d ↔ given (all_calls hist) id d.
  Proof.
    intros Hrt. induction 1 as [|hist dbs recs phases s _ IH Hp Hne Hg Hr Hret].
    { intros _ _ _. split; [|split; [done|split]].
      - intros j id _ [v Hv]. done.
      - intros id v Hv. done.
      - intros id d. split; [intros (v & Hv & _); done|]. intros (doc & fo & Hc & _). by apply elem_of_nil in Hc. }
    rewrite all_calls_app. intros Hon Hseg Hnr. apply once_each_app in Hon as (Hon1 & Hon2 & Hdis).
    destruct IH as (Hpl & Hz & Hent & Hst); [done| | |].
    { intros doc d fo Hc. apply (Hseg doc d fo). apply elem_of_app. by left. }
    { intros id fo Hc. apply (Hnr id fo). apply elem_of_app. by left. }
    destruct (session_rest_view nseg recs phases s Hne Hr Hret) as (cs & q & ph & Ecs & Hrs & E1 & Hph & E2 & E3).
    pose proof Hrs as (Hqr & Hqd & Hqw).
    assert (Hnos : ∀ id, SRemove id ∉ cs ++ [SFlush]).
    { rewrite <-Ecs. intros id Hin. apply elem_of_list_fmap in Hin as ([| id' fo|] & E & Hin); [done| |done]. apply (Hnr id' fo), elem_of_app. by right. }
    assert (Hdels : ssDels q = []).
    { destruct (ssDels q) as [|id l] eqn:E; [done|]. exfalso. apply (Hnos id), elem_of_app. left.
      eapply (rest_dels accepts encode murmur nS); [done|]. right. rewrite E. by left. }
    assert (HD : ∀ j, dbAfter murmur nS dbs (wSLog s) j = dbAfter murmur nS dbs (ssLog q) j) by (intros j; rewrite E1; by apply db_phantom).
    assert (Hlast : ∀ id d, given (wprogram phases) id d ↔ id ≠ "0" ∧ last_data (storeProg (wprogram phases)) id d).
    { intros id d. rewrite <-(given_survives murmur nS decode _ id d Hon2). unfold survives. split; [|by left].
      intros [H|[_ (v & Hv & _)]]; done. }
    assert (HinI : ∀ id d, SIndex id d ∈ cs ++ [SFlush] ↔ given (wprogram phases) id d).
    { intros id d. rewrite <-Ecs. unfold given, storeProg. rewrite elem_of_list_fmap. split.
      - intros ([doc d' fo| |] & E & Hc); [|done|done]. injection E as -> ->. by exists doc, fo.
      - intros (doc & fo & Hc & <-). by exists (WIndex doc d fo). }
    split; [|split; [|split]].
    - intros j id Hj Hs. rewrite HD in Hs. by eapply (dbAfter_placed murmur nS dbs (ssLog q)).
    - intros j Hj. rewrite HD. by eapply (no_zero_after murmur).
    - intros id v Hv. rewrite HD in Hv. destruct (decide (id = "0")) as [->|H0].
      { pose proof (no_zero_after murmur accepts encode nS dbs _ q HnS Hpl Hz Hqr (storeShard murmur nS "0")) as Hz'.
        rewrite Hz' in Hv; [done|]. apply shard_range. lia. }
      pose proof (rest_value dbs cs q id H0 Hrs) as Hcv. rewrite Hv in Hcv.
      destruct Hcv as [(v' & (cs1 & d & cs2 & E & _) & _)|[[Hin _]|[_ Hold]]].
      + exists d. apply given_app. right. apply HinI. rewrite E. apply elem_of_app. right. by left.
      + by apply Hnos in Hin.
      + destruct (Hent id v) as [d Hd]; [done|]. exists d. apply given_app. by left.
    - intros id d. rewrite given_app. unfold stored. setoid_rewrite HD.
      change (∃ v, dbAfter murmur nS dbs (ssLog q) (storeShard murmur nS id) !! id = Some v ∧ decode v = (d, false))
        with (stored murmur nS decode (dbAfter murmur nS dbs (ssLog q)) id d).
      rewrite (survives_stored murmur iter Hiter decode accepts encode nS dbs (cs ++ [SFlush]) q id d); try done.
      + unfold survives. rewrite <-Ecs, <-Hlast, <-Hst. split.
        * intros [H|[_ H]]; [by right|by left].
        * intros [H|H]; [|by left]. right. split; [|done]. intros d' Hd'. rewrite Ecs in Hd'. apply HinI, given_id in Hd'.
          by apply Hst, given_id, Hdis in H.
      + intros id' d' Hin%HinI. destruct Hin as (doc & fo & Hc & <-). apply (Hseg doc d' fo). apply elem_of_app. by right.
  Qed.

  (** A search in the next session, after any number of earlier ones. *)
  Theorem sessions_search sortDocs sortBy io s0 nseg hist recs dbs phases s log2 req order shards :
    valid_sort sortDocs → valid_sortBy sortBy → Init io = Some s0 → round_trip encode decode →
    sess nseg hist dbs → recoverProgs iter decode X stop o nS dbs = Some recs →
    Forall (λ ph, good_phase (pipeProg ph)) phases → phases ≠ [] → once_each (pipeProg (all_calls (hist ++ [phases]))) →
    segmented X stop o accepts encode (all_calls (hist ++ [phases])) → no_removal (all_calls (hist ++ [phases])) →
    sreachp nseg recs [wprogram phases] s → wreturned 0 s → pipe_rest s →
    engine_shards sortDocs s0 only n (pipePart s) shards →
    plain_request io req → scores_numbers log2 req shards → all_arrive (length shards) order →
    ∃ full out, Search log2 sortBy req shards order = Some (mkResp (rqTokens req) false (zlen full) (Some out)) ∧
      answers_docs only X stop o (given (all_calls (hist ++ [phases]))) req full out.
  Proof.
    intros Hv Hvb HI Hrt Hs Hp Hg Hne Hon Hseg Hnr Hr Hret Hpr Hsh Hreq Hnan Ha. rewrite all_calls_app in *.
    pose proof (once_each_app _ _ Hon) as (Hon1 & Hon2 & Hdis).
    destruct (sessions_files nseg hist dbs Hrt Hs) as (Hpl & Hz & Hent & Hst); [done| | |].
    { intros doc d fo Hc. apply (Hseg doc d fo). apply elem_of_app. by left. }
    { intros id fo Hc. apply (Hnr id fo). apply elem_of_app. by left. }
    destruct (session_search sortDocs sortBy io s0 nseg recs dbs phases s log2 req order shards) as (full & out & HS & HA); try done.
    - intros c id Hc E. destruct (dbs (storeShard murmur nS id) !! id) as [v|] eqn:Ev; [|done].
      destruct (Hent id v Ev) as [d Hd%given_id%Hdis]. exfalso. apply Hd. apply elem_of_list_omap. exists (pipeCall c). split; [by apply elem_of_list_fmap_1|done].
    - intros doc d fo Hc. apply (Hseg doc d fo). apply elem_of_app. by right.
    - exists full, out. split; [done|]. eapply answers_ext; [|exact HA]. intros id d. unfold stored_or_given. by rewrite given_app, Hst.
  Qed.
End SessionThms.
