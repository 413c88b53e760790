(** Searches while a session of the engine is running. *)
From Verif Require Import ModelSession ModelEngine ModelFlight SpecIndexer SpecSearch SpecRank SpecRoute SpecPipe SpecEngine SpecFlight SpecStore
  SpecEnd SpecLife SpecWhole SpecSession SpecDuring SpecSessionDuring SpecSegment
  ProofRoute ProofPipe ProofSegEnd ProofWhole ProofSession ProofSessionThms ProofEnd ProofDuring.

Section SessionDuring.
  Context (murmur : string → Z) (n : Z) (only reqsFirst : bool) (cap : chan → nat) (Hn : 1 <= n < 2^32).
  Context (accepts : string → string → bool) (encode : DocData → option string) (nS : Z) (HnS : 1 <= nS < 2^32) (reqsFirst2 : bool).
  Context (iter : kv → list (string * string)) (Hiter : valid_iter iter) (decode : string → DocData * bool).
  Context (X : Ext) (stop : gset string) (o : SegOpts) (HX : valid_range X).
  Notation preach := (pipe_reach murmur n only reqsFirst cap).
  Notation wstep := (wholeStep murmur n only reqsFirst cap accepts encode nS reqsFirst2).
  Notation sreachp := (session_reach murmur n only reqsFirst cap accepts encode nS reqsFirst2).

  (** * The log of the pipeline grows *)
  Lemma proc_log p net log p' net' log' : procStep murmur n only reqsFirst cap p net log = Some (p', net', log') → ∃ l, log' = log ++ l.
  Proof.
    intros H. assert (HN : ∃ l : list event, log = log ++ l) by (exists []; by rewrite app_nil_r). unfold procStep in H.
    destruct (pActs p) as [|a rest].
    - destruct (pChan p) as [ch|].
      + destruct (takeFirst ch net) as [[m net1]|]; [|done]. cbn [mbind option_bind] in H. by injection H as _ _ <-.
      + destruct (pCalls p); [done|]. by injection H as _ _ <-.
    - cbn zeta in H. destruct a as [e|ch m| |c|c| |]; [|destruct (decide _); [|done]|..]; injection H as _ _ <-; try exact HN. by exists [e].
  Qed.
  Lemma whole_log s s' : wstep s s' → ∃ l, wLog s' = wLog s ++ l.
  Proof.
    assert (HN : ∃ l : list event, wLog s = wLog s ++ l) by (exists []; by rewrite app_nil_r).
    intros [m H]. destruct m as [k|k|j|k]; cbn [wmoveStep] in H.
    - unfold wclientStep in H. destruct (wClients s !! k) as [c|]; [|done]. cbn [mbind option_bind] in H.
      destruct (wActs c) as [|a acts]; [destruct (wCalls c); [done|]; by injection H as <-|].
      destruct a as [a|id data|id| | |]; cbn zeta in H.
      + destruct (procStep _ _ _ _ _ _ _ _) as [[[p' net'] log']|] eqn:E; [|done]. cbn [mbind option_bind] in H. injection H as <-. cbn [wLog]. by eapply proc_log.
      + destruct (wWork s !! _) as [[]|]; [|done..]. by injection H as <-.
      + by injection H as <-.
      + by injection H as <-.
      + by injection H as <-.
      + by injection H as <-.
    - unfold wprocStep in H. destruct (wProcs s !! k) as [p|]; [|done]. cbn [mbind option_bind] in H.
      destruct (procStep _ _ _ _ _ _ _ _) as [[[p' net'] log']|] eqn:E; [|done]. cbn [mbind option_bind] in H. injection H as <-. cbn [wLog]. by eapply proc_log.
    - unfold wstoreStep in H. destruct (workerStep _ _ _ _); [|done]. by injection H as <-.
    - unfold wstoreStep in H. destruct (delStep _ _); [|done]. by injection H as <-.
  Qed.
  Lemma whole_log_rtc s s' : rtc wstep s s' → ∃ l, wLog s' = wLog s ++ l.
  Proof.
    induction 1 as [s|s s1 s' H _ [l IH]]; [exists []; by rewrite app_nil_r|]. apply whole_log in H as [l' E]. exists (l' ++ l).
    by rewrite IH, E, app_assoc.
  Qed.

  (** * The moments of a session, seen from the pipeline *)
  Section Moments.
    Context (sortDocs : list DocIndex → list DocIndex) (io : IndexerOpts) (s0 : Indexer) (nseg : nat).
    Context (recs : list (list ecall)) (progs : list (list wcall)) (dbs : Z → kv).
    Context (Hv : valid_sort sortDocs) (HI : Init io = Some s0).
    Context (Hpl : placed murmur nS dbs) (Hz : no_zero nS dbs) (Hrecs : recoverProgs iter decode X stop o nS dbs = Some recs).
    Context (Hmade : made_of X stop o (mjoin progs)).
    Notation csx := (mjoin ((pipeProg <$> progs) ++ recs)).
    Notation there := (stored_or_given murmur nS decode dbs (mjoin progs)).
    Notation single := (one_source murmur nS dbs (mjoin progs)).

    Lemma calls_split : csx = pipeProg (mjoin progs) ++ mjoin recs.
    Proof.
      rewrite ProofTopK.join_app. f_equal. clear. induction progs as [|p ps IH]; [done|]. rewrite fmap_cons, !mjoin_cons, IH. unfold pipeProg. by rewrite fmap_app.
    Qed.
    Lemma calls_good : Forall good_call csx.
    Proof.
      rewrite calls_split. apply Forall_app. split.
      - apply Forall_fmap, Forall_forall. intros [doc d fo|id fo|] Hc; cbn; [|done..]. by eapply segDoc_good, Hmade.
      - destruct (recs_write murmur nS HnS iter Hiter decode X stop o HX dbs recs Hpl Hz Hrecs) as (_ & [HG _] & _).
        eapply Forall_impl; [exact HG|]. by intros c [? _].
    Qed.
    Lemma call_there doc f ct a fo : EIndex doc f ct a fo ∈ csx →
      ∃ d, there (DocId doc) d ∧ segDoc X stop o (DocId doc) d = Some doc ∧ f = ddFields d ∧ ct = ddContent d ∧ a = ddAttri d.
    Proof.
      rewrite calls_split. intros [H|H]%elem_of_app.
      - apply elem_of_list_fmap in H as ([doc' d fo'|id' fo'|] & E & Hc); [|done..]. injection E as -> -> -> -> ->. exists d.
        split; [right; by exists doc', fo'|]. split; [by eapply Hmade|done].
      - destruct (recs_write murmur nS HnS iter Hiter decode X stop o HX dbs recs Hpl Hz Hrecs) as (_ & _ & H1 & _).
        destruct (H1 _ _ _ _ _ H) as (d & Hst & Hseg & -> & -> & ->). exists d. split; [by left|]. done.
    Qed.
    Notation mine id cs := (filter (λ c', call_id c' = Some id) cs).
    Lemma mine_prog id cs : mine id (pipeProg cs) = pipeCall <$> filter (λ c, call_id (pipeCall c) = Some id) cs.
    Proof.
      induction cs as [|c cs IH]; [done|]. unfold pipeProg in *. rewrite fmap_cons, !filter_cons, IH. by destruct (decide _).
    Qed.
    Lemma there_only id d doc : there id d → single id → segDoc X stop o id d = Some doc →
      DocId doc = id ∧ ∃ fo, only_call csx (DocId doc) (EIndex doc (ddFields d) (ddContent d) (ddAttri d) fo).
    Proof.
      intros Ht [H1 H2] Hseg. destruct (segDoc_good _ _ _ _ _ _ HX Hseg) as [_ Hid]. split; [done|]. rewrite Hid.
      destruct (recs_write murmur nS HnS iter Hiter decode X stop o HX dbs recs Hpl Hz Hrecs) as (_ & [_ Hnd] & _ & R2).
      unfold only_call. rewrite calls_split, filter_app, mine_prog. destruct Ht as [Hst|(doc' & fo & Hc & E)].
      - exists false. rewrite H2; [|destruct Hst as (v & Hv' & _); by eexists]. cbn [fmap list_fmap app].
        destruct (R2 id d Hst) as (doc' & Hseg' & _ & Hin). rewrite Hseg in Hseg'. injection Hseg' as <-.
        apply (nodup_only _ _ _ Hnd Hin). cbn. by rewrite Hid.
      - exists fo. pose proof (Hmade _ _ _ Hc) as Hseg'. rewrite E, Hseg in Hseg'. injection Hseg' as <-.
        assert (Hin : WIndex doc d fo ∈ filter (λ c, call_id (pipeCall c) = Some id) (mjoin progs)).
        { apply elem_of_list_filter. split; [|done]. cbn. by rewrite Hid. }
        assert (Hrn : mine id (mjoin recs) = []).
        { destruct (mine id (mjoin recs)) as [|c l] eqn:Em; [done|]. exfalso.
          assert (Hcm : c ∈ mine id (mjoin recs)) by (rewrite Em; by left). apply elem_of_list_filter in Hcm as [Ec Hcm].
          rewrite H2 in Hin; [by apply elem_of_nil in Hin|]. eapply recs_ids; [done..|]. apply elem_of_list_omap. by exists c. }
        rewrite Hrn, app_nil_r. destruct (filter _ (mjoin progs)) as [|c [|c' l]]; [by apply elem_of_nil in Hin| |cbn in H1; lia].
        apply elem_of_list_singleton in Hin as <-. done.
    Qed.

    Lemma answers_session ws t1 t2 req full : answers_during only csx ws t1 t2 req full →
      answers_meanwhile only X stop o there single ws t1 t2 req full.
    Proof.
      intros [H1 H2]. split.
      - intros h Hh. destruct (H1 h Hh) as (d & f & ct & a & fo & d' & f' & ct' & a' & fo' & Hc & Hw & Hc' & E & Hs).
        destruct (call_there _ _ _ _ _ Hc) as (x & Hx & Hsx & _). destruct (call_there _ _ _ _ _ Hc') as (y & Hy & Hsy & -> & -> & ->).
        pose proof (proj1 Hs) as Eh. exists x, d, y, d'. rewrite Eh. rewrite <-E in Hx, Hsx. done.
      - intros id d doc Ht Hs Hseg. destruct (there_only id d doc Ht Hs Hseg) as (<- & fo & Ho).
        exact (H2 _ _ _ _ _ Ho).
    Qed.

    Lemma written_session ws ss :
      written_in (sreachp nseg recs progs) wstep sortDocs s0 only n ws ss →
      ∃ ps, written_log murmur n only reqsFirst cap sortDocs s0 nseg ((pipeProg <$> progs) ++ recs) ws ps.
    Proof.
      intros (W1 & W2 & W3).
      assert (HR : ∀ t s, ss !! t = Some s → sreachp nseg recs progs s).
      { intros t. induction t as [|t IH]; intros s Hs; [by apply W1|].
        assert (is_Some (ss !! t)) as [s' Hs']. { apply lookup_lt_is_Some. apply lookup_lt_Some in Hs. lia. }
        destruct (IH s' Hs') as (p & Hp & Hr & Hrt). exists p. split; [done|]. split; [done|]. etrans; [exact Hrt|]. by eapply W2. }
      assert (HP : ∃ ps, Forall2 (λ s q, preach nseg ((pipeProg <$> progs) ++ recs) q ∧ sLog q = wLog s) ss ps).
      { assert (HF : Forall (λ s, ∃ q, preach nseg ((pipeProg <$> progs) ++ recs) q ∧ sLog q = wLog s) ss).
        { apply Forall_forall. intros s [t Ht]%elem_of_list_lookup. destruct (session_pipe murmur n only reqsFirst cap accepts encode nS reqsFirst2 nseg recs progs s (HR t s Ht)) as (q & Hq & _ & E & _).
          by exists q. }
        clear -HF. induction HF as [|s ss (q & Hq) _ [ps IH]]; [by exists []|]. exists (q :: ps). by constructor. }
      destruct HP as [ps HP]. exists ps. split; [|split].
      - intros t p Hp. by destruct (Forall2_lookup_r _ _ _ _ _ HP Hp) as (s & _ & ? & _).
      - intros t t' p q Ht Hp Hq. destruct (Forall2_lookup_r _ _ _ _ _ HP Hp) as (s & Hs & _ & ->), (Forall2_lookup_r _ _ _ _ _ HP Hq) as (s' & Hs' & _ & ->).
        apply (grow_chain wLog ss) with t t'; [|done..]. clear -W2. intros t s s' Hs Hs'. by eapply whole_log_rtc, W2.
      - clear -HP W3. revert ws W3. induction HP as [|s q ss ps [_ E] _ IH]; intros ws W3; [by apply Forall2_nil_inv_l in W3 as ->|].
        apply Forall2_cons_inv_l in W3 as (w & ws' & Hw & W3 & ->). constructor; [|by apply IH].
        unfold engine_shards in *. rewrite E. exact Hw.
    Qed.

    Context (log2 : F → F) (sortBy : (ScoredDoc → ScoredDoc → bool) → list ScoredDoc → list ScoredDoc) (Hvb : valid_sortBy sortBy).

    Theorem meanwhile_lem ccap clients tl tr shards ls fs ss ans req t0 :
      frun log2 sortBy (Z.to_nat n) ccap ls (fInit (Z.to_nat n) clients tl tr shards) = Some fs →
      written_in (sreachp nseg recs progs) wstep sortDocs s0 only n (fWorlds fs) ss →
      ans ∈ fAnswers fs → fReqs fs !! faSearch ans = Some (req, t0) →
      plain_request io req → Forall (scores_numbers log2 req) (fWorlds fs) →
      ∃ full out, faResp ans = mkResp (rqTokens req) false (zlen full) (Some out) ∧ page_of req full out ∧
        answers_meanwhile only X stop o there single (fWorlds fs) t0 (faEnd ans) req full.
    Proof.
      intros Hf [ps HW]%written_session Ha Hq Hpr Hnan.
      destruct (during_log murmur n only reqsFirst cap Hn sortDocs io s0 nseg ((pipeProg <$> progs) ++ recs) Hv HI calls_good log2 sortBy ccap
        clients tl tr shards ls fs ps ans req t0 Hvb Hf HW Ha Hq Hpr Hnan) as (full & out & R & P & A).
      exists full, out. split; [done|]. split; [done|]. by apply answers_session.
    Qed.

    Theorem meanwhile_later_lem ccap clients tl tr shards ls fs ss a1 a2 req t1 t2 :
      frun log2 sortBy (Z.to_nat n) ccap ls (fInit (Z.to_nat n) clients tl tr shards) = Some fs →
      written_in (sreachp nseg recs progs) wstep sortDocs s0 only n (fWorlds fs) ss →
      a1 ∈ fAnswers fs → fReqs fs !! faSearch a1 = Some (req, t1) →
      a2 ∈ fAnswers fs → fReqs fs !! faSearch a2 = Some (req, t2) → (faEnd a1 <= t2)%nat →
      plain_request io req → Forall (scores_numbers log2 req) (fWorlds fs) →
      ∃ full1 out1 full2 out2,
        faResp a1 = mkResp (rqTokens req) false (zlen full1) (Some out1) ∧ page_of req full1 out1 ∧
        faResp a2 = mkResp (rqTokens req) false (zlen full2) (Some out2) ∧ page_of req full2 out2 ∧
        answers_meanwhile only X stop o there single (fWorlds fs) t1 (faEnd a1) req full1 ∧
        answers_meanwhile only X stop o there single (fWorlds fs) t2 (faEnd a2) req full2 ∧
        ∀ id d, there id d → single id → score_accepts (ScoringCriteria (rqOpts req)) id (ddFields d) →
          id ∈ sdDocId <$> full1 → id ∈ sdDocId <$> full2.
    Proof.
      intros Hf [ps HW]%written_session Ha1 Hq1 Ha2 Hq2 Hle Hpr Hnan.
      destruct (later_log murmur n only reqsFirst cap Hn sortDocs io s0 nseg ((pipeProg <$> progs) ++ recs) Hv HI calls_good log2 sortBy ccap
        clients tl tr shards ls fs ps a1 a2 req t1 t2 Hvb Hf HW Ha1 Hq1 Ha2 Hq2 Hle Hpr Hnan) as (full1 & out1 & full2 & out2 & R1 & P1 & R2 & P2 & A1 & A2 & HL).
      exists full1, out1, full2, out2. do 4 (split; [done|]). do 2 (split; [by apply answers_session|]).
      intros id d Ht Hs Hsc Hin. destruct (ProofSegment.segDoc_total X stop o id d) as [doc Hseg].
      destruct (there_only id d doc Ht Hs Hseg) as (<- & fo & Ho). by eapply HL.
    Qed.

    Theorem meanwhile_count_lem ccap clients tl tr shards ls fs ss a1 a2 req t1 t2 :
      (∀ id d, there id d → single id ∧ score_accepts (ScoringCriteria (rqOpts req)) id (ddFields d)) →
      frun log2 sortBy (Z.to_nat n) ccap ls (fInit (Z.to_nat n) clients tl tr shards) = Some fs →
      written_in (sreachp nseg recs progs) wstep sortDocs s0 only n (fWorlds fs) ss →
      a1 ∈ fAnswers fs → fReqs fs !! faSearch a1 = Some (req, t1) →
      a2 ∈ fAnswers fs → fReqs fs !! faSearch a2 = Some (req, t2) → (faEnd a1 <= t2)%nat →
      plain_request io req → Forall (scores_numbers log2 req) (fWorlds fs) →
      rsNumDocs (faResp a1) <= rsNumDocs (faResp a2).
    Proof.
      intros Hall Hf HW Ha1 Hq1 Ha2 Hq2 Hle Hpr Hnan.
      destruct (meanwhile_later_lem ccap clients tl tr shards ls fs ss a1 a2 req t1 t2) as (full1 & out1 & full2 & out2 & R1 & _ & R2 & _ & A1 & _ & HL); [done..|].
      rewrite R1, R2. cbn [rsNumDocs].
      assert (HN : NoDup (sdDocId <$> full1)).
      { apply count_NoDup. intros h Hh. destruct (proj1 A1 h Hh) as (_ & _ & d & doc & _ & _ & _ & Ht & Hseg & _).
        destruct (Hall _ _ Ht) as [Hs _]. by apply (proj2 A1 _ _ _ Ht Hs Hseg). }
      assert (HS : sdDocId <$> full1 ⊆+ sdDocId <$> full2).
      { apply NoDup_submseteq; [done|]. intros id Hin. pose proof Hin as (h & -> & Hh)%elem_of_list_fmap.
        destruct (proj1 A1 h Hh) as (_ & _ & d & doc & _ & _ & _ & Ht & Hseg & _). destruct (Hall _ _ Ht) as [Hs Hsc]. by eapply HL. }
      apply submseteq_length in HS. rewrite !fmap_length in HS. unfold zlen. lia.
    Qed.
  End Moments.
End SessionDuring.
