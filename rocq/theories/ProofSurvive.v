(** The process keeps running while documents are written and searched. *)
From Verif Require Import ModelSession ModelEngine ModelFlight SpecIndexer SpecSearch SpecLogic SpecRank SpecRoute SpecPipe SpecEngine SpecFlight SpecStore
  SpecEnd SpecLife SpecWhole SpecSession SpecDuring SpecSessionDuring SpecSegment SpecSurvive
  ProofIndexer ProofCache ProofHistory ProofIxThms ProofIxMore ProofSearchThms ProofLogicThms ProofRanker ProofRoute ProofPipe ProofFlush ProofFlight ProofFlightSafe
  ProofFlightLive ProofFlightCrash ProofSegEnd ProofWhole ProofSession ProofSessionThms ProofEnd ProofDuring ProofSessionDuring.

(** * Histories in which no id is added twice *)
Definition op_added (o : op) : option string := match o with OpAdd (Some d) _ => Some (DocId d) | _ => None end.
Definition call_added (c : ecall) : option string := match c with EIndex d _ _ _ _ => Some (DocId d) | _ => None end.

Section Once.
  Context (sortDocs : list DocIndex → list DocIndex) (Hsort : valid_sort sortDocs) (o : IndexerOpts) (s0 : Indexer) (HI : Init o = Some s0).

  Lemma once_no_readd ops : ∀ pre s, run sortDocs pre s0 = Some s → Forall good_op (pre ++ ops) → NoDup (omap op_added (pre ++ ops)) →
    no_readd sortDocs ops s.
  Proof.
    induction ops as [|x ops IH]; intros pre s Hr Hg Hn; [done|]. split.
    - destruct x as [[d|] f|]; [|done..]. intros Hw. destruct (Init_inv o s0 HI) as [HI0 Hc].
      apply Forall_app in Hg as [Hg _]. rewrite omap_app in Hn. apply NoDup_app in Hn as (_ & Hn & _).
      destruct (run_gone sortDocs Hsort pre s0 ∅ ∅ (DocId d) s HI0 Hg) as [_ H]; [|done| |done].
      + apply Forall_forall. intros y Hy Ha. apply (Hn (DocId d)); [|cbn; left].
        apply elem_of_list_omap. exists y. split; [done|]. destruct y as [[d'|] f'|]; cbn in *; [|done..]. by rewrite Ha.
      + split; [by apply (hasdoc_false _ _ _ _ HI0)|]. unfold waits. rewrite Hc. by intros ?%elem_of_nil.
    - intros s' Hs'. apply (IH (pre ++ [x])).
      + rewrite run_app, Hr. cbn. unfold run. cbn [foldlM]. by rewrite Hs'.
      + by rewrite <- app_assoc.
      + by rewrite <- app_assoc.
  Qed.
  Lemma once_runs ops : Forall good_op ops → NoDup (omap op_added ops) → is_Some (run sortDocs ops s0).
  Proof. intros Hg Hn. eapply no_readd_no_crash; [done..|]. by apply (once_no_readd ops []). Qed.
End Once.

Lemma NoDup_perm_omap {A B} (f : A → option B) (l1 l2 : list A) : l1 ≡ₚ l2 → NoDup (omap f l2) → NoDup (omap f l1).
Proof. intros H. by rewrite H. Qed.

Section Streams.
  Context (murmur : string → Z) (n : Z) (only reqsFirst : bool) (cap : chan → nat) (Hn : 1 <= n < 2^32).

  Lemma ixMsgs_added i c : omap op_added (ixMsgs murmur n i c) `sublist_of` omap call_added [c].
  Proof.
    destruct c as [d f ct a fo|id fo|]; cbn [ixMsgs].
    - destruct (seqb _ _); [destruct fo; cbn; apply sublist_nil_l|]. destruct (_ =? _); [by cbn|]. destruct fo; cbn; apply sublist_nil_l.
    - destruct (seqb id "0"), fo; cbn; apply sublist_nil_l.
    - cbn. apply sublist_nil_l.
  Qed.
  Lemma ixStream_added i cs : omap op_added (ixStream murmur n i cs) `sublist_of` omap call_added cs.
  Proof.
    induction cs as [|c cs IH]; [done|]. change (c :: cs) with ([c] ++ cs). rewrite ixStream_app, !omap_app, ixStream_one.
    apply sublist_app; [apply ixMsgs_added|done].
  Qed.
  Lemma log_runs sortDocs io s0 nseg progs p i : valid_sort sortDocs → Init io = Some s0 → Forall good_call (mjoin progs) →
    NoDup (omap call_added (mjoin progs)) → pipe_reach murmur n only reqsFirst cap nseg progs p → 0 <= i < n →
    is_Some (run sortDocs (ixCalls i (sLog p)) s0) ∧ is_Some (rrun (rkCalls i (sLog p)) (RankerInit [only])).
  Proof.
    intros Hv HI Hg Hd Hr Hi. split.
    - eapply once_runs; [done..|by eapply in_good|]. destruct (log_ix _ _ _ _ _ Hn _ _ _ _ Hr Hi) as [r Hp].
      assert (H : NoDup (omap op_added (ixCalls i (sLog p) ++ r))).
      { eapply NoDup_perm_omap; [exact Hp|]. eapply sublist_NoDup; [exact Hd|]. apply ixStream_added. }
      rewrite omap_app in H. by apply NoDup_app in H as [? _].
    - destruct (C27_lem only _ (in_engine murmur n only reqsFirst cap Hn nseg progs p i Hr Hi)) as (rk & -> & _). done.
  Qed.
  Lemma log_shards sortDocs io s0 nseg progs p : valid_sort sortDocs → Init io = Some s0 → Forall good_call (mjoin progs) →
    NoDup (omap call_added (mjoin progs)) → pipe_reach murmur n only reqsFirst cap nseg progs p →
    ∃ shards, engine_shards sortDocs s0 only n p shards.
  Proof.
    intros Hv HI Hg Hd Hr.
    assert (H : ∀ m, Z.of_nat m <= n → ∃ shards : list Shard, length shards = m ∧ ∀ (i : nat) sh, shards !! i = Some sh →
      run sortDocs (ixCalls (Z.of_nat i) (sLog p)) s0 = Some (shIx sh) ∧ rrun (rkCalls (Z.of_nat i) (sLog p)) (RankerInit [only]) = Some (shRk sh)).
    { induction m as [|m IH]; intros Hm; [by exists []|]. destruct IH as (l & Hl & H); [lia|].
      destruct (log_runs sortDocs io s0 nseg progs p (Z.of_nat m)) as [[ix Hix] [rk Hrk]]; [done..|lia|].
      exists (l ++ [mkShard ix rk]). split; [rewrite app_length; cbn; lia|]. intros i sh Hs.
      apply lookup_app_Some in Hs as [Hs|[Hle Hs]]; [by apply H|]. rewrite Hl in *. destruct (i - m)%nat as [|k] eqn:E; [|done].
      assert (i = m) as -> by lia. injection Hs as <-. done. }
    destruct (H (Z.to_nat n)) as (shards & Hl & Hs); [lia|]. exists shards. split; [unfold zlen; lia|exact Hs].
  Qed.
End Streams.

(** * Lookups of harmless requests *)
Lemma harmless_looks sortDocs io ops s log2 req rk : reach sortDocs io ops s → harmless io req → looks_up log2 req (mkShard s rk).
Proof.
  intros HR (_ & H1 & H2). unfold looks_up. cbn [shIx].
  destruct (Lookup log2 s _ _ _ _ _) as [r|] eqn:E; [by eexists|]. exfalso.
  assert (Hdec : is_logic (rqTokens req ++ rqLabels req) (rqLogic req) ∨
    Lookup log2 s (rqTokens req) (rqLabels req) (rqDocIds req) (rqCountOnly req) (Some (rqLogic req)) =
    Lookup log2 s (rqTokens req) (rqLabels req) (rqDocIds req) (rqCountOnly req) None ∧ ¬ is_logic (rqTokens req ++ rqLabels req) (rqLogic req)).
  { destruct (nonempty (rqTokens req ++ rqLabels req) && (lMust (rqLogic req) || lShould (rqLogic req) || lNotIn (rqLogic req)) ||
      (nonempty (eMust (rqLogic req)) || nonempty (eShould (rqLogic req)))) eqn:EB.
    - left. by apply is_logic_b.
    - right. split; [|intros HL%is_logic_b; congruence]. apply orb_false_iff in EB as [E1 E2]. unfold Lookup. by rewrite E1, E2. }
  destruct Hdec as [HL|[HE HN]].
  - apply (C25_lem _ _ _ _ _ _ _ _ _ _ HR HL) in E as (_ & Em & Et & El & Ee & k & id & Hk & _). rewrite (H2 Em Et El Ee) in Hk. by apply elem_of_nil in Hk.
  - rewrite HE in E. destruct (C16_lem _ _ _ _ log2 HR) as (M & _ & HM). apply HM in E as (Eo & Et & _); [|done].
    destruct (H1 Eo); [done|]. by apply HN.
Qed.

(** * Searches over worlds on which lookups come back *)
Section Calm.
  Context (log2 : F → F) (sortBy : (ScoredDoc → ScoredDoc → bool) → list ScoredDoc → list ScoredDoc).
  Context (n : nat) (ccap : schan → nat) (clients : list (list SearchReq)) (tl tr : nat) (shards : list Shard) (Q : Shard → Prop).
  Context (Hreq : ∀ req, req ∈ mjoin clients → paging_ok req ∧ ∀ sh, Q sh → looks_up log2 req sh).
  Notation calmq := (calm n (λ req, req ∈ mjoin clients) Q).
  Definition fine (s : fstate) : Prop := ∀ w, w ∈ fWorlds s → length w = n ∧ Forall Q w.

  Lemma worlds_step l s s' : fstep log2 sortBy n ccap l s = Some s' → ∃ ws, fWorlds s' = fWorlds s ++ ws.
  Proof.
    unfold fstep. destruct (fCrash s); [done|]. destruct l as [k late|i sh].
    - destruct (fProcs s !! k); [|done]. cbn. destruct (fproc _ _ _ _ _ _ _) as [[]|]; [..|done]; intros [= <-]; exists []; by rewrite app_nil_r.
    - destruct (last (fWorlds s)); [|done]. cbn. intros [= <-]. cbn. eauto.
  Qed.
  Lemma worlds_run ls : ∀ s s', frun log2 sortBy n ccap ls s = Some s' → ∃ ws, fWorlds s' = fWorlds s ++ ws.
  Proof.
    induction ls as [|l ls IH]; intros s s'; cbn; [intros [= <-]; exists []; by rewrite app_nil_r|].
    destruct (fstep _ _ _ _ l s) as [s1|] eqn:E; [|done]. cbn. intros [ws E2]%IH. destruct (worlds_step _ _ _ E) as [ws' E1].
    exists (ws' ++ ws). by rewrite E2, E1, app_assoc.
  Qed.
  Lemma fine_back s s' ws : fWorlds s' = fWorlds s ++ ws → fine s' → fine s.
  Proof. intros E H w Hw. apply H. rewrite E. apply elem_of_app. by left. Qed.

  Lemma calm_fine_step roles l s s' : finv n clients roles s → calmq s → fstep log2 sortBy n ccap l s = Some s' → fine s' → calmq s'.
  Proof.
    intros HI HC Hs HF. destruct l as [k late|i sh].
    - eapply (calm_step log2 sortBy n ccap); [..|exact Hs]; [| |done|done|done]; intros; by apply Hreq.
    - unfold fstep in Hs. destruct HC as (C1 & C2 & C3 & w & Hw & _). rewrite C1, Hw in Hs. cbn in Hs. injection Hs as <-.
      split; [done|]. split; [done|]. split; [done|]. exists (<[i := sh]> w). cbn. rewrite last_snoc. split; [done|]. apply HF. cbn. apply elem_of_app. right. left.
  Qed.
  Lemma calm_fine_run roles ls : ∀ s s', finv n clients roles s → calmq s → frun log2 sortBy n ccap ls s = Some s' → fine s' → calmq s'.
  Proof.
    induction ls as [|l ls IH]; intros s s' HI HC; cbn; [by intros [= <-]|].
    destruct (fstep _ _ _ _ l s) as [s1|] eqn:E; [|done]. cbn. intros Hr HF. eapply IH; [by eapply finv_step| |done|done].
    eapply calm_fine_step; [done..|]. destruct (worlds_run _ _ _ Hr) as [ws Ew]. by eapply fine_back.
  Qed.
  Lemma calm_start : fine (fInit n clients tl tr shards) → calmq (fInit n clients tl tr shards).
  Proof. intros HF. destruct (HF shards) as [H1 H2]; [left|]. by apply calm_init. Qed.

  Theorem survives_fine ls s : frun log2 sortBy n ccap ls (fInit n clients tl tr shards) = Some s → fine s → fCrash s = false.
  Proof.
    intros Hr HF. destruct (worlds_run _ _ _ Hr) as [ws Ew].
    eapply calm_fine_run in Hr; [by destruct Hr|apply finv_init| |done]. apply calm_start. by eapply fine_back.
  Qed.
  Theorem returns_fine ls : (∀ ch, (0 < ccap ch)%nat) → (0 < tl)%nat → (0 < tr)%nat →
    (∀ j, fine (fafter (fstep log2 sortBy n ccap) ls (fInit n clients tl tr shards) j)) →
    ffair (length (fProcs (fInit n clients tl tr shards))) ls →
    ∃ i, ∀ j, (i <= j)%nat → all_answered clients (fafter (fstep log2 sortBy n ccap) ls (fInit n clients tl tr shards) j).
  Proof.
    intros Hc Hl Hr HF Hf.
    assert (HC : ∀ j, calmq (fafter (fstep log2 sortBy n ccap) ls (fInit n clients tl tr shards) j)).
    { intros j. induction j as [|j IH]; [apply calm_start, (HF 0%nat)|]. pose proof (HF (S j)) as Hj. cbn in *. unfold fturn in *.
      destruct (fstep _ _ _ _ (ls j) _) as [s'|] eqn:E; [|done]. eapply calm_fine_step; [by apply fafter_inv, finv_init|done..]. }
    destruct (returns_lem log2 sortBy n ccap Hc clients tl tr shards ls Hl Hr Hf) as [i Hi]. exists i. intros j Hj.
    destruct (Hi j Hj) as [H|H]; [|done]. destruct (HC j) as [H' _]. congruence.
  Qed.
End Calm.

(** * A session *)
Section Session.
  Context (murmur : string → Z) (n : Z) (only reqsFirst : bool) (cap : chan → nat) (Hn : 1 <= n < 2^32).
  Context (accepts : string → string → bool) (encode : DocData → option string) (nS : Z) (HnS : 1 <= nS < 2^32) (reqsFirst2 : bool).
  Context (iter : kv → list (string * string)) (Hiter : valid_iter iter) (decode : string → DocData * bool).
  Context (X : Ext) (stop : gset string) (o : SegOpts) (HX : valid_range X).
  Notation wstep := (wholeStep murmur n only reqsFirst cap accepts encode nS reqsFirst2).
  Notation sreachp := (session_reach murmur n only reqsFirst cap accepts encode nS reqsFirst2).
  Context (sortDocs : list DocIndex → list DocIndex) (io : IndexerOpts) (s0 : Indexer) (nseg : nat).
  Context (recs : list (list ecall)) (progs : list (list wcall)) (dbs : Z → kv).
  Context (Hv : valid_sort sortDocs) (HI : Init io = Some s0).
  Context (Hpl : placed murmur nS dbs) (Hz : no_zero nS dbs) (Hrecs : recoverProgs iter decode X stop o nS dbs = Some recs).
  Context (Hmade : made_of X stop o (mjoin progs)).

  Lemma added_calls cs : omap call_added (pipeProg cs) = omap indexed_id cs.
  Proof. induction cs as [|[]]; cbn; [done|by f_equal|done..]. Qed.
  Lemma added_recs : omap call_added (mjoin recs) `sublist_of` omap call_id (mjoin recs).
  Proof.
    induction (mjoin recs) as [|c l IH]; [done|]. change (c :: l) with ([c] ++ l). rewrite !omap_app. apply sublist_app; [|done].
    destruct c; cbn; [done|apply sublist_nil_l..].
  Qed.
  Lemma session_once : indexed_once murmur nS dbs (mjoin progs) → NoDup (omap call_added (mjoin ((pipeProg <$> progs) ++ recs))).
  Proof.
    intros [H1 H2]. rewrite calls_split, omap_app, added_calls.
    destruct (recs_write murmur nS HnS iter Hiter decode X stop o HX dbs recs Hpl Hz Hrecs) as (_ & [_ Hnd] & _).
    apply NoDup_app. split; [done|]. split; [|eapply sublist_NoDup; [exact Hnd|apply added_recs]].
    intros id Hid Hr. assert (Hr' : id ∈ omap call_id (mjoin recs)) by (eapply elem_of_submseteq; [exact Hr|apply sublist_submseteq, added_recs]).
    destruct (recs_ids murmur nS HnS iter Hiter decode X stop o HX dbs recs id Hpl Hz Hrecs Hr') as [v Hv']. rewrite (H2 id Hid) in Hv'. done.
  Qed.

  Theorem session_shards s : indexed_once murmur nS dbs (mjoin progs) → sreachp nseg recs progs s →
    ∃ shards, engine_shards sortDocs s0 only n (pipePart s) shards.
  Proof.
    intros H1%session_once Hs. destruct (session_pipe murmur n only reqsFirst cap accepts encode nS reqsFirst2 nseg recs progs s Hs) as (q & Hq & _ & E & _).
    destruct (log_shards murmur n only reqsFirst cap Hn sortDocs io s0 nseg ((pipeProg <$> progs) ++ recs) q) as [shards H]; [done|done| |done|done|].
    { by eapply calls_good. }
    exists shards. unfold engine_shards in *. cbn [pipePart sLog]. rewrite <-E. done.
  Qed.

  Context (log2 : F → F) (sortBy : (ScoredDoc → ScoredDoc → bool) → list ScoredDoc → list ScoredDoc).
  Context (ccap : schan → nat) (clients : list (list SearchReq)) (tl tr : nat) (shards : list Shard).
  Context (Hreq : ∀ req, req ∈ mjoin clients → harmless io req).
  Definition reached (sh : Shard) : Prop := ∃ ops, reach sortDocs io ops (shIx sh).

  Lemma reached_looks req : req ∈ mjoin clients → paging_ok req ∧ ∀ sh, reached sh → looks_up log2 req sh.
  Proof.
    intros H%Hreq. split; [apply H|]. intros [ix rk] [ops HR]. by eapply harmless_looks.
  Qed.
  Lemma written_fine fs ss : written_in (sreachp nseg recs progs) wstep sortDocs s0 only n (fWorlds fs) ss → fine (Z.to_nat n) reached fs.
  Proof.
    intros HW. eapply written_session in HW as (ps & H1 & _ & H3). intros w [t Ht]%elem_of_list_lookup.
    destruct (Forall2_lookup_r _ _ _ _ _ H3 Ht) as (p & Hp & Hl & Hsh). split; [unfold zlen in Hl; lia|].
    apply Forall_lookup. intros i sh Hi. destruct (Hsh i sh Hi) as [S1 S2].
    exists (ixCalls (Z.of_nat i) (sLog p)). eapply (in_reach murmur n only reqsFirst cap Hn) with (nseg := nseg) (progs := (pipeProg <$> progs) ++ recs); [done|done|by eapply calls_good|].
    split; [by eapply H1|]. split; [|done]. apply lookup_lt_Some in Hi. unfold zlen in Hl. lia.
  Qed.
  Theorem session_survives ls fs ss :
    frun log2 sortBy (Z.to_nat n) ccap ls (fInit (Z.to_nat n) clients tl tr shards) = Some fs →
    written_in (sreachp nseg recs progs) wstep sortDocs s0 only n (fWorlds fs) ss → fCrash fs = false.
  Proof. intros Hr HW. eapply survives_fine; [exact reached_looks|exact Hr|by eapply written_fine]. Qed.
  Theorem session_returns ls : (∀ ch, (0 < ccap ch)%nat) → (0 < tl)%nat → (0 < tr)%nat →
    (∀ j, ∃ ss, written_in (sreachp nseg recs progs) wstep sortDocs s0 only n
       (fWorlds (fafter (fstep log2 sortBy (Z.to_nat n) ccap) ls (fInit (Z.to_nat n) clients tl tr shards) j)) ss) →
    ffair (length (fProcs (fInit (Z.to_nat n) clients tl tr shards))) ls →
    ∃ i, ∀ j, (i <= j)%nat →
      all_answered clients (fafter (fstep log2 sortBy (Z.to_nat n) ccap) ls (fInit (Z.to_nat n) clients tl tr shards) j).
  Proof.
    intros Hc Hl Hr HW Hf. eapply returns_fine; [exact reached_looks|done..| |done]. intros j. destruct (HW j) as [ss Hss]. by eapply written_fine.
  Qed.
End Session.
