(** Searches with sane paging do not end the process. *)
From Verif Require Import ModelFlight SpecFlight SpecRank SpecEngine ProofFlight ProofFlightSafe ProofFlightLive ProofRanker ProofEngine.

Lemma rankPage_ok sortBy req acc : paging_ok req → is_Some (rankPage sortBy req acc).
Proof.
  intros (H1 & H2 & H3). unfold rankPage. destruct acc as [out num]. destruct (rqCountOnly req); [done|].
  set (l := sortScored _ _ _). unfold maxOutput, shardOpts. cbn [MaxOutputs OutputOffset ReverseOrder].
  pose proof (zlen_nonneg l). rewrite !MinInt_min.
  assert (HZ : ∀ a b, 0 <= a → a <= b → b <= zlen l → is_Some (page ← zslice l a b; Some (mkReply (Some page) num))).
  { intros a b Ha Hb Hc. destruct (zslice l a b) eqn:E; [done|]. apply zslice_None in E. lia. }
  destruct (Z.eqb_spec (MaxOutputs (rqOpts req)) 0) as [E|E]; cbn [negb].
  - rewrite E. cbn [Z.eqb negb]. apply HZ; lia.
  - rewrite (int64_id (MaxOutputs _ + OutputOffset _)) by lia. rewrite Z.add_0_l.
    rewrite (int64_id (MaxOutputs _ + OutputOffset _)) by lia.
    destruct (Z.eqb_spec (MaxOutputs (rqOpts req) + OutputOffset (rqOpts req)) 0); cbn [negb]; apply HZ; lia.
Qed.
Lemma finish_ok sortBy req out num tmo : paging_ok req → is_Some (finish sortBy req out num tmo).
Proof.
  intros (H1 & H2 & H3). unfold finish. destruct (rqCountOnly req); [done|]. destruct (rqOrderless req); [done|].
  set (l := sortScored _ _ _). unfold maxRankOutput. pose proof (zlen_nonneg l). rewrite !MinInt_min.
  assert (HZ : ∀ a b, 0 <= a → a <= b → b <= zlen l → is_Some (page ← zslice l a b; Some (mkResp (rqTokens req) tmo num (Some page)))).
  { intros a b Ha Hb Hc. destruct (zslice l a b) eqn:E; [done|]. apply zslice_None in E. lia. }
  destruct (Z.eqb_spec (MaxOutputs (rqOpts req)) 0) as [E|E]; cbn [negb].
  - apply HZ; lia.
  - rewrite int64_id by lia. apply HZ; lia.
Qed.
Lemma Ranks_ok sortBy req evs : paging_ok req → is_Some (Ranks sortBy req evs).
Proof.
  intros H. unfold Ranks. destruct (rqTimeout req <=? 0).
  - destruct (NotTimeOut _ _). by apply finish_ok.
  - destruct (TimeOut _ _) as [[]]. by apply finish_ok.
Qed.

Section Crash.
  Context (log2 : F → F) (sortBy : (ScoredDoc → ScoredDoc → bool) → list ScoredDoc → list ScoredDoc).
  Context (n : nat) (cap : schan → nat).
  Context (R : SearchReq → Prop) (Q : Shard → Prop).
  Context (HR : ∀ req, R req → paging_ok req) (HQ : ∀ req sh, R req → Q sh → looks_up log2 req sh).

  Definition preqs (p : spc) : list SearchReq :=
    match p with
    | PIdle t => t
    | PSend _ r _ t | PGather _ r _ t => r :: t
    | WLookGot _ _ r | WLookDocs _ _ r _ | WRankScan _ _ r _ _ => [r]
    | _ => []
    end.
  Definition mreqs (x : schan * smsg) : list SearchReq :=
    match x.2 with MLook _ r | MDocs _ r _ => [r] | MReply _ _ => [] end.
  Definition calm (s : fstate) : Prop :=
    fCrash s = false ∧ Forall (λ p, Forall R (preqs p)) (fProcs s) ∧ Forall (λ x, Forall R (mreqs x)) (fNet s) ∧
    ∃ w, last (fWorlds s) = Some w ∧ length w = n ∧ Forall Q w.

  Lemma mv_calm s p r : calm s → goodProc n p → Forall R (preqs p) → mv log2 sortBy n s p r →
    match r with
    | SStep p' net _ _ => Forall R (preqs p') ∧ Forall (λ x, Forall R (mreqs x)) net
    | SCrash => False
    end.
  Proof.
    intros (_ & _ & Hm & w & Hw & Hl & HW) Hg Hp H.
    assert (HA : ∀ a x b, fNet s = a ++ x :: b → Forall R (mreqs x) ∧ Forall (λ x, Forall R (mreqs x)) (a ++ b)).
    { intros a x b E. rewrite E in Hm. apply Forall_app in Hm as [Ha Hb]. apply Forall_cons in Hb as [Hb Hc].
      split; [done|]. by apply Forall_app. }
    assert (HN : ∀ i, (i < n)%nat → ∃ sh, nowAt (fWorlds s) i = Some sh ∧ Q sh).
    { intros i Hi. unfold nowAt. rewrite Hw. cbn. destruct (lookup_lt_is_Some_2 w i) as [sh Hsh]; [lia|].
      exists sh. split; [done|]. rewrite Forall_lookup in HW. by apply (HW i). }
    inversion H; subst; clear H; cbn [preqs] in *; rewrite ?Forall_app, ?Forall_singleton;
      repeat match goal with E : Forall R (_ :: _) |- _ => apply Forall_cons in E as [? ?] end; cbn [preqs mreqs snd];
      rewrite ?Forall_cons; auto.
    all: try match goal with E : fNet _ = _ |- _ => apply HA in E as [E1 E2]; cbn in E1; rewrite ?Forall_app in E2; rewrite ?Forall_singleton in E1; auto end.
    - by destruct (Ranks_ok sortBy req (heard got) (HR _ ltac:(done))) as [? E]; rewrite E in *.
    - split; [|done]. unfold afterLookup. destruct (rqCountOnly req), (zlen docs =? 0), (rqOrderless req); cbn; auto.
    - destruct (HN i Hg) as (sh & Hn & Hs). destruct (HQ req sh ltac:(done) Hs) as [? E].
      match goal with X : ∀ sh, _ → _ = None |- _ => specialize (X sh Hn); by rewrite E in X end.
    - destruct (HN i Hg) as (sh & Hn & Hs). congruence.
    - by destruct (rankPage_ok sortBy req acc (HR _ ltac:(done))) as [? E]; rewrite E in *.
  Qed.

  Lemma calm_step programs roles l s s' : finv n programs roles s → writes_in Q l → calm s → fstep log2 sortBy n cap l s = Some s' → calm s'.
  Proof.
    intros HI HL HC. pose proof HC as (H1 & H2 & H3 & w & Hw & Hl & HW). unfold fstep. rewrite H1.
    destruct l as [k late|i sh].
    - destruct (fProcs s !! k) as [p|] eqn:Ek; [|done]. cbn. destruct (fproc _ _ _ _ late p s) as [r|] eqn:Er; [|done]. cbn.
      intros [= <-]. apply fproc_mv in Er.
      assert (Hp : goodProc n p). { pose proof (fi_procs _ _ _ _ HI) as HP. rewrite Forall_lookup in HP. by apply (HP k). }
      assert (Hr : Forall R (preqs p)). { rewrite Forall_lookup in H2. by apply (H2 k). }
      pose proof (mv_calm _ _ _ HC Hp Hr Er) as H. destruct r as [p' net reqs ans|]; [|done]. destruct H as [Ha Hb].
      split; [done|]. split; [by apply Forall_insert|]. split; [done|]. by exists w.
    - rewrite Hw. cbn. intros [= <-]. split; [done|]. split; [done|]. split; [done|]. cbn. exists (<[i := sh]> w).
      rewrite last_snoc. split; [done|]. split; [by rewrite insert_length|]. by apply Forall_insert.
  Qed.
  Lemma calm_run programs roles ls s s' : finv n programs roles s → Forall (writes_in Q) ls → calm s →
    frun log2 sortBy n cap ls s = Some s' → calm s'.
  Proof.
    revert s. induction ls as [|l ls IH]; intros s HI HF HC; cbn; [by intros [= <-]|]. apply Forall_cons in HF as [Hl HF].
    destruct (fstep _ _ _ _ l s) as [s1|] eqn:E; [|done]. cbn. apply IH; [by eapply finv_step|done|by eapply calm_step].
  Qed.
  Lemma calm_turn programs roles l s : finv n programs roles s → writes_in Q l → calm s → calm (fturn (fstep log2 sortBy n cap) l s).
  Proof. intros HI HL HC. unfold fturn. destruct (fstep _ _ _ _ l s) eqn:E; [by eapply calm_step|done]. Qed.
  Lemma calm_init programs tl tr shards : length shards = n → Forall Q shards → (∀ req, req ∈ mjoin programs → R req) →
    calm (fInit n programs tl tr shards).
  Proof.
    intros Hn Hs Hp. split; [done|]. split; [|split; [constructor|by exists shards]].
    apply Forall_forall. intros p Hi. destruct (init_procs n programs tl tr p Hi) as [(t & -> & Ht)|(i & _ & [->| ->])]; [|constructor..].
    apply Forall_forall. intros req Hreq. apply Hp. apply elem_of_list_join. by exists t.
  Qed.
End Crash.

Theorem survives_lem log2 sortBy n cap programs tl tr shards (Q : Shard → Prop) ls s :
  length shards = n → Forall Q shards → Forall (writes_in Q) ls →
  (∀ req, req ∈ mjoin programs → paging_ok req ∧ ∀ sh, Q sh → looks_up log2 req sh) →
  frun log2 sortBy n cap ls (fInit n programs tl tr shards) = Some s → fCrash s = false.
Proof.
  intros Hn Hs Hl Hp Hr. set (R := λ req, req ∈ mjoin programs).
  eapply (calm_run log2 sortBy n cap R Q) in Hr; [by destruct Hr| | | apply finv_init|done|].
  - intros req H. by apply Hp.
  - intros req sh H. by apply Hp.
  - by apply calm_init.
Qed.

Theorem returns_calm_lem log2 sortBy n cap programs tl tr shards (Q : Shard → Prop) ls :
  (∀ ch, (0 < cap ch)%nat) → (0 < tl)%nat → (0 < tr)%nat →
  length shards = n → Forall Q shards → (∀ j, writes_in Q (ls j)) →
  (∀ req, req ∈ mjoin programs → paging_ok req ∧ ∀ sh, Q sh → looks_up log2 req sh) →
  ffair (length (fProcs (fInit n programs tl tr shards))) ls →
  ∃ i, ∀ j, (i <= j)%nat → all_answered programs (fafter (fstep log2 sortBy n cap) ls (fInit n programs tl tr shards) j).
Proof.
  intros Hc Hl Hr Hn Hs Hw Hp Hf. set (R := λ req, req ∈ mjoin programs).
  assert (HC : ∀ j, calm n R Q (fafter (fstep log2 sortBy n cap) ls (fInit n programs tl tr shards) j)).
  { intros j. induction j as [|j IH]; [by apply calm_init|]. cbn. eapply calm_turn; [| |by apply fafter_inv, finv_init|apply Hw|exact IH].
    - intros req H. by apply Hp.
    - intros req sh H. by apply Hp. }
  destruct (returns_lem log2 sortBy n cap Hc programs tl tr shards ls Hl Hr Hf) as [i Hi]. exists i. intros j Hj.
  destruct (Hi j Hj) as [H|H]; [|done]. destruct (HC j) as [H' _]. congruence.
Qed.

(** * Answers of read-only executions *)
Theorem global_lem log2 sortBy n cap programs tl tr shards ls s a only parts req t0 : valid_sortBy sortBy →
  frun log2 sortBy n cap ls (fInit n programs tl tr shards) = Some s → Forall read_only ls → length shards = n →
  a ∈ fAnswers s → fReqs s !! faSearch a = Some (req, t0) →
  Forall2 (shard_view log2 only req) shards parts →
  no_nan (all_hits only (ScoringCriteria (rqOpts req)) parts) → ranked req → rqTimeout req <= 0 → paging_ok req →
  ∃ full out, full ≡ₚ all_hits only (ScoringCriteria (rqOpts req)) parts ∧
    in_order (ReverseOrder (rqOpts req)) full ∧
    faResp a = mkResp (rqTokens req) false (zlen full) (Some out) ∧
    Forall2 same_scores out (page (OutputOffset (rqOpts req)) (MaxOutputs (rqOpts req)) full) ∧ out ⊆+ full.
Proof.
  intros Hv Hr Ho Hn Ha Hq Hs Hnan Hrk Ht (P1 & P2 & P3).
  destruct (search_lem _ _ _ _ _ _ _ _ _ _ _ Hr Ho Ha Hn) as (req' & t' & order & S1 & S2 & _ & _ & S5).
  rewrite Hq in S1. injection S1 as <- <-.
  assert (HA : all_arrive (length shards) order). { unfold all_arrive. rewrite Hn. by apply S5. }
  destruct (C32_lem log2 sortBy only req shards parts order Hv Hnan Hs Hrk Ht P1 P2 P3 HA) as (full & out & F1 & F2 & F3 & F4 & F5).
  exists full, out. split; [done|]. split; [done|]. split; [|done].
  assert (HR : ∀ sh, sh ∈ shards → is_Some (shardReply log2 sortBy req sh)).
  { unfold Search in F3. destruct (mapM (shardReply log2 sortBy req) shards) as [rs|] eqn:E; [|done].
    assert (HM : is_Some (mapM (shardReply log2 sortBy req) shards)) by by rewrite E.
    apply mapM_is_Some in HM. by rewrite Forall_forall in HM. }
  rewrite (S2 HR) in F3. by injection F3.
Qed.
