(** Theorems about the pipeline. *)
From Verif Require Import ModelPipe SpecIndexer SpecRank SpecRoute SpecPipe ProofTopK ProofRanker ProofRoute ProofPipe ProofBlocks ProofFlush.

Section Thms.
  Context (murmur : string → Z) (n : Z) (only reqsFirst : bool) (cap : chan → nat).
  Notation reachp nseg progs := (pipe_reach murmur n only reqsFirst cap nseg progs).
  Notation evsA := (evsA murmur n only).
  Notation todo := (todo murmur n only).
  Hypothesis Hn : 1 <= n < 2^32.

  (** * C38 *)
  Lemma C38_lem nseg progs s : reachp nseg progs s →
    value (sLog s) NumIndexingReqs =
      value (sLog s) NumDocsIndexed + in_flight docs_owed NumIndexingReqs NumDocsIndexed s ∧
    n * value (sLog s) NumRemovingReqs =
      value (sLog s) NumDocsRemoved + in_flight removals_owed NumRemovingReqs NumDocsRemoved s ∧
    n * value (sLog s) NumForceUpdatingReqs =
      value (sLog s) NumDocsForceUpdated + in_flight (forced_owed n) NumForceUpdatingReqs NumDocsForceUpdated s.
  Proof.
    intros H. pose proof (balance _ _ _ _ _ Hn PDocs _ _ _ H) as H1. pose proof (balance _ _ _ _ _ Hn PRems _ _ _ H) as H2.
    pose proof (balance _ _ _ _ _ Hn PForced _ _ _ H) as H3. cbn in *. repeat split; lia.
  Qed.

  Lemma zsum_nonneg l : Forall (λ x, 0 <= x) l → 0 <= zsum l.
  Proof. unfold zsum. induction 1; cbn; lia. Qed.
  Lemma zsum_zero_inv l : Forall (λ x, 0 <= x) l → zsum l = 0 → Forall (λ x, x = 0) l.
  Proof.
    induction 1 as [|x l Hx Hl IH]; [by constructor|]. pose proof (zsum_nonneg l Hl). change (zsum (x :: l)) with (x + zsum l).
    intros E. constructor; [lia|]. apply IH. lia.
  Qed.
  Lemma w_nonneg pr m : 0 <= pW n pr m.
  Proof.
    destruct pr, m as [c|i [d|] f|i id f|i o]; cbn; try lia; repeat case_decide; try lia;
      try destruct f; try lia; destruct c as [d f ct a [|]|id fo|]; try case_decide; lia.
  Qed.
  Lemma act_nonneg pr a : 0 <= act_owed (pW n pr) (pFin pr) a.
  Proof. destruct a as [[c| |]| | | | | |]; cbn; try lia; [case_decide; lia|apply w_nonneg]. Qed.
  Lemma proc_nonneg pr p : 0 <= proc_owed (pW n pr) (pReq pr) (pFin pr) p.
  Proof.
    unfold proc_owed. destruct (not_counted _ _); [lia|]. apply zsum_nonneg, Forall_fmap, Forall_true. intros a. apply act_nonneg.
  Qed.
  Lemma drained_lem pr nseg progs s : reachp nseg progs s →
    value (sLog s) (pFin pr) <= pK n pr * value (sLog s) (pReq pr) ∧
    (pK n pr * value (sLog s) (pReq pr) = value (sLog s) (pFin pr) →
     (∀ ch m, (ch, m) ∈ sNet s → pW n pr m = 0) ∧
     (∀ p, p ∈ sProcs s → proc_owed (pW n pr) (pReq pr) (pFin pr) p = 0)).
  Proof.
    intros H. pose proof (balance _ _ _ _ _ Hn pr _ _ _ H) as Hb. unfold in_flight in Hb.
    assert (H1 : Forall (λ x, 0 <= x) (proc_owed (pW n pr) (pReq pr) (pFin pr) <$> sProcs s)).
    { apply Forall_fmap, Forall_true. intros p. apply proc_nonneg. }
    assert (H2 : Forall (λ x, 0 <= x) ((λ cm : chan * msg, pW n pr cm.2) <$> sNet s)).
    { apply Forall_fmap, Forall_true. intros m. apply w_nonneg. }
    pose proof (zsum_nonneg _ H1). pose proof (zsum_nonneg _ H2). split; [lia|]. intros E.
    apply zsum_zero_inv in H1; [|lia]. apply zsum_zero_inv in H2; [|lia].
    rewrite Forall_forall in H1. rewrite Forall_forall in H2. split.
    - intros ch m Hin. apply H2. apply elem_of_list_fmap. by exists (ch, m).
    - intros p Hin. apply H1. apply elem_of_list_fmap. by exists p.
  Qed.

  (** * C39 *)
  Definition staged (phases : list (list ecall)) (s : pstate) : Prop :=
    ∃ c ws, one_client murmur n only s c ws ∧ stage murmur n only reqsFirst phases s c.
  Lemma stage_rtc nseg progs phases s0 s : Forall (Forall loose_call) phases → reachp nseg progs s0 → staged phases s0 →
    rtc (pipeStep murmur n only reqsFirst cap) s0 s → staged phases s.
  Proof.
    intros HG Hre0 H0 H. assert (Hx : staged phases s ∧ reachp nseg progs s); [|by destruct Hx].
    revert s H. apply (rtc_ind_r (λ s', staged phases s' ∧ reachp nseg progs s') s0); [done|].
    intros s1 s2 _ [k Hk] [(c & ws & Hone & Hstage) Hre]. split; [|by eapply rtc_r; [exact Hre|by exists k]].
    destruct (one_client_step murmur n only reqsFirst cap Hn _ _ _ _ _ Hone Hk) as [(ws' & d & Hone' & Hl & Hr & Hd)|(c' & -> & Hs & Hone')].
    - exists c, ws'. split; [done|]. by eapply stage_worker.
    - exists c', ws. split; [done|]. by eapply stage_client.
  Qed.
  Lemma workers_isW nseg : Forall (isW murmur n only) (sProcs (pipeInit n nseg [])).
  Proof.
    cbn. apply Forall_app. split.
    - apply Forall_replicate. split; [left; by eexists|]. split; [done|]. apply noreq_nil.
    - apply Forall_join, Forall_fmap, Forall_true. intros i.
      repeat (apply Forall_cons; split; [split; [left; by eexists|]; split; [done|]; apply noreq_nil|]). constructor.
  Qed.
  Lemma reach_stage nseg phases s : Forall loose_phase phases → reachp nseg [program phases] s → staged phases s.
  Proof.
    intros HG H. eapply stage_rtc; [eapply Forall_impl; [exact HG|]; by intros ? []|apply rtc_refl| |exact H]. eexists _, _. split.
    - split; [cbn; reflexivity|]. split; [done|]. apply (workers_isW nseg).
    - eapply (StA _ _ _ _ _ _ _ [] phases []); try done; [constructor|].
      intros i Hi. exists [], []. split; [done|]. split; [constructor|].
      assert (Ht : todo (pipeInit n nseg [program phases]) = []); [|by rewrite Ht].
      unfold ProofPipe.todo, evsP. cbn. rewrite app_nil_r. rewrite !fmap_app, !join_app.
      assert (H2 : ∀ m, mjoin (evsA ∘ pActs <$> replicate m (worker CSeg)) = []).
      { induction m; [done|]. cbn. done. }
      assert (H3 : ∀ l, mjoin (evsA ∘ pActs <$> mjoin ((λ i, [worker (CIxAdd i); worker (CIxRem i); worker (CRkAdd i); worker (CRkRem i)]) <$> l)) = []).
      { induction l as [|j l IH]; [done|]. rewrite fmap_cons, mjoin_cons, fmap_app, join_app, IH. done. }
      by rewrite H2, H3.
  Qed.

  Lemma program_nonflush later st : program later = st ++ [] → Forall loose_call st → later = [] ∧ st = [].
  Proof.
    intros H Hst. rewrite app_nil_r in H. destruct later as [|ph later]; [by subst|]. subst st. cbn in Hst.
    rewrite !Forall_app in Hst. destruct Hst as [[_ Hx] _]. apply Forall_cons in Hx as [Hf _]. by destruct Hf.
  Qed.

  Lemma staged_end phases s i : staged phases s → returned 0 s → 0 <= i < n → blocks murmur n i phases (ixCalls i (sLog s)).
  Proof.
    intros (c & ws & (Hps & _) & Hstage) (p & Hp & Ha & Hc) Hr. rewrite Hps in Hp. injection Hp as ->.
    destruct Hstage as [dn later st E1 E2 Hw Hni Hsh|dn ph later l E1 E2 E3 HcB Hsh|dn ph later l l' E1 E2 E3 E4 Hsh|dn ph later E1 E2 HcD Hsh].
    2: { rewrite Ha in E3. by destruct l. }
    2: { rewrite Ha in E3. by destruct l. }
    2: { rewrite Ha in HcD. by destruct HcD as [?|[?|[[? _]|[? _]]]]. }
    rewrite Hc in E2. destruct (program_nonflush _ _ E2 Hw) as [-> ->]. rewrite app_nil_r in E1. subst dn.
    destruct (Hsh i Hr) as (ops & l & Hl & HB & Hpm). apply Permutation_nil_r in Hpm.
    apply app_eq_nil in Hpm as [-> _]. rewrite app_nil_r in Hl. by rewrite Hl.
  Qed.
  Lemma loose_gen sortDocs o s0 phases s i : valid_sort sortDocs → Init o = Some s0 → Forall loose_phase phases →
    staged phases s → returned 0 s → 0 <= i < n →
    ∃ ix, run sortDocs (ixCalls i (sLog s)) s0 = Some ix ∧ shows ix (mapOf (ixStream murmur n i (program phases))) ∧
      clean ix (mapOf (ixStream murmur n i (program phases))) ∧ addCache ix = [] ∧ removeCache ix = [].
  Proof.
    intros Hsort Hi HG Hst Hret Hr. pose proof (staged_end phases s i Hst Hret Hr) as HB. set (ops := ixCalls i (sLog s)) in *.
    destruct (blocks_run murmur n sortDocs Hn Hsort o s0 i phases ops Hi HB HG) as (_ & _ & HM & ix & Hrun & Hsh' & Hcl & Hac & Hrc).
    exists ix. rewrite <- HM. done.
  Qed.
  Lemma C39_gen sortDocs o s0 phases s i : valid_sort sortDocs → Init o = Some s0 → Forall good_phase phases →
    staged phases s → returned 0 s → 0 <= i < n →
    ∃ ix M, run sortDocs (ixCalls i (sLog s)) s0 = Some ix ∧ shows ix M ∧ clean ix M ∧
      addCache ix = [] ∧ removeCache ix = [] ∧
      ∀ id, M !! id = version murmur n i (program phases) id.
  Proof.
    intros Hsort Hi HG Hst Hret Hr.
    destruct (loose_gen sortDocs o s0 phases s i Hsort Hi (goods_loose _ HG) Hst Hret Hr) as (ix & Hrun & Hsh' & Hcl & Hac & Hrc).
    eexists ix, _. repeat (split; [done|]). intros id. apply mapOf_version'; [done|]. by apply program_ord.
  Qed.
  Lemma C39_lem sortDocs o s0 nseg phases s i : valid_sort sortDocs → Init o = Some s0 → Forall good_phase phases →
    reachp nseg [program phases] s → returned 0 s → 0 <= i < n →
    ∃ ix M, run sortDocs (ixCalls i (sLog s)) s0 = Some ix ∧ shows ix M ∧ clean ix M ∧
      addCache ix = [] ∧ removeCache ix = [] ∧
      ∀ id, M !! id = version murmur n i (program phases) id.
  Proof. intros Hsort Hi HG Hre. eapply C39_gen; [done..|]. eapply reach_stage; [by apply goods_loose|done]. Qed.

  Lemma prefix_phase later st cs : Forall loose_phase later → program later = st ++ cs → Forall loose_call st →
    NoDup (omap call_id (ordinary st)).
  Proof.
    intros HF HP Hst. destruct later as [|ph later]; [symmetry in HP; apply app_eq_nil in HP as [-> _]; constructor|].
    apply Forall_cons in HF as [[_ Hnd] _]. cbn in HP. rewrite <- app_assoc in HP. cbn in HP.
    apply app_eq_inv in HP as [(k & -> & E)|(k & -> & E)].
    - rewrite ordinary_app, omap_app in Hnd. by apply NoDup_app in Hnd as [? _].
    - destruct k as [|x k]; [by rewrite app_nil_r|]. injection E as <- _.
      apply Forall_app in Hst as [_ Hst]. apply Forall_cons in Hst as [Hf _]. by destruct Hf.
  Qed.

  Lemma no_crash_loose sortDocs o s0 phases s i : valid_sort sortDocs → Init o = Some s0 → Forall loose_phase phases →
    staged phases s → 0 <= i < n → is_Some (run sortDocs (ixCalls i (sLog s)) s0).
  Proof.
    intros Hsort Hi HG (c & ws & Hone & Hstage) Hr.
    assert (Hph : ∀ dn ph later, phases = dn ++ ph :: later → Forall loose_phase dn ∧ loose_phase ph).
    { intros dn ph later ->. apply Forall_app in HG as [? HG]. by apply Forall_cons in HG as [? _]. }
    destruct Hstage as [dn later st E1 E2 Hw Hni Hsh|dn ph later l E1 E2 E3 HcB Hsh|dn ph later l l' E1 E2 E3 E4 Hsh|dn ph later E1 E2 HcD Hsh].
    - destruct (Hsh i Hr) as (ops & l & -> & HB & Hp). rewrite E1 in HG. apply Forall_app in HG as [HG1 HG2].
      eapply (blocks_prefix murmur n sortDocs Hn Hsort o s0 i dn ops st l); try done; [by eapply prefix_phase|by left].
    - destruct (Hsh i Hr) as (ops & k & -> & HB & Hp). destruct (Hph _ _ _ E1) as [? [? ?]].
      eapply (blocks_prefix murmur n sortDocs Hn Hsort o s0 i dn ops ph k); try done. by right.
    - destruct (Hsh i Hr) as (ops & k & k' & -> & HB & Hp & _). destruct (Hph _ _ _ E1) as [? [? ?]].
      eapply (blocks_prefix murmur n sortDocs Hn Hsort o s0 i dn ops ph (k ++ k')); try done. right. by rewrite <- app_assoc.
    - destruct (Hsh i Hr) as (ops & k & k' & -> & HB & Hp & _). destruct (Hph _ _ _ E1) as [? [? ?]].
      eapply (blocks_prefix murmur n sortDocs Hn Hsort o s0 i dn ops ph (k ++ k')); try done. right. by rewrite <- app_assoc.
  Qed.

  Lemma no_crash_gen sortDocs o s0 phases s i : valid_sort sortDocs → Init o = Some s0 → Forall good_phase phases →
    staged phases s → 0 <= i < n → is_Some (run sortDocs (ixCalls i (sLog s)) s0).
  Proof. intros Hsort Hi HG. eapply no_crash_loose; [done..|]. by apply goods_loose. Qed.
  Lemma C39_no_crash_lem sortDocs o s0 nseg phases s i : valid_sort sortDocs → Init o = Some s0 → Forall good_phase phases →
    reachp nseg [program phases] s → 0 <= i < n → is_Some (run sortDocs (ixCalls i (sLog s)) s0).
  Proof. intros Hsort Hi HG Hre. eapply no_crash_gen; [done..|]. eapply reach_stage; [by apply goods_loose|done]. Qed.

  (** * Schedules are executions *)
  Lemma psched_reach ks : ∀ s s', psched murmur n only reqsFirst cap ks s = Some s' →
    rtc (pipeStep murmur n only reqsFirst cap) s s'.
  Proof.
    induction ks as [|k ks IH]; intros s s' H; [by injection H as ->|]. unfold psched in *. cbn in H.
    apply bind_Some in H as (s1 & H1 & H2). eapply rtc_l; [by exists k|]. by apply IH.
  Qed.

  (** * C40: ranker calls once everything has been processed *)
  Notation callA := (callActs n reqsFirst).
  Notation evsM := (evsM murmur n only).
  Notation evsC := (evsC murmur n only reqsFirst).
  Lemma rkCalls_app i l1 l2 : rkCalls i (l1 ++ l2) = rkCalls i l1 ++ rkCalls i l2.
  Proof. unfold rkCalls. by rewrite omap_app. Qed.
  Lemma rkCalls_perm i l1 l2 : l1 ≡ₚ l2 → rkCalls i l1 ≡ₚ rkCalls i l2.
  Proof. intros H. unfold rkCalls. by rewrite H. Qed.
  Lemma rkCalls_join {B} (f : B → list event) i l : rkCalls i (mjoin (f <$> l)) = mjoin ((λ x, rkCalls i (f x)) <$> l).
  Proof. induction l as [|x l IH]; [done|]. rewrite !fmap_cons, !mjoin_cons, rkCalls_app. by rewrite IH. Qed.
  Lemma rkCalls_A i l : rkCalls i (evsA l) = mjoin ((λ a, rkCalls i (evs murmur n only a)) <$> l).
  Proof. unfold ProofPipe.evsA. by rewrite rkCalls_join. Qed.
  Lemma rkCalls_add i j d f : rkCalls i (evsM (MAdd j d f)) = [].
  Proof. rewrite evsM_hand. cbn. by destruct d, f. Qed.
  Lemma rkCalls_rem i j id f : rkCalls i (evsM (MRem j id f)) = [].
  Proof. rewrite evsM_hand. cbn. by destruct (seqb id "0"), f. Qed.
  Lemma rkCalls_rank i j o : rkCalls i (evsM (MRank j o)) = if j =? i then [o] else [].
  Proof. rewrite evsM_hand. cbn. by destruct (j =? i). Qed.
  Lemma rkCalls_incs i id f c : rkCalls i (evsA (incs id f c)) = [].
  Proof. unfold incs. by destruct (seqb id "0"), f. Qed.
  Lemma rkCalls_seg i d f ct a fo :
    rkCalls i (evsM (MSeg (EIndex d f ct a fo))) = rkMsgs murmur n only i (EIndex d f ct a fo).
  Proof.
    rewrite evsM_hand, rkCalls_A. cbn [handler segActs rkMsgs]. destruct (seqb (DocId d) "0").
    - destruct fo; [|done]. rewrite <- list_fmap_compose. eapply join_none; [exact Hn|].
      intros j _. cbn -[ProofPipe.evsM rkCalls]. by rewrite rkCalls_add.
    - rewrite !fmap_app, !join_app. cbn -[ProofPipe.evsM rkCalls]. rewrite rkCalls_add, rkCalls_rank, !app_nil_r. cbn [app].
      replace (mjoin _) with (@nil rop); [done|]. symmetry. destruct fo; [|done].
      rewrite <- list_fmap_compose. eapply join_none; [exact Hn|]. intros j _. cbn -[ProofPipe.evsM rkCalls]. by rewrite rkCalls_add.
  Qed.
  Lemma rkCalls_call i c : 0 <= i < n → rkCalls i (evsA (callA c)) = rkMsgs murmur n only i c.
  Proof.
    intros Hi. destruct c as [d f ct a fo|id fo|]; cbn [callActs].
    - unfold indexActs. rewrite evsA_app, rkCalls_app, rkCalls_incs. cbn [app].
      rewrite <- (rkCalls_seg i d f ct a fo). cbn -[ProofPipe.evsM]. by rewrite app_nil_r.
    - rewrite evsA_app, rkCalls_app, rkCalls_incs. cbn [app]. rewrite rkCalls_A. cbn [rkMsgs].
      assert (H : ∀ l, NoDup l → mjoin ((λ a, rkCalls i (evs murmur n only a)) <$> mjoin ((λ i, ASend (CIxRem i) (MRem i id fo) ::
                   (if seqb id "0" then [] else [ASend (CRkRem i) (MRank i (RORemove id))])) <$> l)) =
                 if decide (i ∈ l) then (if seqb id "0" then [] else [RORemove id]) else []).
      { intros l. induction l as [|j l IH]; intros Hnd; [by rewrite decide_False by apply not_elem_of_nil|].
        apply NoDup_cons in Hnd as [Hj Hnd]. rewrite fmap_cons, mjoin_cons, fmap_app, join_app, (IH Hnd).
        assert (H0 : mjoin ((λ a, rkCalls i (evs murmur n only a)) <$> (ASend (CIxRem j) (MRem j id fo) ::
                   (if seqb id "0" then [] else [ASend (CRkRem j) (MRank j (RORemove id))]))) =
                   if j =? i then (if seqb id "0" then [] else [RORemove id]) else []).
        { rewrite fmap_cons, mjoin_cons. cbn -[ProofPipe.evsM rkCalls]. rewrite rkCalls_rem.
          destruct (seqb id "0"); cbn -[ProofPipe.evsM rkCalls]; rewrite ?rkCalls_rank; rewrite ?app_nil_r; by destruct (j =? i). }
        rewrite H0. destruct (Z.eqb_spec j i) as [->|Hne].
        - rewrite (decide_False (P:=i ∈ l)), decide_True; [by rewrite app_nil_r|left|done].
        - cbn [app]. destruct (decide (i ∈ l)).
          + rewrite decide_True; [done|by right].
          + rewrite decide_False; [done|]. intros [?|?]%elem_of_cons; congruence. }
      rewrite H by apply NoDup_seqZ. rewrite decide_True; [done|]. apply elem_of_seqZ. lia.
    - rewrite !evsA_app, evsA_loop1, evsA_loop2, app_nil_r. cbn [app]. unfold indexActs.
      rewrite evsA_app, rkCalls_app, rkCalls_incs. cbn [app].
      pose proof (rkCalls_seg i (mkDoc "0" f_zero []) INil "" INil true) as H.
      cbn -[ProofPipe.evsM] in *. rewrite app_nil_r. exact H.
  Qed.
  Lemma rkCalls_calls i cs : 0 <= i < n → rkCalls i (evsC cs) = rkStream murmur n only i cs.
  Proof.
    intros Hi. unfold ProofPipe.evsC, rkStream. rewrite rkCalls_join. f_equal. apply list_fmap_ext.
    intros _ c _. by apply rkCalls_call.
  Qed.

  Lemma quiescent_all s : quiescent s → evsAll murmur n only reqsFirst s = [].
  Proof.
    intros [Hnet HF]. unfold evsAll. rewrite Hnet. change (evsN murmur n only []) with (@nil event). rewrite app_nil_r.
    induction HF as [|p ps [H1 H2] HF IH]; [done|]. rewrite fmap_cons, mjoin_cons, IH. unfold evsPr. by rewrite H1, H2.
  Qed.

  (** All calls of all clients have taken effect, in some order. *)
  Lemma quiescent_calls nseg progs s i : reachp nseg progs s → quiescent s → 0 <= i < n →
    ixCalls i (sLog s) ≡ₚ ixStream murmur n i (mjoin progs) ∧ rkCalls i (sLog s) ≡ₚ rkStream murmur n only i (mjoin progs).
  Proof.
    intros H Hq Hi. pose proof (reach_all _ _ _ _ _ _ _ _ H) as Hp. rewrite (quiescent_all _ Hq), app_nil_r in Hp. split.
    - rewrite (ixCalls_perm _ _ _ Hp). by rewrite ixCalls_calls.
    - rewrite (rkCalls_perm _ _ _ Hp). by rewrite rkCalls_calls.
  Qed.

  Definition on_id (id : string) (o : rop) : bool := match o with ROAdd i _ _ | RORemove i => seqb i id end.
  Lemma rkMsgs_on i c id : on_id id <$> rkMsgs murmur n only i c = [] ∨ call_id c = Some id ∨
    filter (λ o, on_id id o = true) (rkMsgs murmur n only i c) = [].
  Proof.
    destruct c as [d f ct a fo|id' fo|]; cbn [rkMsgs call_id]; [..|by left].
    - destruct (seqb (DocId d) "0"); [by left|]. destruct (_ =? i); [|by left]. right.
      destruct (seqb (DocId d) id) eqn:E; [apply seqb_eq in E; left; by subst|right].
      rewrite filter_cons, decide_False; [done|]. cbn. by rewrite E.
    - destruct (seqb id' "0"); [by left|]. right.
      destruct (seqb id' id) eqn:E; [apply seqb_eq in E; left; by subst|right].
      rewrite filter_cons, decide_False; [done|]. cbn. by rewrite E.
  Qed.
  Lemma rks_on i cs id : id ∉ omap call_id cs → filter (λ o, on_id id o = true) (rkStream murmur n only i cs) = [].
  Proof.
    induction cs as [|c cs IH]; intros H; [done|]. unfold rkStream. rewrite fmap_cons, mjoin_cons, filter_app.
    change (mjoin (rkMsgs murmur n only i <$> cs)) with (rkStream murmur n only i cs).
    cbn in H. rewrite IH.
    2: { destruct (call_id c); [by apply not_elem_of_cons in H as [_ ?]|done]. }
    rewrite app_nil_r. destruct (rkMsgs_on i c id) as [E|[E|E]]; [|rewrite E in H; by apply not_elem_of_cons in H as [? _]|done].
    apply fmap_nil_inv in E. by rewrite E.
  Qed.
  Lemma last_call_on id ops : last_call id ops = head (filter (λ o, on_id id o = true) (reverse ops)).
  Proof. unfold last_call, on_id. done. Qed.

  (** The one call about a document that the ranker of its shard gets *)
  Lemma stream_call cs ops d f ct a fo :
    ops ≡ₚ rkStream murmur n only (u32 (murmur (String.append (DocId d) ct)) `mod` n) cs →
    EIndex d f ct a fo ∈ cs → DocId d ≠ "0" → NoDup (omap call_id cs) →
    last_call (DocId d) ops = Some (ROAdd (DocId d) f (if only then [] else [IStr ct; a])).
  Proof.
    rewrite <- shardOf_mod by done. set (i := shardOf murmur n (DocId d) ct). intros Hp Hin Hd Hnd.
    rewrite last_call_on.
    assert (E : filter (λ o, on_id (DocId d) o = true) (reverse ops) ≡ₚ
      [ROAdd (DocId d) f (if only then [] else [IStr ct; a])]).
    { rewrite reverse_Permutation, Hp. apply elem_of_list_split in Hin as (cs0 & cs1 & E). rewrite E in *.
      rewrite omap_app in Hnd. cbn in Hnd. apply NoDup_app in Hnd as (_ & Hx & Hnd). apply NoDup_cons in Hnd as [Hy _].
      rewrite rkStream_app. change (EIndex d f ct a fo :: cs1) with ([EIndex d f ct a fo] ++ cs1).
      rewrite rkStream_app, rkStream_one, !filter_app, !rks_on; [|done|].
      - cbn [rkMsgs]. assert (seqb (DocId d) "0" = false) as -> by by apply seqb_neq.
        rewrite (Z.eqb_refl i : (shardOf murmur n (DocId d) ct =? i) = true). rewrite filter_cons, decide_True; [done|]. cbn. apply seqb_refl.
      - intros Hz. apply (Hx _ Hz). left. }
    apply Permutation_singleton_r in E. by rewrite E.
  Qed.
  Lemma drained_call nseg progs s d f ct a fo : reachp nseg progs s → quiescent s →
    EIndex d f ct a fo ∈ mjoin progs → DocId d ≠ "0" → NoDup (omap call_id (mjoin progs)) →
    last_call (DocId d) (rkCalls (u32 (murmur (String.append (DocId d) ct)) `mod` n) (sLog s)) =
      Some (ROAdd (DocId d) f (if only then [] else [IStr ct; a])).
  Proof.
    intros H Hq Hin Hd Hnd. eapply stream_call; [|done..].
    apply (quiescent_calls nseg progs s _ H Hq). apply Z.mod_pos_bound. lia.
  Qed.
  Lemma drained_engine nseg progs s i : reachp nseg progs s → quiescent s → 0 <= i < n →
    Forall (engine_call only) (rkCalls i (sLog s)).
  Proof. intros H Hq Hi. destruct (quiescent_calls nseg progs s i H Hq Hi) as [_ Hp]. rewrite Hp. apply rkStream_engine. Qed.

  Lemma C40_drained_lem nseg progs s d f ct a fo : reachp nseg progs s → quiescent s →
    EIndex d f ct a fo ∈ mjoin progs → DocId d ≠ "0" → NoDup (omap call_id (mjoin progs)) →
    ∃ rk, rrun (rkCalls (u32 (murmur (String.append (DocId d) ct)) `mod` n) (sLog s)) (RankerInit [only]) = Some rk ∧
      ranker_holds rk (DocId d) (Some f) (if only then None else Some ct) (if only then None else Some a).
  Proof.
    intros H Hq Hin Hd Hnd.
    assert (Hi : 0 <= u32 (murmur (String.append (DocId d) ct)) `mod` n < n) by (apply Z.mod_pos_bound; lia).
    destruct (C27_lem only _ (drained_engine nseg progs s _ H Hq Hi)) as (rk & Hrk & _ & Hh). exists rk. split; [done|].
    specialize (Hh (DocId d)). rewrite (drained_call nseg progs s d f ct a fo H Hq Hin Hd Hnd) in Hh. by destruct only.
  Qed.
End Thms.
