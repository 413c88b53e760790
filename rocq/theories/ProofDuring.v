(** Searches while documents are being written. *)
From Verif Require Import ModelPipe ModelEngine ModelFlight SpecIndexer SpecSearch SpecRank SpecRoute SpecPipe SpecEngine SpecFlight SpecEnd SpecLogic SpecFits SpecDuring
  ProofTable ProofIndexer ProofCache ProofHistory ProofIxThms ProofIxMap ProofIxMore ProofSearchThms ProofRanker ProofRoute ProofPipe ProofFlush ProofFlushThms ProofEngine
  ProofFlightSafe ProofLogicThms ProofFits ProofEnd.
From Verif Require Export ProofMoments.

(** * One document in one indexer *)
Section Stage.
  Context (sortDocs : list DocIndex → list DocIndex) (Hsort : valid_sort sortDocs) (id : string).

  Definition occ (l : list DocIndex) : nat := length (filter (λ d, DocId d = id) l).
  Lemma occ_app l1 l2 : occ (l1 ++ l2) = (occ l1 + occ l2)%nat.
  Proof. unfold occ. by rewrite filter_app, app_length. Qed.
  Lemma occ_perm l1 l2 : l1 ≡ₚ l2 → occ l1 = occ l2.
  Proof. intros H. unfold occ. apply Permutation_length. by rewrite H. Qed.
  Lemma occ_zero l : occ l = 0%nat ↔ id ∉ ids l.
  Proof.
    unfold occ, ids. split.
    - intros H%nil_length_inv (d & -> & Hd)%elem_of_list_fmap.
      assert (Hf : d ∈ filter (λ d', DocId d' = DocId d) l) by by apply elem_of_list_filter. rewrite H in Hf. by apply elem_of_nil in Hf.
    - intros H. destruct (filter (λ d, DocId d = id) l) as [|d l'] eqn:E; [done|]. destruct H.
      assert (Hf : d ∈ filter (λ d, DocId d = id) l) by (rewrite E; by left). apply elem_of_list_filter in Hf as [<- Hf].
      by apply elem_of_list_fmap_1.
  Qed.

  (** Either not live, and waiting at most once, or live and not waiting; not to be removed *)
  Definition stage (s : Indexer) : Prop :=
    (occ (addCache s) <= 1)%nat ∧ (HasDoc s id = true → occ (addCache s) = 0%nat) ∧ id ∉ removeCache s.
  Lemma not_dying s live dying : Inv s live dying → id ∉ removeCache s ↔ dying !! id = None.
  Proof. intros HI. rewrite (core_rc _ _ _ _ (inv_core _ _ _ HI)). by rewrite eq_None_not_Some. Qed.

  Lemma add_stage doc force s live dying s' : Inv s live dying → good_op (OpAdd doc force) →
    step sortDocs s (OpAdd doc force) = Some s' →
    (occ (waiting doc s) <= 1)%nat → (HasDoc s id = true → occ (waiting doc s) = 0%nat) → id ∉ removeCache s →
    stage s' ∧ (HasDoc s id = true → HasDoc s' id = true).
  Proof.
    intros HI Hg Hs' H1 H2 H3. cbn [step] in Hs'. pose proof (wait_lt _ _ _ _ _ Hs') as Hlt.
    destruct (AddDocToCache_inv sortDocs Hsort doc force s live dying) as (s1 & Hrun & _ & Hcase); [done|by destruct doc|].
    rewrite Hrun in Hs'. injection Hs' as ->. cbv zeta in Hcase. set (W := waiting doc s) in *.
    assert (HL : HasDoc s id = true → live1 W live !! id = live !! id).
    { intros H. rewrite live1_lookup. rewrite decide_False; [done|]. by apply occ_zero, H2. }
    assert (HD : dying1 W live dying !! id = None).
    { rewrite dying1_lookup, (proj1 (not_dying _ _ _ HI) H3). destruct (decide _) as [Hin|]; [|done].
      apply eq_None_not_Some. intros Hl. apply (inv_hasdoc _ _ _ _ HI) in Hl. by apply H2, occ_zero in Hl. }
    destruct (addFlush s W force).
    - destruct (rmFlush s (dying1 W live dying) force).
      + destruct Hcase as (l & Hl & _ & HI' & Hc). split.
        * unfold stage. rewrite Hc. split; [cbn; lia|]. split; [done|]. by apply (not_dying _ _ _ HI').
        * intros H. apply (inv_hasdoc _ _ _ _ HI'). rewrite insertAll_lookup_notin.
          -- rewrite HL by done. by apply (inv_hasdoc _ _ _ _ HI).
          -- apply occ_zero. rewrite (occ_perm _ _ Hl). auto.
      + destruct Hcase as (kept & other & l & Hko & _ & _ & Hl & _ & HI' & Hc).
        apply occ_perm in Hko. rewrite occ_app in Hko. apply occ_perm in Hl. split.
        * unfold stage. rewrite Hc. split; [lia|]. split; [|by apply (not_dying _ _ _ HI')]. intros H. apply (inv_hasdoc _ _ _ _ HI') in H as [d Hd].
          destruct (decide (id ∈ ids l)) as [Hin|Hin].
          -- assert (occ l ≠ 0%nat) by (intros ?%occ_zero; done). lia.
          -- rewrite insertAll_lookup_notin in Hd by done. rewrite live1_lookup in Hd. destruct (decide _) as [|Hn]; [done|].
             apply occ_zero in Hn. fold W in Hn. lia.
        * intros H. apply (inv_hasdoc _ _ _ _ HI'). rewrite insertAll_lookup_notin.
          -- rewrite HL by done. by apply (inv_hasdoc _ _ _ _ HI).
          -- apply occ_zero. specialize (H2 H). lia.
    - destruct Hcase as [HI' Hc].
      assert (HH : HasDoc s' id = true ↔ HasDoc s id = true). { by rewrite (inv_hasdoc _ _ _ _ HI'), (inv_hasdoc _ _ _ _ HI). }
      split; [|tauto]. unfold stage. rewrite Hc. split; [done|]. split; [intros H; by apply H2, HH|].
      by apply (not_dying _ _ _ HI'), (not_dying _ _ _ HI).
  Qed.

  Definition touches (o : op) : Prop := op_id o = Some id.
  Global Instance touches_dec o : Decision (touches o).
  Proof. unfold touches. apply _. Defined.

  Lemma other_stage o s live dying s' : Inv s live dying → good_op o → ¬ touches o → step sortDocs s o = Some s' →
    stage s → stage s' ∧ (HasDoc s id = true → HasDoc s' id = true).
  Proof.
    intros HI Hg Ht Hs' (H1 & H2 & H3). destruct o as [doc force|i force].
    - assert (E : occ (waiting doc s) = occ (addCache s)).
      { unfold waiting. rewrite occ_app. destruct doc as [d|]; [|cbn; lia]. assert (occ [d] = 0%nat); [|lia].
        unfold occ. rewrite filter_cons, decide_False; [done|]. intros E. apply Ht. unfold touches. cbn. by rewrite E. }
      eapply add_stage; [done..| | |done]; rewrite E; auto.
    - cbn [step] in Hs'. pose proof (RemoveDocToCache_inv s live dying i force HI) as HR.
      destruct (aMark i live dying) as [l' d'] eqn:EM. destruct HR as (s1 & Hrun & HI' & Hc & _).
      rewrite Hrun in Hs'. rewrite bind_Some_eq in Hs'. injection Hs' as ->.
      assert (Hi : i ≠ id). { intros ->. by apply Ht. }
      assert (HH : HasDoc s' id = true ↔ HasDoc s id = true).
      { rewrite (inv_hasdoc _ _ _ _ HI'), (inv_hasdoc _ _ _ _ HI). unfold aMark in EM.
        destruct (decide _); [by injection EM as <- <-|]. destruct (live !! i); [|by injection EM as <- <-].
        injection EM as <- <-. by rewrite lookup_delete_ne. }
      split; [|tauto]. unfold stage. rewrite Hc. split; [done|]. split; [intros H; by apply H2, HH|].
      apply (not_dying _ _ _ HI'). apply (not_dying _ _ _ HI) in H3. destruct (rmFlush _ _ _); [done|]. unfold aMark in EM.
      destruct (decide _); [by injection EM as <- <-|]. destruct (live !! i); [|by injection EM as <- <-].
      injection EM as <- <-. by rewrite lookup_insert_ne.
  Qed.

  Lemma others_stage ops : ∀ s live dying s', Inv s live dying → Forall good_op ops → Forall (λ o, ¬ touches o) ops →
    run sortDocs ops s = Some s' → stage s →
    ∃ live' dying', Inv s' live' dying' ∧ stage s' ∧ (HasDoc s id = true → HasDoc s' id = true).
  Proof.
    induction ops as [|o ops IH]; intros s live dying s' HI Hg Ht Hr Hst.
    { injection Hr as <-. eauto. }
    apply Forall_cons in Hg as [Hg Hgs]. apply Forall_cons in Ht as [Ht Hts].
    unfold run in Hr. cbn in Hr. destruct (step sortDocs s o) as [s1|] eqn:E; [|done]. cbn in Hr.
    destruct (step_inv sortDocs Hsort s live dying o s1) as (l1 & d1 & HI1 & _); [done..|].
    destruct (other_stage o s live dying s1) as [S1 S2]; [done..|].
    destruct (IH s1 l1 d1 s') as (l2 & d2 & HI2 & S3 & S4); [done..|]. exists l2, d2. eauto.
  Qed.

  Lemma untouched_gone ops o s0 s : Init o = Some s0 → Forall good_op ops → Forall (λ o, ¬ touches o) ops →
    run sortDocs ops s0 = Some s → occ (addCache s) = 0%nat ∧ HasDoc s id = false.
  Proof.
    intros Hi Hg Ht Hr. destruct (Init_inv o s0 Hi) as [HI Hc].
    assert (HG : gone s0 id).
    { split; [by apply (hasdoc_false _ _ _ _ HI)|]. unfold waits. rewrite Hc. by intros ?%elem_of_nil. }
    destruct (run_gone sortDocs Hsort ops s0 ∅ ∅ id s HI Hg) as [H1 H2]; [|done..|].
    { eapply Forall_impl; [exact Ht|]. intros [[d|] f|i f]; cbn; [|tauto..]. intros H E. apply H. unfold touches. cbn. by rewrite E. }
    split; [|done]. by apply occ_zero.
  Qed.

  (** After at most one call on the id, and that an addition *)
  Lemma single_stage ops o s0 s : Init o = Some s0 → Forall good_op ops →
    (filter touches ops = [] ∨ ∃ d f, filter touches ops = [OpAdd (Some d) f]) →
    run sortDocs ops s0 = Some s → ∃ live dying, Inv s live dying ∧ stage s.
  Proof.
    intros Hi Hg Ht Hr. destruct (Init_inv o s0 Hi) as [HI Hc].
    assert (S0 : stage s0). { unfold stage. rewrite Hc. split; [cbn; lia|]. split; [done|]. by apply (not_dying _ _ _ HI). }
    destruct Ht as [Ht|(d & f & Ht)].
    - destruct (others_stage ops s0 ∅ ∅ s) as (l1 & d1 & H1 & H2 & _); [done..| |done|done|eauto].
      apply Forall_forall. intros x Hx Hxt. assert (x ∈ filter touches ops) as Hf by by apply elem_of_list_filter.
      rewrite Ht in Hf. by apply elem_of_nil in Hf.
    - assert (Hin : OpAdd (Some d) f ∈ filter touches ops) by (rewrite Ht; by left). apply elem_of_list_filter in Hin as [Hto Hin].
      apply elem_of_list_split in Hin as (ops1 & ops2 & ->).
      rewrite filter_app, filter_cons, decide_True in Ht by done.
      assert (E1 : filter touches ops1 = []).
      { destruct (filter touches ops1) as [|x l]; [done|]. cbn in Ht. injection Ht as _ Ht. by destruct l. }
      assert (E2 : filter touches ops2 = []). { rewrite E1 in Ht. cbn in Ht. by injection Ht. }
      assert (HF : ∀ l, filter touches l = [] → Forall (λ o, ¬ touches o) l).
      { intros l E. apply Forall_forall. intros x Hx Hxt. assert (x ∈ filter touches l) as Hf by by apply elem_of_list_filter.
        rewrite E in Hf. by apply elem_of_nil in Hf. }
      apply Forall_app in Hg as [Hg1 Hg2]. apply Forall_cons in Hg2 as [Hgo Hg2].
      rewrite run_app in Hr. destruct (run sortDocs ops1 s0) as [s1|] eqn:R1; [|done]. change (run sortDocs ([OpAdd (Some d) f] ++ ops2) s1 = Some s) in Hr.
      rewrite run_app in Hr. destruct (run sortDocs [OpAdd (Some d) f] s1) as [s2|] eqn:R2; [|done]. cbn in Hr.
      assert (R2' : step sortDocs s1 (OpAdd (Some d) f) = Some s2). { unfold run in R2. cbn [foldlM] in R2. destruct (step sortDocs s1 (OpAdd (Some d) f)); exact R2. } clear R2. rename R2' into R2.
      destruct (untouched_gone ops1 o s0 s1 Hi Hg1 (HF _ E1) R1) as [G1 G2].
      destruct (run_inv sortDocs Hsort ops1 s0 ∅ ∅ s1 HI Hg1 R1) as (l1 & d1 & HI1 & _).
      destruct (step_inv sortDocs Hsort s1 l1 d1 _ s2 HI1 Hgo R2) as (l2 & d2 & HI2 & _).
      destruct (add_stage (Some d) f s1 l1 d1 s2 HI1 Hgo R2) as [S2 _].
      { unfold waiting. rewrite occ_app, G1. unfold occ. rewrite filter_cons. destruct (decide _); cbn; lia. }
      { rewrite G2. done. }
      { destruct (others_stage ops1 s0 ∅ ∅ s1 HI Hg1 (HF _ E1) R1 S0) as (_ & _ & _ & (_ & _ & ?) & _). done. }
      destruct (others_stage ops2 s2 l2 d2 s HI2 Hg2 (HF _ E2) Hr S2) as (l3 & d3 & HI3 & S3 & _). eauto.
  Qed.

  (** Once live, always live *)
  Lemma live_stays ops ops' o s0 s s' : Init o = Some s0 → Forall good_op (ops ++ ops') →
    (filter touches (ops ++ ops') = [] ∨ ∃ d f, filter touches (ops ++ ops') = [OpAdd (Some d) f]) →
    run sortDocs ops s0 = Some s → run sortDocs (ops ++ ops') s0 = Some s' →
    HasDoc s id = true → HasDoc s' id = true.
  Proof.
    intros Hi [Hg1 Hg2]%Forall_app Ht Hr Hr' Hd.
    assert (Htt : filter touches ops' = []).
    { rewrite filter_app in Ht. destruct (filter touches ops) as [|x l] eqn:E.
      - destruct (untouched_gone ops o s0 s Hi Hg1) as [_ H]; [|done|congruence].
        apply Forall_forall. intros x Hx Hxt. assert (x ∈ filter touches ops) as Hf by by apply elem_of_list_filter.
        rewrite E in Hf. by apply elem_of_nil in Hf.
      - destruct Ht as [Ht|(d & f & Ht)]; [done|]. cbn in Ht. injection Ht as -> Ht. by destruct l. }
    assert (Hs : filter touches ops = [] ∨ ∃ d f, filter touches ops = [OpAdd (Some d) f]).
    { rewrite filter_app, Htt, app_nil_r in Ht. done. }
    destruct (single_stage ops o s0 s Hi Hg1 Hs Hr) as (l1 & d1 & HI1 & S1).
    rewrite run_app, Hr in Hr'. cbn in Hr'.
    destruct (others_stage ops' s l1 d1 s' HI1 Hg2) as (_ & _ & _ & _ & H); [|done..|auto].
    apply Forall_forall. intros x Hx Hxt. assert (x ∈ filter touches ops') as Hf by by apply elem_of_list_filter.
    rewrite Htt in Hf. by apply elem_of_nil in Hf.
  Qed.
End Stage.

(** * The calls of the workers so far *)
Lemma perm_single {A} (l r : list A) x : l ++ r ≡ₚ [x] → l = [] ∨ l = [x].
Proof.
  intros H. destruct l as [|y l]; [by left|right]. apply Permutation_singleton_r in H. cbn in H. injection H as -> H.
  by destruct l.
Qed.

Section During.
  Context (murmur : string → Z) (n : Z) (only reqsFirst : bool) (cap : chan → nat).
  Context (Hn : 1 <= n < 2^32).
  Notation reachp nseg progs := (pipe_reach murmur n only reqsFirst cap nseg progs).
  Notation pipeStep := (pipeStep murmur n only reqsFirst cap).

  Lemma log_step p q : pipeStep p q → ∃ l, sLog q = sLog p ++ l.
  Proof.
    intros [k Hk]. apply (pstep_todo murmur n only reqsFirst cap) in Hk as [(? & d & _ & _ & H & _)|(? & ? & _ & _ & _ & _ & H & _)]; [by exists d|].
    exists []. by rewrite app_nil_r.
  Qed.
  Lemma log_grows p q : rtc pipeStep p q → ∃ l, sLog q = sLog p ++ l.
  Proof.
    induction 1 as [p|p p' q Hp _ [l IH]]; [exists []; by rewrite app_nil_r|]. destruct (log_step _ _ Hp) as [l' E].
    exists (l' ++ l). by rewrite IH, E, app_assoc.
  Qed.

  Lemma log_ix nseg progs p i : reachp nseg progs p → 0 <= i < n →
    ∃ r, ixCalls i (sLog p) ++ r ≡ₚ ixStream murmur n i (mjoin progs).
  Proof.
    intros H Hi. pose proof (reach_all _ _ _ _ _ _ _ _ H) as Hp. apply (ixCalls_perm i) in Hp.
    rewrite ixCalls_app, ixCalls_calls in Hp by done. eauto.
  Qed.
  Lemma log_rk nseg progs p i : reachp nseg progs p → 0 <= i < n →
    ∃ r, rkCalls i (sLog p) ++ r ≡ₚ rkStream murmur n only i (mjoin progs).
  Proof.
    intros H Hi. pose proof (reach_all _ _ _ _ _ _ _ _ H) as Hp. apply (rkCalls_perm i) in Hp.
    rewrite rkCalls_app, rkCalls_calls in Hp by done. eauto.
  Qed.

  Notation mine id cs := (filter (λ c', call_id c' = Some id) cs).
  Lemma ix_mine i id cs : filter (touches id) (ixStream murmur n i cs) = filter (touches id) (ixStream murmur n i (mine id cs)).
  Proof.
    induction cs as [|c cs IH]; [done|]. change (c :: cs) with ([c] ++ cs). rewrite ixStream_app, filter_app, IH, ixStream_one.
    rewrite filter_app, ixStream_app, filter_app. f_equal. rewrite filter_cons. destruct (decide _) as [E|E]; [by rewrite filter_nil, ixStream_one|].
    cbn. destruct (filter (touches id) (ixMsgs murmur n i c)) as [|o l] eqn:Ef; [done|]. exfalso. apply E. apply (ixMsgs_ids murmur n i).
    assert (Ho : o ∈ filter (touches id) (ixMsgs murmur n i c)) by (rewrite Ef; by left). apply elem_of_list_filter in Ho as [Ht Ho].
    apply elem_of_list_omap. by exists o.
  Qed.
  Lemma rk_mine i id cs : filter (λ o, on_id id o = true) (rkStream murmur n only i cs) =
    filter (λ o, on_id id o = true) (rkStream murmur n only i (mine id cs)).
  Proof.
    induction cs as [|c cs IH]; [done|]. change (c :: cs) with ([c] ++ cs). rewrite rkStream_app, filter_app, IH, rkStream_one.
    rewrite filter_app, rkStream_app, filter_app. f_equal. rewrite filter_cons. destruct (decide _) as [E|E]; [by rewrite filter_nil, rkStream_one|].
    destruct (rkMsgs_on murmur n only i c id) as [H|[H|H]]; [|done|exact H]. apply fmap_nil_inv in H. by rewrite H.
  Qed.
  Lemma ix_only i cs d f ct a fo : only_call cs (DocId d) (EIndex d f ct a fo) →
    filter (touches (DocId d)) (ixStream murmur n i cs) =
      if decide (DocId d ≠ "0" ∧ shardOf murmur n (DocId d) ct = i) then [OpAdd (Some d) fo] else [].
  Proof.
    intros H. rewrite ix_mine, H, ixStream_one. cbn [ixMsgs]. destruct (seqb (DocId d) "0") eqn:E0.
    { apply seqb_eq in E0. rewrite decide_False by tauto. by destruct fo. }
    apply seqb_neq in E0. destruct (Z.eqb_spec (shardOf murmur n (DocId d) ct) i).
    - rewrite decide_True by done. rewrite filter_cons, decide_True by done. done.
    - rewrite decide_False by tauto. by destruct fo.
  Qed.
  Lemma rk_only i cs d f ct a fo : only_call cs (DocId d) (EIndex d f ct a fo) →
    filter (λ o, on_id (DocId d) o = true) (rkStream murmur n only i cs) =
      if decide (DocId d ≠ "0" ∧ shardOf murmur n (DocId d) ct = i) then [ROAdd (DocId d) f (if only then [] else [IStr ct; a])] else [].
  Proof.
    intros H. rewrite rk_mine, H, rkStream_one. cbn [rkMsgs]. destruct (seqb (DocId d) "0") eqn:E0.
    { apply seqb_eq in E0. rewrite decide_False by tauto. done. }
    apply seqb_neq in E0. destruct (Z.eqb_spec (shardOf murmur n (DocId d) ct) i).
    - rewrite decide_True by done. rewrite filter_cons, decide_True; [done|]. cbn. apply seqb_refl.
    - rewrite decide_False by tauto. done.
  Qed.
  Lemma rkStream_adds i cs id f c : ROAdd id f c ∈ rkStream murmur n only i cs →
    ∃ d ct a fo, EIndex d f ct a fo ∈ cs ∧ DocId d = id ∧ c = if only then [] else [IStr ct; a].
  Proof.
    unfold rkStream. intros (l & Hl & (c' & -> & Hc)%elem_of_list_fmap)%elem_of_list_join.
    destruct c' as [d f' ct a fo|id' fo|]; cbn [rkMsgs] in Hl.
    - destruct (seqb _ _); [by apply elem_of_nil in Hl|]. destruct (_ =? _); [|by apply elem_of_nil in Hl].
      apply elem_of_list_singleton in Hl. injection Hl as -> -> ->. by exists d, ct, a, fo.
    - destruct (seqb _ _); [by apply elem_of_nil in Hl|]. by apply elem_of_list_singleton in Hl.
    - by apply elem_of_nil in Hl.
  Qed.

  (** * The shards at one moment *)
  Section At.
    Context (sortDocs : list DocIndex → list DocIndex) (o : IndexerOpts) (s0 : Indexer) (nseg : nat) (progs : list (list ecall)).
    Context (Hv : valid_sort sortDocs) (HI : Init o = Some s0) (Hg : Forall good_call (mjoin progs)).
    Notation cs := (mjoin progs).

    (** Shard [i] holds what it must in the state [p]. *)
    Definition shard_in (p : pstate) (i : nat) (sh : Shard) : Prop :=
      reachp nseg progs p ∧ 0 <= Z.of_nat i < n ∧
      run sortDocs (ixCalls (Z.of_nat i) (sLog p)) s0 = Some (shIx sh) ∧
      rrun (rkCalls (Z.of_nat i) (sLog p)) (RankerInit [only]) = Some (shRk sh).

    Lemma in_good p i : reachp nseg progs p → 0 <= i < n → Forall good_op (ixCalls i (sLog p)).
    Proof.
      intros H Hi. destruct (log_ix _ _ _ _ H Hi) as [r Hr]. assert (HF : Forall good_op (ixCalls i (sLog p) ++ r)).
      { rewrite Hr. by apply ixStream_good. } by apply Forall_app in HF as [? _].
    Qed.
    Lemma in_engine p i : reachp nseg progs p → 0 <= i < n → Forall (engine_call only) (rkCalls i (sLog p)).
    Proof.
      intros H Hi. destruct (log_rk _ _ _ _ H Hi) as [r Hr]. assert (HF : Forall (engine_call only) (rkCalls i (sLog p) ++ r)).
      { rewrite Hr. apply rkStream_engine. } by apply Forall_app in HF as [? _].
    Qed.
    Lemma in_reach p i sh : shard_in p i sh → reach sortDocs o (ixCalls (Z.of_nat i) (sLog p)) (shIx sh).
    Proof. intros (H1 & H2 & H3 & _). split; [done|]. split; [by apply in_good|by exists s0]. Qed.

    Lemma in_ix_only p i d f ct a fo : reachp nseg progs p → 0 <= i < n → only_call cs (DocId d) (EIndex d f ct a fo) →
      filter (touches (DocId d)) (ixCalls i (sLog p)) = [] ∨
      DocId d ≠ "0" ∧ shardOf murmur n (DocId d) ct = i ∧ filter (touches (DocId d)) (ixCalls i (sLog p)) = [OpAdd (Some d) fo].
    Proof.
      intros H Hi Hc. destruct (log_ix _ _ _ _ H Hi) as [r Hr]. apply (filter_Permutation (touches (DocId d))) in Hr.
      rewrite filter_app, (ix_only _ _ _ _ _ _ _ Hc) in Hr. destruct (decide _) as [[H0 Hs]|].
      - apply perm_single in Hr as [?|?]; auto.
      - left. apply Permutation_nil_r in Hr. by apply app_nil in Hr as [? _].
    Qed.
    Lemma in_rk_only p i d f ct a fo : reachp nseg progs p → 0 <= i < n → only_call cs (DocId d) (EIndex d f ct a fo) →
      filter (λ o, on_id (DocId d) o = true) (rkCalls i (sLog p)) = [] ∨
      filter (λ o, on_id (DocId d) o = true) (rkCalls i (sLog p)) = [ROAdd (DocId d) f (if only then [] else [IStr ct; a])].
    Proof.
      intros H Hi Hc. destruct (log_rk _ _ _ _ H Hi) as [r Hr]. apply (filter_Permutation (λ o, on_id (DocId d) o = true)) in Hr.
      rewrite filter_app, (rk_only _ _ _ _ _ _ _ Hc) in Hr. destruct (decide _) as [[H0 Hs]|].
      - apply perm_single in Hr as [?|?]; auto.
      - left. apply Permutation_nil_r in Hr. by apply app_nil in Hr as [? _].
    Qed.

    (** Live documents stay live *)
    Lemma has_stays p q i sh sh' d f ct a fo : shard_in p i sh → shard_in q i sh' → (∃ l, sLog q = sLog p ++ l) →
      only_call cs (DocId d) (EIndex d f ct a fo) → HasDoc (shIx sh) (DocId d) = true → HasDoc (shIx sh') (DocId d) = true.
    Proof.
      intros (P1 & P2 & P3 & _) (Q1 & _ & Q3 & _) [l E] Hc. rewrite E in Q3. rewrite ixCalls_app in Q3.
      assert (HG : Forall good_op (ixCalls (Z.of_nat i) (sLog p) ++ ixCalls (Z.of_nat i) l)).
      { rewrite <- ixCalls_app, <- E. by apply in_good. }
      eapply live_stays; [exact Hv|exact HI|exact HG| |exact P3|exact Q3].
      rewrite <- ixCalls_app, <- E. destruct (in_ix_only q _ _ _ _ _ _ Q1 P2 Hc) as [?|(_ & _ & ?)]; [by left|right; eauto].
    Qed.
    (** A document with one call is never removed *)
    Lemma not_removed p i sh d f ct a fo : shard_in p i sh → only_call cs (DocId d) (EIndex d f ct a fo) → DocId d ∉ removeCache (shIx sh).
    Proof.
      intros (P1 & P2 & P3 & _) Hc. destruct (single_stage sortDocs Hv (DocId d) (ixCalls (Z.of_nat i) (sLog p)) o s0 (shIx sh) HI) as (_ & _ & _ & _ & _ & ?);
        [by apply in_good| |done..]. destruct (in_ix_only p _ _ _ _ _ _ P1 P2 Hc) as [?|(_ & _ & ?)]; [by left|right; eauto].
    Qed.
    (** A document that is live was sent to this shard *)
    Lemma has_shard p i sh d f ct a fo : shard_in p i sh → only_call cs (DocId d) (EIndex d f ct a fo) →
      HasDoc (shIx sh) (DocId d) = true → shardOf murmur n (DocId d) ct = Z.of_nat i.
    Proof.
      intros (P1 & P2 & P3 & _) Hc Hd. destruct (in_ix_only p _ _ _ _ _ _ P1 P2 Hc) as [Hf|(_ & ? & _)]; [|done].
      destruct (untouched_gone sortDocs Hv (DocId d) (ixCalls (Z.of_nat i) (sLog p)) o s0 (shIx sh)) as [_ H]; [done|by apply in_good| |done|congruence].
      apply Forall_forall. intros x Hx Hxt. assert (x ∈ filter (touches (DocId d)) (ixCalls (Z.of_nat i) (sLog p))) as Hff by by apply elem_of_list_filter.
      rewrite Hf in Hff. by apply elem_of_nil in Hff.
    Qed.

    Lemma last_none id ops : filter (λ o, on_id id o = true) ops = [] → last_call id ops = None.
    Proof.
      intros H. rewrite last_call_on. replace (filter (λ o, on_id id o = true) (reverse ops)) with (@nil rop); [done|].
      symmetry. apply Permutation_nil_r. rewrite reverse_Permutation. by rewrite H.
    Qed.
    Lemma last_one id ops x : filter (λ o, on_id id o = true) ops = [x] → last_call id ops = Some x.
    Proof.
      intros H. rewrite last_call_on. replace (filter (λ o, on_id id o = true) (reverse ops)) with [x]; [done|].
      symmetry. apply Permutation_singleton_r. rewrite reverse_Permutation. by rewrite H.
    Qed.
    Lemma knows_call p i sh d f ct a fo : shard_in p i sh → only_call cs (DocId d) (EIndex d f ct a fo) →
      is_Some (rDocs (shRk sh) !! DocId d) ↔ filter (λ o, on_id (DocId d) o = true) (rkCalls (Z.of_nat i) (sLog p)) = [ROAdd (DocId d) f (if only then [] else [IStr ct; a])].
    Proof.
      intros (P1 & P2 & _ & P4) Hc. destruct (C27_lem only _ (in_engine p _ P1 P2)) as (rk & Hrk & _ & Hh). rewrite P4 in Hrk. injection Hrk as <-.
      specialize (Hh (DocId d)). destruct (in_rk_only p _ _ _ _ _ _ P1 P2 Hc) as [E|E]; rewrite E.
      - rewrite (last_none _ _ E) in Hh. destruct Hh as (_ & _ & _ & ->). split; [by intros []|done].
      - rewrite (last_one _ _ _ E) in Hh. destruct Hh as (_ & _ & _ & ->). split; [done|eauto].
    Qed.
    Lemma knows_stays p q i sh sh' d f ct a fo : shard_in p i sh → shard_in q i sh' → (∃ l, sLog q = sLog p ++ l) →
      only_call cs (DocId d) (EIndex d f ct a fo) → is_Some (rDocs (shRk sh) !! DocId d) → is_Some (rDocs (shRk sh') !! DocId d).
    Proof.
      intros HP HQ [l E] Hc H. apply (knows_call _ _ _ _ _ _ _ _ HP Hc) in H. apply (knows_call _ _ _ _ _ _ _ _ HQ Hc).
      destruct HQ as (Q1 & Q2 & _). destruct (in_rk_only q _ _ _ _ _ _ Q1 Q2 Hc) as [E'|E']; [|done].
      rewrite E, rkCalls_app, filter_app, H in E'. done.
    Qed.

    (** What the ranker makes of a document *)
    Lemma judged_entry opts d sh : judged opts (d, sh) = entry (shRk sh) (ScoringCriteria opts) d.
    Proof.
      unfold judged, entry. destruct (rDocs (shRk sh) !! ixDocId d); [|done]. destruct (ScoringCriteria opts d _) as [|x l]; [done|].
      rewrite zlen_cons. pose proof (zlen_nonneg l). cbn zeta. destruct (Z.ltb_spec 0 (1 + zlen l)); [done|lia].
    Qed.
    Lemma judged_call p i sh opts x h : shard_in p i sh → judged opts (x, sh) = Some h →
      sdDocId h = ixDocId x ∧ is_Some (rDocs (shRk sh) !! ixDocId x) ∧
      ∃ d f ct a fo, EIndex d f ct a fo ∈ cs ∧ DocId d = ixDocId x ∧ shows_call only (ScoringCriteria opts) h d f ct a.
    Proof.
      intros (P1 & P2 & _ & P4) Hj.
      assert (HS : is_Some (rDocs (shRk sh) !! ixDocId x)). { unfold judged in Hj. by destruct (rDocs (shRk sh) !! ixDocId x). }
      rewrite judged_entry, (entry_expected only _ _ _ _ (in_engine p _ P1 P2) P4) in Hj.
      unfold expected, known in Hj. destruct (last_call (ixDocId x) (rkCalls (Z.of_nat i) (sLog p))) as [[id f c|]|] eqn:El; [|done..].
      assert (Hin : ROAdd id f c ∈ rkCalls (Z.of_nat i) (sLog p) ∧ id = ixDocId x).
      { rewrite last_call_on in El. apply head_Some_elem_of, elem_of_list_filter in El as [E1 E2]. rewrite elem_of_reverse in E2.
        cbn in E1. by apply seqb_eq in E1. }
      destruct Hin as [Hin ->]. destruct (log_rk _ _ _ _ P1 P2) as [r Hr].
      assert (Hst : ROAdd (ixDocId x) f c ∈ rkStream murmur n only (Z.of_nat i) cs). { rewrite <- Hr. apply elem_of_app. by left. }
      apply rkStream_adds in Hst as (d & ct & a & fo & Hc & Ed & ->).
      destruct only; (destruct (ScoringCriteria opts x f) as [|z sc] eqn:Es; [done|]); injection Hj as <-; (split; [done|]); (split; [done|]);
        exists d, f, ct, a, fo; (split; [done|]); (split; [done|]); (split; [done|]); (split; [|done]); exists x; by rewrite Es.
    Qed.
    Lemma judged_only p i sh opts x d f ct a fo : shard_in p i sh → only_call cs (DocId d) (EIndex d f ct a fo) → ixDocId x = DocId d →
      is_Some (rDocs (shRk sh) !! DocId d) → score_accepts (ScoringCriteria opts) (DocId d) f → is_Some (judged opts (x, sh)).
    Proof.
      intros HP Hc Ex HS Ha. pose proof HP as (P1 & P2 & _ & P4). apply (knows_call _ _ _ _ _ _ _ _ HP Hc) in HS.
      rewrite judged_entry, (entry_expected only _ _ _ _ (in_engine p _ P1 P2) P4).
      unfold expected, known. rewrite Ex, (last_one _ _ _ HS). specialize (Ha x Ex).
      destruct only; (destruct (ScoringCriteria opts x f); [done|by eexists]).
    Qed.

    (** What the indexer of a shard finds *)
    Lemma found_fits p i sh log2 req : shard_in p i sh → answerable o req →
      ∃ docs, Lookup log2 (shIx sh) (rqTokens req) (rqLabels req) (rqDocIds req) false (Some (rqLogic req)) = Some (docs, zlen docs) ∧
        Lookup log2 (shIx sh) (rqTokens req) (rqLabels req) (rqDocIds req) true (Some (rqLogic req)) = Some ([], zlen docs) ∧
        NoDup (ixDocId <$> docs) ∧
        (∀ id, id ∈ ixDocId <$> docs → ∃ d f ct a fo, EIndex d f ct a fo ∈ cs ∧ DocId d = id ∧ fits req d) ∧
        (∀ d f ct a fo, only_call cs (DocId d) (EIndex d f ct a fo) → HasDoc (shIx sh) (DocId d) = true → fits req d →
           DocId d ∈ ixDocId <$> docs) ∧
        (∀ d f ct a fo, only_call cs (DocId d) (EIndex d f ct a fo) → DocId d ∈ ixDocId <$> docs →
           fits req d ∧ HasDoc (shIx sh) (DocId d) = true).
    Proof.
      intros HP Hreq. destruct (lookup_fits _ _ _ _ log2 req (in_reach p i sh HP) Hreq) as (M & D & docs & HC & HA & _ & L1 & L2 & HN & HS & HF & _).
      pose proof HP as (P1 & P2 & _). pose proof HC as (HM & HMD & _ & Hdom).
      assert (HDc : ∀ id d, D !! id = Some d → ∃ f ct a fo, EIndex d f ct a fo ∈ cs ∧ DocId d = id).
      { intros id d Hid. destruct (HA id d Hid) as [Ed [fo Hop]]. destruct (log_ix _ _ _ _ P1 P2) as [r Hr].
        assert (Hst : OpAdd (Some d) fo ∈ ixStream murmur n (Z.of_nat i) cs). { rewrite <- Hr. apply elem_of_app. by left. }
        apply ixStream_adds in Hst as (f & ct & a & Hc & _ & _). by exists f, ct, a, fo. }
      assert (HDo : ∀ d d' f ct a fo, only_call cs (DocId d) (EIndex d f ct a fo) → D !! DocId d = Some d' → d' = d).
      { intros d d' f ct a fo Hc HMd. destruct (HDc _ _ HMd) as (f' & ct' & a' & fo' & Hc' & Ed').
        assert (E : EIndex d' f' ct' a' fo' = EIndex d f ct a fo). { eapply only_same; [exact Hc|done|]. cbn. by rewrite Ed'. } by injection E. }
      exists docs. do 3 (split; [done|]). split; [|split].
      - intros id (d & Hd & Hfit)%HS. destruct (HDc _ _ Hd) as (f & ct & a & fo & Hc & Ed). by exists d, f, ct, a, fo.
      - intros d f ct a fo Hc Hh Hfit. destruct (proj1 (proj1 HM (DocId d)) Hh) as [d' HMd].
        assert (d' = d) as -> by (eapply HDo; [exact Hc|by eapply lookup_weaken]). by eapply HF.
      - intros d f ct a fo Hc (d' & Hd & Hfit)%HS. pose proof (HDo _ _ _ _ _ _ Hc Hd) as ->. split; [done|].
        destruct (proj1 (Hdom (DocId d)) (ex_intro _ d Hd)) as [?|Hrm]; [done|]. by destruct (not_removed _ _ _ _ _ _ _ _ HP Hc).
    Qed.

    (** The moments, as far as the log tells them *)
    Definition written_log (ws : list (list Shard)) (ps : list pstate) : Prop :=
      (∀ t p, ps !! t = Some p → reachp nseg progs p) ∧
      (∀ t t' p q, (t <= t')%nat → ps !! t = Some p → ps !! t' = Some q → ∃ l, sLog q = sLog p ++ l) ∧
      Forall2 (engine_shards sortDocs s0 only n) ps ws.
    Lemma grow_chain {A} (lg : A → list event) (as_ : list A) :
      (∀ t p q, as_ !! t = Some p → as_ !! S t = Some q → ∃ l, lg q = lg p ++ l) →
      ∀ t t' p q, (t <= t')%nat → as_ !! t = Some p → as_ !! t' = Some q → ∃ l, lg q = lg p ++ l.
    Proof.
      intros H t t' p q Ht Hp. revert q. induction Ht as [|t' Ht IH]; intros q Hq.
      - rewrite Hp in Hq. injection Hq as <-. exists []. by rewrite app_nil_r.
      - assert (is_Some (as_ !! t')) as [q' Hq']. { apply lookup_lt_is_Some. apply lookup_lt_Some in Hq. lia. }
        destruct (IH q' Hq') as [l El]. destruct (H t' q' q Hq' Hq) as [l' El'].
        exists (l ++ l'). by rewrite El', El, app_assoc.
    Qed.
    Lemma written_by_log ws ps : written_by pipeStep (pipeInit n nseg progs) sortDocs s0 only n ws ps → written_log ws ps.
    Proof.
      intros HW. split; [|split; [|apply HW]].
      - intros t. induction t as [|t IH]; intros p Hp; [by apply HW|].
        assert (is_Some (ps !! t)) as [q Hq]. { apply lookup_lt_is_Some. apply lookup_lt_Some in Hp. lia. }
        eapply rtc_transitive; [by apply IH|]. by eapply HW.
      - apply (grow_chain sLog). intros t p q Hp Hq. apply log_grows. by eapply HW.
    Qed.

    (** ** The moments at rest *)
    Section Seen.
      Context (ws : list (list Shard)) (ps : list pstate).
      Context (HW : written_log ws ps).

      Lemma states_reach t p : ps !! t = Some p → reachp nseg progs p.
      Proof. apply HW. Qed.
      Lemma states_grow t t' p q : (t <= t')%nat → ps !! t = Some p → ps !! t' = Some q → ∃ l, sLog q = sLog p ++ l.
      Proof. apply HW. Qed.
      Lemma seen_in t i sh : seen ws i t t sh → ∃ p, ps !! t = Some p ∧ shard_in p i sh.
      Proof.
        intros (t' & w & Ht & Hw & Hi). assert (t' = t) as -> by lia.
        destruct (Forall2_lookup_r _ _ _ _ _ (proj2 (proj2 HW)) Hw) as (p & Hp & Hl & Hs). exists p. split; [done|].
        split; [by eapply states_reach|]. split; [|by apply Hs].
        apply lookup_lt_Some in Hi. unfold zlen in Hl. lia.
      Qed.
      Lemma moment_seen t (i : nat) : (t < length ws)%nat → Z.of_nat i < n → ∃ sh, seen ws i t t sh.
      Proof.
        intros Ht Hi. apply lookup_lt_is_Some in Ht as [w Hw].
        destruct (Forall2_lookup_r _ _ _ _ _ (proj2 (proj2 HW)) Hw) as (p & Hp & Hl & Hs).
        assert (is_Some (w !! i)) as [sh Hsh]. { apply lookup_lt_is_Some. unfold zlen in Hl. lia. }
        exists sh, t, w. split; [lia|done].
      Qed.
    End Seen.

    Lemma at_rest : moments murmur n only o cs shard_in (λ p q, ∃ l, sLog q = sLog p ++ l).
    Proof.
      split.
      - by intros p i sh (_ & ? & _).
      - exact has_stays.
      - exact knows_stays.
      - exact has_shard.
      - exact judged_call.
      - exact judged_only.
      - exact found_fits.
    Qed.
    Lemma written_rest ws ps : written_log ws ps → written_as n shard_in (λ p q, ∃ l, sLog q = sLog p ++ l) ws ps.
    Proof.
      intros HW. split; [apply HW|]. apply Forall2_same_length_lookup_2; [apply (Forall2_length _ _ _ (proj2 (proj2 HW)))|].
      intros t p w Hp Hw. pose proof (Forall2_lookup_lr _ _ _ _ _ _ (proj2 (proj2 HW)) Hp Hw) as (Hl & Hs). split; [done|].
      intros i sh Hi. destruct (seen_in ws ps HW t i sh) as (q & Hq & HQ); [exists t, w; split; [lia|done]|].
      rewrite Hp in Hq. by injection Hq as <-.
    Qed.

    Theorem timed_log log2 sortBy ccap clients tl tr shards ls fs ps ans req t0 :
      valid_sortBy sortBy →
      frun log2 sortBy (Z.to_nat n) ccap ls (fInit (Z.to_nat n) clients tl tr shards) = Some fs →
      written_log (fWorlds fs) ps →
      ans ∈ fAnswers fs → fReqs fs !! faSearch ans = Some (req, t0) →
      timed_request o req → Forall (scores_numbers log2 req) (fWorlds fs) →
      ∃ full out late, faResp ans = mkResp (rqTokens req) late (zlen full) (Some out) ∧ page_of req full out ∧
        (rqTimeout req <= 0 → late = false) ∧
        NoDup (heardOf (faGot ans)) ∧ (∀ i, i ∈ heardOf (faGot ans) → (i < Z.to_nat n)%nat) ∧
        (late = false ↔ length (heardOf (faGot ans)) = Z.to_nat n) ∧
        answers_heard only cs (fWorlds fs) t0 (faEnd ans) req (heardOf (faGot ans)) full.
    Proof. intros ?? HW%written_rest. by eapply (timed_mo _ _ _ _ _ _ _ at_rest). Qed.
    Theorem during_log log2 sortBy ccap clients tl tr shards ls fs ps ans req t0 :
      valid_sortBy sortBy →
      frun log2 sortBy (Z.to_nat n) ccap ls (fInit (Z.to_nat n) clients tl tr shards) = Some fs →
      written_log (fWorlds fs) ps →
      ans ∈ fAnswers fs → fReqs fs !! faSearch ans = Some (req, t0) →
      plain_request o req → Forall (scores_numbers log2 req) (fWorlds fs) →
      ∃ full out, faResp ans = mkResp (rqTokens req) false (zlen full) (Some out) ∧ page_of req full out ∧
        answers_during only cs (fWorlds fs) t0 (faEnd ans) req full.
    Proof. intros ?? HW%written_rest. by eapply (during_mo _ _ _ _ _ _ _ at_rest). Qed.
    Theorem index_log log2 sortBy ccap clients tl tr shards ls fs ps ans req t0 :
      frun log2 sortBy (Z.to_nat n) ccap ls (fInit (Z.to_nat n) clients tl tr shards) = Some fs →
      written_log (fWorlds fs) ps →
      ans ∈ fAnswers fs → fReqs fs !! faSearch ans = Some (req, t0) → index_request o req →
      ∃ ids out late, faResp ans = mkResp (rqTokens req) late (zlen ids) out ∧
        (if rqCountOnly req then out = None else ∃ l, out = Some l ∧ sdDocId <$> l = ids ∧ Forall bare l) ∧
        (rqTimeout req <= 0 → late = false) ∧
        NoDup (heardOf (faGot ans)) ∧ (∀ i, i ∈ heardOf (faGot ans) → (i < Z.to_nat n)%nat) ∧
        (late = false ↔ length (heardOf (faGot ans)) = Z.to_nat n) ∧
        lists_heard cs (fWorlds fs) t0 (faEnd ans) req (heardOf (faGot ans)) ids.
    Proof. intros ? HW%written_rest. by eapply (index_mo _ _ _ _ _ _ _ at_rest). Qed.
    Theorem later_log log2 sortBy ccap clients tl tr shards ls fs ps a1 a2 req t1 t2 :
      valid_sortBy sortBy →
      frun log2 sortBy (Z.to_nat n) ccap ls (fInit (Z.to_nat n) clients tl tr shards) = Some fs →
      written_log (fWorlds fs) ps →
      a1 ∈ fAnswers fs → fReqs fs !! faSearch a1 = Some (req, t1) →
      a2 ∈ fAnswers fs → fReqs fs !! faSearch a2 = Some (req, t2) → (faEnd a1 <= t2)%nat →
      plain_request o req → Forall (scores_numbers log2 req) (fWorlds fs) →
      ∃ full1 out1 full2 out2,
        faResp a1 = mkResp (rqTokens req) false (zlen full1) (Some out1) ∧ page_of req full1 out1 ∧
        faResp a2 = mkResp (rqTokens req) false (zlen full2) (Some out2) ∧ page_of req full2 out2 ∧
        answers_during only cs (fWorlds fs) t1 (faEnd a1) req full1 ∧
        answers_during only cs (fWorlds fs) t2 (faEnd a2) req full2 ∧
        ∀ d f ct a fo, only_call cs (DocId d) (EIndex d f ct a fo) → score_accepts (ScoringCriteria (rqOpts req)) (DocId d) f →
          DocId d ∈ sdDocId <$> full1 → DocId d ∈ sdDocId <$> full2.
    Proof. intros ?? HW%written_rest. by eapply (later_mo _ _ _ _ _ _ _ at_rest). Qed.
    Theorem count_log log2 sortBy ccap clients tl tr shards ls fs ps a1 a2 req t1 t2 :
      NoDup (omap call_id cs) → (∀ d f ct a fo, EIndex d f ct a fo ∈ cs → score_accepts (ScoringCriteria (rqOpts req)) (DocId d) f) →
      valid_sortBy sortBy →
      frun log2 sortBy (Z.to_nat n) ccap ls (fInit (Z.to_nat n) clients tl tr shards) = Some fs →
      written_log (fWorlds fs) ps →
      a1 ∈ fAnswers fs → fReqs fs !! faSearch a1 = Some (req, t1) →
      a2 ∈ fAnswers fs → fReqs fs !! faSearch a2 = Some (req, t2) → (faEnd a1 <= t2)%nat →
      plain_request o req → Forall (scores_numbers log2 req) (fWorlds fs) →
      rsNumDocs (faResp a1) <= rsNumDocs (faResp a2).
    Proof. intros ???? HW%written_rest. by eapply (count_mo _ _ _ _ _ _ _ at_rest). Qed.

    (** With the states of the pipeline itself *)
    Theorem during_lem log2 sortBy ccap clients tl tr shards ls fs ps ans req t0 :
      valid_sortBy sortBy →
      frun log2 sortBy (Z.to_nat n) ccap ls (fInit (Z.to_nat n) clients tl tr shards) = Some fs →
      written_by pipeStep (pipeInit n nseg progs) sortDocs s0 only n (fWorlds fs) ps →
      ans ∈ fAnswers fs → fReqs fs !! faSearch ans = Some (req, t0) →
      plain_request o req → Forall (scores_numbers log2 req) (fWorlds fs) →
      ∃ full out, faResp ans = mkResp (rqTokens req) false (zlen full) (Some out) ∧ page_of req full out ∧
        answers_during only cs (fWorlds fs) t0 (faEnd ans) req full.
    Proof. intros ?? HW%written_by_log. by eapply during_log. Qed.
    Theorem later_lem log2 sortBy ccap clients tl tr shards ls fs ps a1 a2 req t1 t2 :
      valid_sortBy sortBy →
      frun log2 sortBy (Z.to_nat n) ccap ls (fInit (Z.to_nat n) clients tl tr shards) = Some fs →
      written_by pipeStep (pipeInit n nseg progs) sortDocs s0 only n (fWorlds fs) ps →
      a1 ∈ fAnswers fs → fReqs fs !! faSearch a1 = Some (req, t1) →
      a2 ∈ fAnswers fs → fReqs fs !! faSearch a2 = Some (req, t2) → (faEnd a1 <= t2)%nat →
      plain_request o req → Forall (scores_numbers log2 req) (fWorlds fs) →
      ∃ full1 out1 full2 out2,
        faResp a1 = mkResp (rqTokens req) false (zlen full1) (Some out1) ∧ page_of req full1 out1 ∧
        faResp a2 = mkResp (rqTokens req) false (zlen full2) (Some out2) ∧ page_of req full2 out2 ∧
        answers_during only cs (fWorlds fs) t1 (faEnd a1) req full1 ∧
        answers_during only cs (fWorlds fs) t2 (faEnd a2) req full2 ∧
        ∀ d f ct a fo, only_call cs (DocId d) (EIndex d f ct a fo) → score_accepts (ScoringCriteria (rqOpts req)) (DocId d) f →
          DocId d ∈ sdDocId <$> full1 → DocId d ∈ sdDocId <$> full2.
    Proof. intros ?? HW%written_by_log. by eapply later_log. Qed.
    Theorem count_lem log2 sortBy ccap clients tl tr shards ls fs ps a1 a2 req t1 t2 :
      NoDup (omap call_id cs) → (∀ d f ct a fo, EIndex d f ct a fo ∈ cs → score_accepts (ScoringCriteria (rqOpts req)) (DocId d) f) →
      valid_sortBy sortBy →
      frun log2 sortBy (Z.to_nat n) ccap ls (fInit (Z.to_nat n) clients tl tr shards) = Some fs →
      written_by pipeStep (pipeInit n nseg progs) sortDocs s0 only n (fWorlds fs) ps →
      a1 ∈ fAnswers fs → fReqs fs !! faSearch a1 = Some (req, t1) →
      a2 ∈ fAnswers fs → fReqs fs !! faSearch a2 = Some (req, t2) → (faEnd a1 <= t2)%nat →
      plain_request o req → Forall (scores_numbers log2 req) (fWorlds fs) →
      rsNumDocs (faResp a1) <= rsNumDocs (faResp a2).
    Proof. intros ???? HW%written_by_log. by eapply count_log. Qed.
  End At.
End During.
