(** What the HTTP handlers do to the indexers: nothing is forced. *)
From Verif Require Import SpecNet ModelServer ModelEngine SpecIndexer SpecSearch SpecRank SpecRoute SpecPipe SpecSegment SpecEngine SpecFlight SpecStore SpecEnd
  SpecLife SpecClose SpecDuring SpecWhole SpecServer ProofTopK ProofIndexer ProofCache ProofHistory ProofIxThms ProofIxSearch ProofSearchThms ProofRanker ProofRoute ProofPipe ProofFlushThms ProofSegEnd ProofSegThms ProofRecover ProofEngine ProofEnd ProofDuring.

Section Unforced.
  Context (sortDocs : list DocIndex → list DocIndex) (Hsort : valid_sort sortDocs).

  (** * While documents wait *)
  Definition http_op (o : op) : Prop := (∃ d, o = OpAdd (Some d) false ∧ good_doc d) ∨ ∃ id, o = OpRemove id false.
  Definition isAdd (o : op) : bool := match o with OpAdd _ _ => true | _ => false end.
  Definition adds (ops : list op) : Z := zlen (filter (λ o, isAdd o = true) ops).
  Lemma adds_nonneg ops : 0 <= adds ops.
  Proof. unfold adds, zlen. lia. Qed.
  Lemma adds_cons o ops : adds (o :: ops) = (if isAdd o then 1 else 0) + adds ops.
  Proof.
    unfold adds. rewrite filter_cons. destruct (isAdd o) eqn:E; [rewrite decide_True by done; by rewrite zlen_cons; lia|].
    rewrite decide_False by done. lia.
  Qed.
  Lemma http_run ops : ∀ s, Inv s ∅ ∅ → Forall http_op ops → adds ops + zlen (addCache s) < cap s →
    ∃ s', run sortDocs ops s = Some s' ∧ Inv s' ∅ ∅.
  Proof.
    induction ops as [|op ops IH]; intros s HI Hq Hlen; [by exists s|].
    apply Forall_cons in Hq as [Ho Hq]. pose proof (adds_nonneg ops). rewrite adds_cons in Hlen. destruct Ho as [(d & -> & Hd)|(id & ->)]; cbn [isAdd] in Hlen.
    - destruct (AddDocToCache_inv sortDocs Hsort (Some d) false s ∅ ∅) as (s1 & Hrun & Ho & Hcase); [done|split; [lia|done]|].
      assert (Hw : zlen (waiting (Some d) s) = zlen (addCache s) + 1) by (unfold waiting; rewrite zlen_app; done).
      unfold addFlush in Hcase. rewrite Hw in Hcase. destruct (Z.leb_spec (cap s) (zlen (addCache s) + 1)); [lia|]. cbn in Hcase.
      destruct Hcase as [HI1 Hc1]. destruct (IH s1 HI1 Hq) as (s' & Hrun' & HI').
      { rewrite Hc1, Hw. unfold cap in *. rewrite Ho. lia. }
      exists s'. split; [|done]. unfold run in *. simpl. by rewrite Hrun.
    - pose proof (RemoveDocToCache_inv s ∅ ∅ id false HI) as H1. unfold aMark in H1. rewrite lookup_empty in H1.
      assert (E : (if decide (id = "0") then (∅, ∅) else (∅, ∅)) = (∅ : docmap, ∅ : docmap)) by by destruct (decide (id = "0")).
      rewrite E in H1. destruct H1 as (s1 & Hrun & HI1 & Hc1 & Ho1). assert (rmFlush s ∅ false = false) as Hf by done. rewrite Hf in HI1.
      destruct (IH s1 HI1 Hq) as (s' & Hrun' & HI'). { rewrite Hc1. unfold cap in *. rewrite Ho1. lia. }
      exists s'. split; [|done]. unfold run in *. simpl. by rewrite Hrun.
  Qed.

  (** * Full caches *)
  Definition posts (docs : list DocIndex) : list op := (λ d, OpAdd (Some d) false) <$> docs.
  Lemma run_app a b s : run sortDocs (a ++ b) s = run sortDocs a s ≫= run sortDocs b.
  Proof. unfold run. apply foldlM_app. Qed.
  Lemma fill_list docs : ∀ s live, Inv s live ∅ → Forall good_doc docs → zlen (addCache s) + zlen docs < cap s →
    ∃ s', run sortDocs (posts docs) s = Some s' ∧ Inv s' live ∅ ∧ initOptions s' = initOptions s ∧ addCache s' = addCache s ++ docs.
  Proof.
    induction docs as [|d docs IH]; intros s live HI Hg Hlt.
    - exists s. split; [done|]. split; [done|]. split; [done|]. by rewrite app_nil_r.
    - apply Forall_cons in Hg as [Hd Hg]. rewrite zlen_cons in Hlt. pose proof (zlen_nonneg docs).
      destruct (AddDocToCache_inv sortDocs Hsort (Some d) false s live ∅) as (s1 & Hrun & Ho & Hcase); [done|split; [lia|done]|].
      assert (Hw : zlen (waiting (Some d) s) = zlen (addCache s) + 1) by (unfold waiting; rewrite zlen_app; done).
      unfold addFlush in Hcase. rewrite Hw in Hcase. destruct (Z.leb_spec (cap s) (zlen (addCache s) + 1)); [lia|]. cbn in Hcase.
      destruct Hcase as [HI1 Hc1]. destruct (IH s1 live HI1 Hg) as (s' & Hrun' & HI' & Ho' & Hc').
      { rewrite Hc1, Hw. unfold cap in *. rewrite Ho. lia. }
      exists s'. split; [unfold run in *; simpl; by rewrite Hrun|]. split; [done|]. split; [congruence|].
      rewrite Hc', Hc1. unfold waiting. by rewrite <-app_assoc.
  Qed.
  (** the add that fills the cache *)
  Lemma fill_last docs s live : Inv s live ∅ → addCache s = [] → Forall good_doc docs → zlen docs = cap s →
    ∃ s1 s2 d docs', docs = docs' ++ [d] ∧ run sortDocs (posts docs') s = Some s1 ∧ AddDocToCache sortDocs (Some d) false s1 = Some s2 ∧
      initOptions s2 = initOptions s ∧
      let d1 := dying1 docs live ∅ in
      if rmFlush s d1 false then ∃ l, l ≡ₚ docs ∧ Inv s2 (insertAll l (live1 docs live)) ∅ ∧ addCache s2 = []
      else ∃ kept other l, kept ++ other ≡ₚ docs ∧ (∀ d, d ∈ kept → is_Some (d1 !! DocId d)) ∧ (∀ d, d ∈ other → d1 !! DocId d = None) ∧
             l ≡ₚ other ∧ Inv s2 (insertAll l (live1 docs live)) d1 ∧ addCache s2 = kept.
  Proof.
    intros HI Hc Hg Hn. pose proof (inv_cap _ _ _ HI).
    destruct docs as [|d docs' _] using rev_ind; [by rewrite zlen_nil in Hn; lia|]. apply Forall_app in Hg as [Hg' Hd]. apply Forall_cons in Hd as [Hd _].
    rewrite zlen_app in Hn. change (zlen [d]) with 1 in Hn.
    destruct (fill_list docs' s live HI Hg') as (s1 & Hr1 & HI1 & Ho1 & Hc1). { rewrite Hc, zlen_nil. lia. }
    rewrite Hc in Hc1. cbn [app] in Hc1. assert (Hcap : cap s1 = cap s) by (unfold cap; by rewrite Ho1).
    destruct (AddDocToCache_inv sortDocs Hsort (Some d) false s1 live ∅ HI1) as (s2 & Hr2 & Ho2 & Hcase). { split; [rewrite Hc1; lia|exact Hd]. }
    exists s1, s2, d, docs'. split; [done|]. split; [done|]. split; [done|]. split; [congruence|].
    assert (HW : waiting (Some d) s1 = docs' ++ [d]) by (unfold waiting; by rewrite Hc1). rewrite HW in Hcase.
    assert (Hf : addFlush s1 (docs' ++ [d]) false = true).
    { unfold addFlush. rewrite orb_false_r. apply Z.leb_le. rewrite zlen_app. change (zlen [d]) with 1. lia. }
    rewrite Hf in Hcase. cbv zeta in *. replace (rmFlush s1 (dying1 (docs' ++ [d]) live ∅) false) with (rmFlush s (dying1 (docs' ++ [d]) live ∅) false) in Hcase
      by (unfold rmFlush; by rewrite Hcap).
    destruct (rmFlush s _ false).
    - destruct Hcase as (l & H1 & _ & H2 & H3). eauto.
    - destruct Hcase as (kept & other & l & H1 & H2 & H3 & H4 & _ & H5 & H6). exists kept, other, l. by repeat (split; [assumption|]).
  Qed.

  (** New documents go in when the cache is full. *)
  Lemma fill_fresh docs s : Inv s ∅ ∅ → addCache s = [] → Forall good_doc docs → zlen docs = cap s →
    ∃ s' live, run sortDocs (posts docs) s = Some s' ∧ Inv s' live ∅ ∧ addCache s' = [] ∧ cap s' = cap s ∧ ∀ d, d ∈ docs → is_Some (live !! DocId d).
  Proof.
    intros HI Hc Hg Hn. destruct (fill_last docs s ∅ HI Hc Hg Hn) as (s1 & s2 & d & docs' & -> & Hr1 & Hr2 & Ho & Hcase).
    assert (Hd1 : dying1 (docs' ++ [d]) ∅ ∅ = ∅). { apply map_eq. intros id. rewrite dying1_lookup, lookup_empty. by destruct (decide _). }
    cbv zeta in Hcase. rewrite Hd1 in Hcase. assert (rmFlush s ∅ false = false) as Hf by done. rewrite Hf in Hcase.
    destruct Hcase as (kept & other & l & H1 & H2 & H3 & H4 & H5 & H6).
    assert (kept = []) as ->. { destruct kept as [|z kept]; [done|]. destruct (H2 z) as [? Hz]; [left|]. by rewrite lookup_empty in Hz. }
    exists s2, (insertAll l (live1 (docs' ++ [d]) ∅)). split.
    { unfold posts. rewrite fmap_app, run_app. fold (posts docs'). rewrite Hr1. cbn [mbind option_bind]. unfold run. cbn [fmap list_fmap foldlM step]. by rewrite Hr2. }
    split; [done|]. split; [done|]. split; [unfold cap; by rewrite Ho|]. intros z Hz. cbn [app] in H1.
    destruct (insertAll_lookup_in l (live1 (docs' ++ [d]) ∅) (DocId z)) as (z' & Hz' & _); [|by rewrite Hz'].
    apply elem_of_list_fmap. exists z. split; [done|]. by rewrite H4, H1.
  Qed.
  (** Updates of indexed documents, with a repeated id, stay in the full cache. *)
  Lemma fill_updates docs s live : Inv s live ∅ → addCache s = [] → Forall good_doc docs → zlen docs = cap s →
    (∀ d, d ∈ docs → is_Some (live !! DocId d)) → ¬ NoDup (DocId <$> docs) →
    ∃ s', run sortDocs (posts docs) s = Some s' ∧ next_add_crashes sortDocs s'.
  Proof.
    intros HI Hc Hg Hn Hlive Hdup. destruct (fill_last docs s live HI Hc Hg Hn) as (s1 & s2 & d & docs' & E & Hr1 & Hr2 & Ho & Hcase).
    assert (Hdom : ∀ z, z ∈ docs → is_Some (dying1 docs live ∅ !! DocId z)).
    { intros z Hz. rewrite dying1_lookup, lookup_empty. rewrite decide_True; [by apply Hlive|]. apply elem_of_list_fmap. eauto. }
    assert (Hsz : Z.of_nat (size (dying1 docs live ∅)) < cap s).
    { rewrite <-Hn. unfold zlen. apply Nat2Z.inj_lt. rewrite <-size_dom.
      assert (Hsub : dom (dying1 docs live ∅) ⊆ (list_to_set (DocId <$> docs) : gset string)).
      { intros id Hid. apply elem_of_dom in Hid as [x Hx]. rewrite dying1_lookup, lookup_empty in Hx. apply elem_of_list_to_set.
        destruct (decide (id ∈ ids docs)) as [Hin|]; [exact Hin|done]. }
      apply subseteq_size in Hsub. eapply Nat.le_lt_trans; [exact Hsub|].
      rewrite <-(fmap_length DocId docs). revert Hdup. generalize (DocId <$> docs). clear. intros l.
      assert (HA : ∀ l : list string, (size (list_to_set l : gset string) <= length l)%nat).
      { induction l0 as [|x l0 IH]; [by vm_compute|]. cbn [list_to_set length]. rewrite size_union_alt, size_singleton.
        pose proof (subseteq_size ((list_to_set l0 : gset string) ∖ {[x]}) (list_to_set l0)). assert (list_to_set l0 ∖ {[x]} ⊆ (list_to_set l0 : gset string)) by set_solver. specialize (H H0). lia. }
      induction l as [|x l IH]; intros H; [by destruct H; constructor|]. cbn [list_to_set length]. destruct (decide (x ∈ l)) as [Hin|Hnin].
      - replace ({[x]} ∪ list_to_set l : gset string) with (list_to_set l : gset string) by set_solver. specialize (HA l). lia.
      - rewrite size_union_alt, size_singleton. assert (Hnd : ¬ NoDup l) by (intros Hl; apply H; by constructor). specialize (IH Hnd).
        assert (Hs2 : list_to_set l ∖ {[x]} ⊆ (list_to_set l : gset string)) by set_solver. apply subseteq_size in Hs2. lia. }
    cbv zeta in Hcase. assert (rmFlush s (dying1 docs live ∅) false = false) as Hf.
    { unfold rmFlush. rewrite orb_false_r. apply andb_false_iff. right. apply Z.leb_gt. lia. }
    rewrite Hf in Hcase. destruct Hcase as (kept & other & l & H1 & H2 & H3 & H4 & H5 & H6).
    assert (other = []) as ->.
    { destruct other as [|z other]; [done|]. exfalso. assert (Hz : z ∈ docs) by (rewrite <-H1; apply elem_of_app; right; left).
      destruct (Hdom z Hz) as [x Hx]. rewrite (H3 z) in Hx by left. done. }
    exists s2. split.
    { rewrite E. unfold posts. rewrite fmap_app, run_app. fold (posts docs'). rewrite Hr1. cbn [mbind option_bind]. unfold run. cbn [fmap list_fmap foldlM step]. by rewrite Hr2. }
    intros y force. apply AddDocToCache_full. rewrite app_nil_r in H1. unfold cap in *. rewrite Ho, H6. unfold zlen in *. rewrite H1. lia.
  Qed.
End Unforced.

(** A reachable indexer whose caches are empty *)
Lemma crash_updates sortDocs o ops s docs : reach sortDocs o ops s → addCache s = [] → removeCache s = [] →
  Forall good_doc docs → zlen docs = DocCacheSize (initOptions s) →
  (∀ d, d ∈ docs → HasDoc s (DocId d) = true) → ¬ NoDup (DocId <$> docs) →
  ∃ s', run sortDocs (posts docs) s = Some s' ∧ next_add_crashes sortDocs s'.
Proof.
  intros HR Ha Hr Hg Hn Hh Hdup. destruct (reach_inv _ _ _ _ HR) as (live & dying & HI & _). destruct HR as [Hsort _].
  assert (dying = ∅) as ->.
  { apply map_eq. intros id. rewrite lookup_empty. destruct (dying !! id) as [d|] eqn:E; [|done]. exfalso.
    assert (H : id ∈ removeCache s) by (apply (core_rc _ _ _ _ (inv_core _ _ _ HI)); by rewrite E). rewrite Hr in H. by apply elem_of_nil in H. }
  eapply fill_updates; try done. intros d Hd. apply (inv_hasdoc _ _ _ _ HI). by apply Hh.
Qed.
(** One id again and again *)
Lemma repeated_crash sortDocs o s0 id docs : valid_sort sortDocs → Init o = Some s0 → Forall good_doc docs → Forall (λ d, DocId d = id) docs →
  2 <= DocCacheSize (initOptions s0) → 2 * DocCacheSize (initOptions s0) < zlen docs →
  run sortDocs (posts docs) s0 = None.
Proof.
  intros Hsort HI Hg Hid Hn Hm. destruct (Init_inv o s0 HI) as [HInv Hc]. set (k := Z.to_nat (DocCacheSize (initOptions s0))) in *.
  assert (Hk : (2 <= k)%nat) by lia. assert (Hlen : (k + k < length docs)%nat) by (unfold zlen in Hm; lia).
  rewrite <-(take_drop k docs) in Hg, Hid |- *. apply Forall_app in Hg as [Hg1 Hg], Hid as [Hid1 Hid].
  rewrite <-(take_drop k (drop k docs)) in Hg, Hid |- *. apply Forall_app in Hg as [Hg2 Hg], Hid as [Hid2 Hid].
  assert (L1 : length (take k docs) = k) by (rewrite take_length; lia).
  assert (L2 : length (take k (drop k docs)) = k) by (rewrite take_length, drop_length; lia).
  assert (L3 : drop k (drop k docs) ≠ []). { intros E. apply (f_equal length) in E. rewrite !drop_length in E. cbn in E. lia. }
  set (A := take k docs) in *. set (B := take k (drop k docs)) in *. set (C := drop k (drop k docs)) in *. clearbody A B C.
  destruct (fill_fresh sortDocs Hsort A s0 HInv Hc Hg1) as (s1 & live & Hr1 & HI1 & Hc1 & Hcap & Hl). { unfold zlen, cap. lia. }
  destruct (fill_updates sortDocs Hsort B s1 live HI1 Hc1 Hg2) as (s2 & Hr2 & Hcr).
  { rewrite Hcap. unfold zlen, cap. lia. }
  { intros d Hd. rewrite Forall_forall in Hid2. rewrite (Hid2 d Hd). destruct A as [|a A]; [cbn in L1; lia|]. apply Forall_cons in Hid1 as [<- _]. apply Hl. by left. }
  { destruct B as [|b1 [|b2 B]]; [cbn in L2; lia..|]. apply Forall_cons in Hid2 as [H1 H2]. apply Forall_cons in H2 as [H2 _].
    cbn. rewrite H1, H2, NoDup_cons. intros [H _]. apply H. by left. }
  unfold posts in *. rewrite !fmap_app, !run_app, Hr1. cbn [mbind option_bind]. rewrite run_app, Hr2. cbn [mbind option_bind].
  destruct C as [|c C]; [done|]. unfold run. cbn [fmap list_fmap foldlM step]. by rewrite Hcr.
Qed.

Section Engine.
  Variables (murmur : string → Z) (n : Z) (only reqsFirst : bool) (capc : chan → nat).
  Variables (box : Attri → Iface) (X : Ext) (stop : gset string) (so : SegOpts).
  Hypothesis Hn : 1 <= n < 2^32.
  Hypothesis HX : valid_range X.
  Notation http_write := (http_write box X stop so).

  Lemma http_shape c : http_write c → (∃ doc d, c = WIndex doc d false ∧ good_doc doc) ∨ ∃ id, c = WRemove id false.
  Proof.
    intros [(time & ts & r & H)|(r & H)]; cbn in H.
    - destruct (segDoc _ _ _ _ _) as [doc|] eqn:E; [|done]. injection H as <-. left. eexists _, _. split; [done|]. by eapply segDoc_good.
    - injection H as <-. right. eauto.
  Qed.
  Lemma http_good cs : Forall http_write cs → Forall good_call (pipeCall <$> cs).
  Proof. intros H. apply Forall_fmap. eapply Forall_impl; [exact H|]. intros c [(doc & d & -> & Hg)|(id & ->)]%http_shape; done. Qed.
  Lemma http_stream i cs : Forall http_write cs →
    Forall http_op (ixStream murmur n i (pipeCall <$> cs)) ∧ adds (ixStream murmur n i (pipeCall <$> cs)) <= zlen (filter (λ c, index_call c = true) cs).
  Proof.
    induction 1 as [|c cs Hc _ [IH1 IH2]]; [split; [constructor|done]|].
    change (ixStream murmur n i (pipeCall <$> c :: cs)) with (ixMsgs murmur n i (pipeCall c) ++ ixStream murmur n i (pipeCall <$> cs)).
    destruct (http_shape _ Hc) as [(doc & d & -> & Hg)|(id & ->)]; cbn [pipeCall ixMsgs].
    - rewrite filter_cons. cbn [index_call]. destruct (seqb (DocId doc) "0") eqn:E0.
      + apply seqb_eq in E0. rewrite bool_decide_eq_false_2 by naive_solver. rewrite decide_False by done. done.
      + apply seqb_neq in E0. rewrite bool_decide_eq_true_2 by done. rewrite decide_True by done. rewrite zlen_cons.
        destruct (shardOf _ _ _ _ =? i); [|split; [done|cbn; lia]]. cbn [app]. split; [constructor; [left; eauto|done]|]. rewrite adds_cons. cbn [isAdd]. lia.
    - rewrite filter_cons. cbn [index_call]. rewrite decide_False by done. cbn [app]. split; [constructor; [right; eauto|done]|].
      rewrite adds_cons. cbn [isAdd]. lia.
  Qed.
  Lemma pipeProg_join (progs : list (list wcall)) : mjoin (pipeProg <$> progs) = pipeCall <$> mjoin progs.
  Proof. induction progs as [|cs progs IH]; [done|]. change (mjoin (pipeProg <$> cs :: progs)) with (pipeProg cs ++ mjoin (pipeProg <$> progs)).
    change (mjoin (cs :: progs)) with (cs ++ mjoin progs). rewrite fmap_app. by f_equal. Qed.

  (** While fewer documents than DocCacheSize came in over HTTP, nothing is found. *)
  Theorem http_waits sortDocs sortBy io s0 nseg progs s shards log2 req order :
    valid_sort sortDocs → valid_sortBy sortBy → Init io = Some s0 →
    pipe_reach murmur n only reqsFirst capc nseg (pipeProg <$> progs) s → Forall http_write (mjoin progs) →
    zlen (filter (λ c, index_call c = true) (mjoin progs)) < DocCacheSize (initOptions s0) →
    engine_shards sortDocs s0 only n s shards →
    plain_request io req → all_arrive (length shards) order →
    Search log2 sortBy req shards order = Some (nothing_found req).
  Proof.
    intros Hv Hvb HI Hr Hw Hlt Hsh Hreq Hall. pose proof Hreq as (Hrk & Ht & (P1 & P2 & P3) & Hpl & Hne & Hloc).
    assert (Hpart : ∀ (i : nat) sh, shards !! i = Some sh → ∃ ops, shard_view log2 only req sh (ops, [])).
    { intros i sh Hi. destruct (proj2 Hsh i sh Hi) as [Hx Hk]. assert (Hin : 0 <= Z.of_nat i < n).
      { apply lookup_lt_Some in Hi. destruct Hsh as [Hl _]. unfold zlen in Hl. lia. }
      exists (rkCalls (Z.of_nat i) (sLog s)). split; [|split; [exact Hk|]].
      { destruct (log_rk murmur n only reqsFirst capc Hn _ _ _ _ Hr Hin) as [r Hp].
        assert (HF : Forall (engine_call only) (rkCalls (Z.of_nat i) (sLog s) ++ r)) by (rewrite Hp; apply rkStream_engine). by apply Forall_app in HF as [? _]. }
      destruct (log_ix murmur n only reqsFirst capc Hn _ _ _ _ Hr Hin) as [r Hp]. rewrite pipeProg_join in Hp.
      destruct (http_stream (Z.of_nat i) (mjoin progs) Hw) as [HF Ha]. rewrite <-Hp in HF. apply Forall_app in HF as [HF _].
      assert (Hle : adds (ixCalls (Z.of_nat i) (sLog s)) <= adds (ixStream murmur n (Z.of_nat i) (pipeCall <$> mjoin progs))).
      { unfold adds, zlen. rewrite <-Hp, filter_app, app_length. lia. }
      destruct (Init_inv io s0 HI) as [HInv Hc].
      destruct (http_run sortDocs Hv (ixCalls (Z.of_nat i) (sLog s)) s0 HInv HF) as (x & Hx' & HIx). { rewrite Hc, zlen_nil. unfold cap. lia. }
      assert (x = shIx sh) as -> by congruence.
      assert (HR : reach sortDocs io (ixCalls (Z.of_nat i) (sLog s)) (shIx sh)).
      { split; [done|]. split; [|by exists s0]. eapply Forall_impl; [exact HF|]. intros o [(d & -> & Hd)|(id & ->)]; done. }
      destruct (Lookup log2 (shIx sh) (rqTokens req) (rqLabels req) (rqDocIds req) false (Some (rqLogic req))) as [[docs m]|] eqn:EL.
      - exists m. destruct docs as [|d docs]; [done|]. exfalso.
        assert (Hnf : HasDoc (shIx sh) (ixDocId d) = false).
        { apply not_true_iff_false. rewrite (inv_hasdoc _ _ _ _ HIx), lookup_empty. by intros []. }
        apply (hasdoc_not_found sortDocs io _ _ log2 _ HR Hnf _ _ _ _ _ _ Hpl EL). by left.
      - exfalso. destruct (C16_lem _ _ _ _ log2 HR) as (M1 & S1 & H16). destruct (proj1 (H16 _ _ _ _ _ Hpl) EL) as (E1 & E2 & _). by destruct (Hloc E1). }
    destruct (choice_list shards (λ _ sh ops, shard_view log2 only req sh (ops, [])) Hpart) as (opss & Hlen & HP).
    assert (HF2 : Forall2 (shard_view log2 only req) shards ((λ o, (o, [])) <$> opss)).
    { apply Forall2_same_length_lookup. split; [by rewrite fmap_length|]. intros i sh p Hi Hp. rewrite list_lookup_fmap in Hp.
      destruct (opss !! i) as [ops|] eqn:Eo; [|done]. injection Hp as <-. exact (HP i sh ops Hi Eo). }
    assert (Hnone : all_hits only (ScoringCriteria (rqOpts req)) ((λ o, (o, [])) <$> opss) = []).
    { unfold all_hits. clear. induction opss as [|ops l IH]; [done|]. cbn. exact IH. }
    destruct (C32_lem log2 sortBy only req shards _ order Hvb ltac:(rewrite Hnone; by apply Forall_nil) HF2 Hrk Ht P1 P2 P3 Hall) as (full & out & F1 & _ & F3 & _ & F5).
    rewrite Hnone in F1. apply Permutation_nil_r in F1 as ->. apply submseteq_nil_r in F5 as ->. exact F3.
  Qed.

  (** One id given to Index over and over, with the same text *)
  Theorem http_crash sortDocs io s0 nseg progs s id ct : valid_sort sortDocs → Init io = Some s0 → 2 <= DocCacheSize (initOptions s0) →
    id ≠ "0" → Forall (λ c, ∃ doc d, c = WIndex doc d false ∧ good_doc doc ∧ DocId doc = id ∧ ddContent d = ct) (mjoin progs) →
    2 * DocCacheSize (initOptions s0) < zlen (mjoin progs) →
    pipe_reach murmur n only reqsFirst capc nseg (pipeProg <$> progs) s → quiescent s →
    run sortDocs (ixCalls (u32 (murmur (String.append id ct)) `mod` n) (sLog s)) s0 = None.
  Proof.
    intros Hv HI H2 H0 Hall Hlen Hr Hq. rewrite <-shardOf_mod by done. set (i := shardOf murmur n id ct).
    assert (Hi : 0 <= i < n). { unfold i. rewrite shardOf_mod by done. apply Z.mod_pos_bound. lia. }
    destruct (quiescent_calls _ _ _ _ _ Hn _ _ _ i Hr Hq Hi) as [Hp _]. rewrite pipeProg_join in Hp.
    assert (E : ∃ docs, ixStream murmur n i (pipeCall <$> mjoin progs) = posts docs ∧ Forall good_doc docs ∧ Forall (λ d, DocId d = id) docs ∧ length docs = length (mjoin progs)).
    { revert Hall. clear -H0. induction (mjoin progs) as [|c cs IH]; [by exists []|]. intros H. apply Forall_cons in H as [(doc & d & -> & Hg & Hid & Hct) H].
      destruct (IH H) as (docs & Hd & Hg' & Hid' & Hl). exists (doc :: docs). split; [|split; [by constructor|split; [by constructor|cbn; lia]]].
      change (ixStream murmur n i (pipeCall <$> WIndex doc d false :: cs)) with (ixMsgs murmur n i (pipeCall (WIndex doc d false)) ++ ixStream murmur n i (pipeCall <$> cs)).
      rewrite Hd. cbn [pipeCall ixMsgs]. rewrite Hid, Hct. rewrite (proj2 (seqb_neq _ _)) by done. unfold i. rewrite Z.eqb_refl. done. }
    destruct E as (docs & E & Hg & Hid & Hl). rewrite E in Hp. unfold posts in Hp.
    apply Permutation_map_inv in Hp as (docs' & Hd' & Hp). change (map (λ d, OpAdd (Some d) false) docs') with (posts docs') in Hd'. rewrite Hd'.
    rewrite Hp in Hg, Hid. eapply repeated_crash; try done. unfold zlen in *. rewrite <-Hp. lia.
  Qed.
End Engine.

(** * DelIndex *)
Section Delete.
  Variables (murmur : string → Z) (n : Z) (only reqsFirst : bool) (capc : chan → nat).
  Variables (box : Attri → Iface) (X : Ext) (stop : gset string) (so : SegOpts).
  Hypothesis Hn : 1 <= n < 2^32.
  Hypothesis HX : valid_range X.

  Lemma add_inv time ts r c : srvWcall X stop so (AddIndex box time ts r) = Some c →
    ∃ doc d, c = WIndex doc d false ∧ good_doc doc ∧ DocId doc = form "docid" r ∧ ddContent d = form "query" r ∧
      segDoc X stop so (form "docid" r) d = Some doc.
  Proof.
    cbn. destruct (segDoc _ _ _ _ _) as [doc|] eqn:E; [|done]. intros [= <-]. destruct (segDoc_good _ _ _ _ _ _ HX E) as [Hg Hid].
    eexists doc, _. done.
  Qed.

  Theorem posted_delete sortDocs sortBy io s0 nseg time ts r id doc d s shards log2 req order :
    valid_sort sortDocs → valid_sortBy sortBy → Init io = Some s0 →
    hrPost r = true → head (values "docid" (hrBody r)) = Some id → values "docid" (hrUrl r) = [] → id ≠ "" → id ≠ "0" →
    srvWcall X stop so (AddIndex box time ts r) = Some (WIndex doc d false) →
    pipe_reach murmur n only reqsFirst capc nseg [program [[pipeCall (WIndex doc d false); ERemove (urlGet "docid" r) false]]] s → quiescent s →
    engine_shards sortDocs s0 only n s shards → plain_request io req → scores_numbers log2 req shards →
    all_arrive (length shards) order → wanted req doc → score_accepts (ScoringCriteria (rqOpts req)) id (ddFields d) →
    ∃ full out, Search log2 sortBy req shards order = Some (mkResp (rqTokens req) false (zlen full) (Some out)) ∧ sdDocId <$> full = [id] ∧
      DocId doc = id.
  Proof.
    intros Hv Hvb HI Hpost Hb Hu Hne H0 Hadd Hr Hq Hsh Hpr Hnan Hall Hwant Hacc.
    destruct (add_inv _ _ _ _ Hadd) as (doc' & d' & [= <- <-] & Hg & Hid & Hct & _).
    assert (Hf : form "docid" r = id). { unfold form, formValues. rewrite Hpost. destruct (values "docid" (hrBody r)) as [|v l]; [done|]. cbn in *. congruence. }
    assert (Hdel : urlGet "docid" r = ""). { unfold urlGet. by rewrite Hu. }
    rewrite Hdel in Hr. rewrite Hf in Hid.
    assert (Hon : once_each (mjoin [program [[pipeCall (WIndex doc d false); ERemove "" false]]])).
    { split.
      - constructor; [cbn; split; [done|congruence]|]. constructor; [done|]. by apply Forall_singleton.
      - cbn. rewrite Hid. apply NoDup_cons. split; [|by apply NoDup_singleton]. intros H%elem_of_list_singleton. done. }
    assert (Hph : Forall good_phase [[pipeCall (WIndex doc d false); ERemove "" false]]).
    { apply Forall_singleton. split; [|exact (proj2 Hon)]. constructor; [cbn; split; [done|congruence]|]. by apply Forall_singleton. }
    destruct (end_flushed murmur n only reqsFirst capc Hn sortDocs io s0 nseg _ s Hv HI Hr Hq Hph) as (shards' & Hsh' & Hw).
    assert (shards = shards') as <-.
    { destruct Hsh as [H1 H2], Hsh' as [H1' H2']. apply list_eq. intros i.
      destruct (shards !! i) as [sh|] eqn:E, (shards' !! i) as [sh'|] eqn:E'.
      - destruct (H2 _ _ E) as [Ha Hb2], (H2' _ _ E') as [Ha' Hb']. destruct sh as [x y], sh' as [x' y']. cbn in *. congruence.
      - apply lookup_lt_Some in E. apply lookup_ge_None in E'. unfold zlen in *. lia.
      - apply lookup_lt_Some in E'. apply lookup_ge_None in E. unfold zlen in *. lia.
      - done. }
    destruct (end_search murmur n only reqsFirst capc Hn sortDocs sortBy io s0 nseg _ s shards log2 req order Hv Hvb HI Hr Hq Hon Hsh Hw Hpr Hnan Hall)
      as (full & out & HS & HA). exists full, out. split; [done|]. split; [|done].
    destruct HA as (_ & _ & _ & Hnd & Hin & Hout).
    destruct (Hout doc (ddFields d) (ddContent d) (ddAttri d) false) as (h & Hh & Hsc); [by left|done|by rewrite Hid|].
    assert (Hall2 : ∀ h', h' ∈ full → sdDocId h' = id).
    { intros h' Hh'. destruct (Hin h' Hh') as (d2 & f2 & ct2 & a2 & fo2 & Hc & _ & Hs2 & _). cbn in Hc.
      apply elem_of_cons in Hc as [[= -> _ _ _ _]|Hc]; [congruence|]. apply elem_of_cons in Hc as [Hc|Hc]; [done|]. apply elem_of_list_singleton in Hc. done. }
    destruct full as [|h1 [|h2 full]]; [by apply elem_of_nil in Hh| |].
    - cbn. f_equal. apply Hall2. by left.
    - exfalso. cbn in Hnd. apply NoDup_cons in Hnd as [Hnd _]. apply Hnd. apply elem_of_cons. left.
      rewrite (Hall2 h1) by left. symmetry. apply Hall2. right. left.
  Qed.

  Theorem url_delete sortDocs io s0 nseg time ts r r2 id doc d s i :
    valid_sort sortDocs → Init io = Some s0 → form "docid" r = id → head (values "docid" (hrUrl r2)) = Some id → id ≠ "0" →
    srvWcall X stop so (AddIndex box time ts r) = Some (WIndex doc d false) →
    pipe_reach murmur n only reqsFirst capc nseg [program [[pipeCall (WIndex doc d false)]; [ERemove (urlGet "docid" r2) false]]] s → returned 0 s →
    0 <= i < n → ∃ ix, run sortDocs (ixCalls i (sLog s)) s0 = Some ix ∧ ∀ id', HasDoc ix id' = false.
  Proof.
    intros Hv HI Hf Hu H0 Hadd Hr Hret Hi. destruct (add_inv _ _ _ _ Hadd) as (doc' & d' & [= <- <-] & Hg & Hid & Hct & _).
    assert (Hdel : urlGet "docid" r2 = id). { unfold urlGet. destruct (values "docid" (hrUrl r2)) as [|v l]; [done|]. cbn in Hu. congruence. }
    rewrite Hdel in Hr. rewrite Hf in Hid.
    assert (Hph : Forall good_phase [[pipeCall (WIndex doc d false)]; [ERemove id false]]).
    { constructor; [split; [by apply Forall_singleton; cbn; split; [|congruence]|by apply NoDup_singleton]|].
      apply Forall_singleton. split; [by apply Forall_singleton|by apply NoDup_singleton]. }
    destruct (C39_lem _ _ _ _ _ Hn sortDocs io s0 nseg _ s i Hv HI Hph Hr Hret Hi) as (ix & M & Hx & Hsh & _ & _ & _ & HM).
    exists ix. split; [done|]. intros id'. apply not_true_iff_false. rewrite (proj1 Hsh id'). rewrite HM. unfold version, program.
    cbn [fmap list_fmap mjoin list_join app reverse rev_append pipeCall]. unfold reverse. cbn [rev_append].
    rewrite !filter_cons. cbn [sent_to]. rewrite Hid. destruct (seqb id id') eqn:E; cbn; by intros [].
  Qed.
End Delete.
