(** What the indexers hold after a restart. *)
From Verif Require Import ModelPipe ModelStore SpecIndexer SpecSearch SpecRoute SpecPipe SpecSegment SpecStore ProofTopK ProofEngine ProofIndexer ProofCache ProofHistory ProofIxMap ProofIxSearch
  ProofRoute ProofPipe ProofBlocks ProofFlush ProofFlushThms ProofSegment ProofSegThms ProofSegEnd ProofStore ProofStoreRun ProofStoreEnd.

(** * Unforced additions below the cache size *)
Definition quiet_add (o : op) : Prop := ∃ d, o = OpAdd (Some d) false ∧ good_doc d.
Lemma waiting_run sortDocs (Hsort : valid_sort sortDocs) ops : ∀ s live dying,
  Inv s live dying → Forall quiet_add ops → zlen ops + zlen (addCache s) < cap s →
  ∃ s', run sortDocs ops s = Some s' ∧ Inv s' live dying.
Proof.
  induction ops as [|o ops IH]; intros s live dying HI Hq Hlen; [by exists s|].
  apply Forall_cons in Hq as [(d & -> & Hd) Hq]. rewrite zlen_cons in Hlen. pose proof (zlen_nonneg ops).
  destruct (AddDocToCache_inv sortDocs Hsort (Some d) false s live dying) as (s1 & Hrun & Ho & Hcase); [done|split; [lia|done]|].
  assert (Hw : zlen (waiting (Some d) s) = zlen (addCache s) + 1) by (unfold waiting; rewrite zlen_app; done).
  unfold addFlush in Hcase. rewrite Hw in Hcase. destruct (Z.leb_spec (cap s) (zlen (addCache s) + 1)); [lia|]. cbn in Hcase.
  destruct Hcase as [HI1 Hc1]. destruct (IH s1 live dying HI1 Hq) as (s' & Hrun' & HI').
  { rewrite Hc1, Hw. unfold cap in *. rewrite Ho. lia. }
  exists s'. split; [|done]. unfold run in *. simpl. by rewrite Hrun.
Qed.

Section Recover.
  Variables (murmur : string → Z) (n : Z) (only reqsFirst : bool) (capc : chan → nat).
  Variable iter : kv → list (string * string).
  Hypothesis Hiter : valid_iter iter.
  Variable decode : string → DocData * bool.
  Variables (X : Ext) (stop : gset string) (o : SegOpts).
  Hypothesis HX : valid_range X.
  Hypothesis Hn : 1 <= n < 2^32.

  Lemma u32_range x : 0 <= u32 x < 2^32.
  Proof. unfold u32. apply Z.mod_pos_bound. lia. Qed.

  (** the calls of all goroutines together *)
  Lemma recover_calls nS dbs progs : recoverProgs iter decode X stop o nS dbs = Some progs →
    ∃ rs, rs = mjoin ((λ j, storeInit iter decode (dbs j)) <$> seqZ 0 nS) ∧
      Forall2 (λ p c, indexCall X stop o p.1 p.2 false = Some c) rs (mjoin progs).
  Proof.
    unfold recoverProgs. intros H%mapM_Some. eexists. split; [done|].
    induction H as [|j cs js css Hj _ IH]; [by constructor|]. rewrite fmap_cons, !join_cons.
    apply Forall2_app; [|done]. by apply mapM_Some.
  Qed.
  Lemma call_ops i p c : indexCall X stop o p.1 p.2 false = Some c →
    ∃ doc, segDoc X stop o p.1 p.2 = Some doc ∧ good_doc doc ∧ DocId doc = p.1 ∧
      ixMsgs murmur n i c = if seqb p.1 "0" then [] else if u32 (murmur (String.append p.1 (ddContent p.2))) `mod` n =? i then [OpAdd (Some doc) false] else [].
  Proof.
    unfold indexCall. intros H. destruct (segDoc X stop o p.1 p.2) as [doc|] eqn:E; [|done]. cbn in H. injection H as <-.
    destruct (segDoc_good _ _ _ _ _ _ HX E) as [Hg Hid]. exists doc. split; [done|]. split; [done|]. split; [done|]. cbn. rewrite Hid.
    destruct (seqb p.1 "0"); [done|]. unfold shardOf. rewrite (proj1 (C35_lem n _ Hn (u32_range _))). done.
  Qed.

  Lemma stream_quiet i rs cs : Forall2 (λ p c, indexCall X stop o p.1 p.2 false = Some c) rs cs →
    Forall quiet_add (ixStream murmur n i cs).
  Proof.
    induction 1 as [|p c rs cs Hc _ IH]; [constructor|]. change (ixStream murmur n i (c :: cs)) with (ixMsgs murmur n i c ++ ixStream murmur n i cs).
    apply Forall_app. split; [|done]. destruct (call_ops i p c Hc) as (doc & _ & Hg & _ & ->).
    destruct (seqb _ _); [constructor|]. destruct (_ =? _); [|constructor]. constructor; [|done]. by exists doc.
  Qed.
  Lemma stream_len i rs cs : Forall2 (λ p c, indexCall X stop o p.1 p.2 false = Some c) rs cs →
    zlen (ixStream murmur n i cs) <= zlen rs.
  Proof.
    induction 1 as [|p c rs cs Hc _ IH]; [done|]. change (ixStream murmur n i (c :: cs)) with (ixMsgs murmur n i c ++ ixStream murmur n i cs).
    rewrite zlen_app, zlen_cons. destruct (call_ops i p c Hc) as (doc & _ & Hg & _ & ->).
    destruct (seqb _ _); [rewrite zlen_nil; lia|]. destruct (_ =? _); rewrite ?zlen_cons, zlen_nil; lia.
  Qed.
  Lemma stream_ids i rs cs : Forall2 (λ p c, indexCall X stop o p.1 p.2 false = Some c) rs cs →
    omap op_id (ixStream murmur n i cs) `sublist_of` rs.*1 ∧ "0" ∉ omap op_id (ixStream murmur n i cs).
  Proof.
    induction 1 as [|p c rs cs Hc _ [IH1 IH2]]; [split; [done|by apply not_elem_of_nil]|].
    change (ixStream murmur n i (c :: cs)) with (ixMsgs murmur n i c ++ ixStream murmur n i cs). rewrite omap_app.
    destruct (call_ops i p c Hc) as (doc & _ & Hg & Hid & ->).
    destruct (seqb p.1 "0") eqn:E0; [split; [by apply sublist_cons|done]|]. apply seqb_neq in E0.
    destruct (_ =? _); [|split; [by apply sublist_cons|done]]. cbn. rewrite Hid. split; [by apply sublist_skip|].
    rewrite not_elem_of_cons. split; [done|done].
  Qed.
  Lemma stream_map i rs cs id doc : Forall2 (λ p c, indexCall X stop o p.1 p.2 false = Some c) rs cs →
    OpAdd (Some doc) false ∈ ixStream murmur n i cs ∧ DocId doc = id ↔
    id ≠ "0" ∧ ∃ d, (id, d) ∈ rs ∧ segDoc X stop o id d = Some doc ∧ u32 (murmur (String.append id (ddContent d))) `mod` n = i.
  Proof.
    induction 1 as [|p c rs cs Hc _ IH].
    { split; [intros [H%elem_of_nil _]; done|]. intros (_ & d & H%elem_of_nil & _). done. }
    change (ixStream murmur n i (c :: cs)) with (ixMsgs murmur n i c ++ ixStream murmur n i cs). rewrite elem_of_app.
    destruct (call_ops i p c Hc) as (doc' & Hs & Hg & Hid & ->). destruct p as [pid pd]. cbn [fst snd] in *.
    assert (Hhead : OpAdd (Some doc) false ∈ (if seqb pid "0" then [] else if u32 (murmur (String.append pid (ddContent pd))) `mod` n =? i then [OpAdd (Some doc') false] else [])
      ↔ doc = doc' ∧ pid ≠ "0" ∧ u32 (murmur (String.append pid (ddContent pd))) `mod` n = i).
    { destruct (seqb pid "0") eqn:E0.
      - apply seqb_eq in E0. rewrite elem_of_nil. naive_solver.
      - apply seqb_neq in E0. destruct (Z.eqb_spec (u32 (murmur (String.append pid (ddContent pd))) `mod` n) i); rewrite ?elem_of_list_singleton, ?elem_of_nil; naive_solver. }
    split.
    - intros [[Hin|Hin] E].
      + apply Hhead in Hin as (-> & H0 & Hm). subst id. rewrite Hid in *. split; [done|]. exists pd. split; [by left|]. done.
      + destruct (proj1 IH (conj Hin E)) as (H0 & d & ? & ? & ?). split; [done|]. exists d. split; [by right|]. done.
    - intros (H0 & d & Hin & Hsd & Hm). apply elem_of_cons in Hin as [E|Hin].
      + injection E as -> ->. rewrite Hs in Hsd. injection Hsd as ->. split; [left; by apply Hhead|done].
      + destruct (proj2 IH) as [? ?]; [split; [done|by exists d]|]. split; [by right|done].
  Qed.

  Lemma mapOf_quiet ops : Forall quiet_add ops → NoDup (omap op_id ops) →
    ∀ id doc, mapOf ops !! id = Some doc ↔ OpAdd (Some doc) false ∈ ops ∧ DocId doc = id.
  Proof.
    unfold mapOf. intros Hq. induction ops as [|x ops IH] using rev_ind; intros Hnd id doc.
    { cbn. rewrite lookup_empty, elem_of_nil. naive_solver. }
    apply Forall_app in Hq as [Hq [(d & -> & _) _]%Forall_cons]. rewrite foldl_app. cbn [foldl mapStep].
    rewrite omap_app in Hnd. cbn in Hnd. apply NoDup_app in Hnd as (Hnd & Hdis & _).
    rewrite elem_of_app, elem_of_list_singleton. destruct (decide (DocId d = id)) as [E|E].
    - rewrite E, lookup_insert. split.
      + intros [= <-]. split; [by right|done].
      + intros [[Hin|[= ->]] E2]; [|done]. exfalso. apply (Hdis id); [|rewrite E; by left].
        apply elem_of_list_omap. exists (OpAdd (Some doc) false). cbn. by rewrite E2.
    - rewrite lookup_insert_ne by done. rewrite IH by done. naive_solver.
  Qed.

  (** Before a flush nothing is found, if the recovered documents fit in the cache. *)
  Lemma recovered_wait_lem sortDocs io s0 nseg nS dbs progs s i log2 : valid_sort sortDocs → Init io = Some s0 →
    recoverProgs iter decode X stop o nS dbs = Some progs →
    zlen (mjoin progs) < DocCacheSize (initOptions s0) →
    pipe_reach murmur n only reqsFirst capc nseg progs s → 0 <= i < n →
    ∃ x, run sortDocs (ixCalls i (sLog s)) s0 = Some x ∧ ∀ id, HasDoc x id = false ∧ not_found log2 x id.
  Proof.
    intros Hsort HI Hp Hlen Hr Hi. destruct (recover_calls _ _ _ Hp) as (rs & _ & HF).
    assert (Hsub : ∃ rest, ixCalls i (sLog s) ++ rest ≡ₚ ixStream murmur n i (mjoin progs)).
    { exists (ixCalls i (evsAll murmur n only reqsFirst s)). rewrite <-ixCalls_app.
      rewrite (ixCalls_perm _ _ _ (reach_all _ _ _ _ _ _ _ _ Hr)). by rewrite ixCalls_calls. }
    destruct Hsub as [rest Hsub].
    pose proof (stream_quiet i _ _ HF) as Hq. rewrite <-Hsub in Hq. apply Forall_app in Hq as [Hq _].
    pose proof (stream_len i _ _ HF) as Hl. pose proof (zlen_nonneg rest).
    assert (Hl2 : zlen (ixCalls i (sLog s)) + zlen rest = zlen (ixStream murmur n i (mjoin progs))).
    { rewrite <-zlen_app. unfold zlen. by rewrite Hsub. }
    assert (Hl3 : zlen rs = zlen (mjoin progs)). { unfold zlen. by rewrite (Forall2_length _ _ _ HF). }
    destruct (Init_inv io s0 HI) as [HInv Hc].
    destruct (waiting_run sortDocs Hsort (ixCalls i (sLog s)) s0 ∅ ∅ HInv Hq) as (x & Hrun & HInv').
    { rewrite Hc, zlen_nil. unfold cap. lia. }
    exists x. split; [done|]. intros id. assert (Hh : HasDoc x id = false).
    { apply not_true_iff_false. rewrite (inv_hasdoc _ _ _ id HInv'). rewrite lookup_empty. by intros []. }
    split; [done|]. eapply (hasdoc_not_found sortDocs io); [|done]. split; [done|]. split; [|by exists s0].
    eapply Forall_impl; [exact Hq|]. intros x0 (d & -> & Hd). done.
  Qed.

  (** After a flush exactly the stored documents are there. *)
  Lemma recovered_shown_lem sortDocs io s0 nseg nS dbs progs s i : valid_sort sortDocs → Init io = Some s0 →
    1 <= nS < 2^32 → placed murmur nS dbs →
    recoverProgs iter decode X stop o nS dbs = Some progs →
    pipe_reach murmur n only reqsFirst capc nseg progs s → quiescent s → 0 <= i < n →
    ∃ x M, run sortDocs (ixCalls i (sLog s) ++ [OpAdd None true]) s0 = Some x ∧ shows x M ∧ clean x M ∧
      ∀ id doc, M !! id = Some doc ↔
        id ≠ "0" ∧ ∃ v d, dbs (storeShard murmur nS id) !! id = Some v ∧ decode v = (d, false) ∧
          segDoc X stop o id d = Some doc ∧ u32 (murmur (String.append id (ddContent d))) `mod` n = i.
  Proof.
    intros Hsort HI HnS Hpl Hp Hr Hq Hi. destruct (recover_calls _ _ _ Hp) as (rs & Hrs & HF).
    destruct (quiescent_calls murmur n only reqsFirst capc Hn nseg progs s i Hr Hq Hi) as [Hperm _].
    assert (Hres : restart iter decode nS dbs rs) by (subst rs; apply merges_total).
    pose proof (restart_nodup iter Hiter decode murmur nS dbs rs Hres Hpl) as Hnd.
    pose proof (stream_quiet i _ _ HF) as Hqa. destruct (stream_ids i _ _ HF) as [Hsub H0].
    apply (sublist_nodup _ _ Hsub) in Hnd. pose proof (stream_map i rs (mjoin progs)) as Hmap.
    rewrite <-Hperm in Hqa, H0, Hnd.
    assert (Hgood : Forall good_op (ixCalls i (sLog s))) by (eapply Forall_impl; [exact Hqa|]; by intros ? (d & -> & ?)).
    destruct (batching_transparent sortDocs io s0 (ixCalls i (sLog s))) as (x & Hrun & Hs & Hc & _); [done..|by eapply batching_distinct|].
    exists x, (mapOf (ixCalls i (sLog s))). split; [done|]. split; [done|]. split; [done|]. intros id doc.
    rewrite mapOf_quiet by done. rewrite Hperm. rewrite (Hmap id doc HF). clear Hmap.
    split; intros (Hz & H).
    - destruct H as (d & Hin & Hsd & Hm). split; [done|].
      apply (restart_in iter Hiter decode nS dbs rs id d Hres) in Hin as (j & v & Hj & Hv & Hd). exists v, d.
      rewrite (Hpl j id Hj) by (by eexists). done.
    - destruct H as (v & d & Hv & Hd & Hsd & Hm). split; [done|]. exists d. split; [|done].
      apply (restart_in iter Hiter decode nS dbs rs id d Hres). exists (storeShard murmur nS id), v. split; [apply shard_range; lia|done].
  Qed.
End Recover.
