(** The scores of searches while documents are being added, at the level of the indexer locks. *)
From Verif Require Import ModelEngine ModelFlight SpecFine SpecFineSearch SpecFineDuring SpecIndexer SpecSearch SpecRank SpecRoute SpecPipe SpecLive SpecEngine SpecFlight SpecEnd SpecProx SpecLogic SpecFits SpecDuring SpecScored SpecRescored SpecGrowing
  ProofSearch ProofTable ProofIndexer ProofCache ProofHistory ProofLookup ProofSearchThms ProofLogic ProofLogicThms ProofTopK ProofRoute ProofPipe ProofBlocks ProofFits
  ProofFlush ProofFlushThms ProofIxThms ProofLocks ProofGhost ProofSeqEq ProofLive ProofFine ProofFineSim ProofFineThms ProofFineCycle ProofRanker ProofDuring ProofEnd ProofMoments ProofScored ProofRescored ProofGrowing ProofFineSee ProofFineSearch ProofFineDuring.

Section FineGrowing.
  Context (murmur : string → Z) (n : Z) (only reqsFirst : bool) (cap : chan → nat).
  Context (log2 : F → F) (sortDocs : list DocIndex → list DocIndex).
  Hypothesis Hn : 1 <= n < 2^32.
  Context (nseg : nat) (progs : list (list ecall)) (Hap : kept_apart progs).
  Context (io : IndexerOpts) (x0 : Indexer) (stale : list string) (looks : nat → list (list ModelLocks.query)).
  Context (Hv : valid_sort sortDocs) (HI : Init io = Some x0).
  Context (Hg : Forall (λ c, good_call c ∧ call_id c ≠ Some "0") (mjoin progs)) (Hnd : NoDup (omap call_id (mjoin progs))).
  Notation cs := (mjoin progs).
  Notation fineS := (fineStep murmur n only reqsFirst cap log2 sortDocs).
  Notation reachp := (pipe_reach murmur n only reqsFirst cap nseg progs).
  Notation reachf := (fine_reach murmur n only reqsFirst cap log2 sortDocs nseg progs x0 stale looks).
  Notation shard_at := (shard_at murmur n only reqsFirst cap log2 sortDocs nseg progs x0 stale looks).
  Notation shard_in := (shard_in murmur n only reqsFirst cap sortDocs x0 nseg progs).
  Notation ever i := (shard_docs murmur n (Z.of_nat i) cs).

  Lemma HG : Forall good_call cs.
  Proof. eapply Forall_impl; [exact Hg|]. by intros c [? _]. Qed.

  (** Nothing is waiting for its deletion: what the shard has is what it had before the call
      under way, or what it has after it. *)
  Lemma none_dying s i sh : shard_at s i sh → ∃ live, Seen (ModelEngine.shIx sh) live ∅ ∧
    (∃ p, reachp p ∧ stems (ixCalls (Z.of_nat i) (sLog p)) live ∅) ∧
    ∃ p sh', shard_in p i sh' ∧ totalTokenLen (ModelEngine.shIx sh') = totalTokenLen (ModelEngine.shIx sh) ∧
      ∀ id, HasDoc (ModelEngine.shIx sh') id = HasDoc (ModelEngine.shIx sh) id.
  Proof.
    intros H. destruct (rested murmur n only reqsFirst cap log2 sortDocs Hn nseg progs Hap io x0 stale looks Hv HI HG s i sh H) as [y Hy].
    pose proof H as (H1 & H2 & (fsh & H3 & E3) & H4).
    destruct (shard_view murmur n only reqsFirst cap log2 sortDocs Hn nseg progs Hap io x0 stale looks Hv HI HG s i fsh H1 H3)
      as (x & L0 & D0 & live & dying & Hr & Hx & (HS & p & Hp & Hst & Hc) & _).
    assert (Hno : ∀ q y L D, reachp q → run sortDocs (ixCalls (Z.of_nat i) (sLog q)) x0 = Some y → Inv y L D →
      (∀ id d, D !! id = Some d → DocId d = id ∧ ∃ f ct a fo, EIndex d f ct a fo ∈ cs) → D = ∅).
    { intros q z L D Hq Hz HIz Hcall. apply map_empty. intros id. destruct (D !! id) as [e|] eqn:E; [|done]. exfalso.
      destruct (Hcall _ _ E) as (<- & f & ct & a & fo & Hoc%(nodup_once cs Hnd)).
      destruct (single_stage sortDocs Hv (DocId e) (ixCalls (Z.of_nat i) (sLog q)) io x0 z HI) as (_ & _ & _ & _ & _ & Hrm);
        [by eapply opts_good; [exact Hn|exact HG|..]| |done|].
      - destruct (in_ix_only murmur n only reqsFirst cap Hn nseg progs q (Z.of_nat i) e f ct a fo Hq H2 Hoc) as [?|(_ & _ & ?)]; [by left|right; eauto].
      - apply Hrm, (core_rc _ _ _ _ (inv_core _ _ _ HIz)). by exists e. }
    assert (Hstem : ∀ q L D id d, reachp q → stems (ixCalls (Z.of_nat i) (sLog q)) L D → L !! id = Some d ∨ D !! id = Some d → ∃ f ct a fo, EIndex d f ct a fo ∈ cs).
    { intros q L D id d Hq Hs Hd. by eapply stems_call. }
    assert (Hre : reachp (fPipe s)) by by eapply fine_pipe.
    rewrite E3.
    destruct Hc as [(k & o & Hcl & [Ht1 Ht2] & Htot)|[Hrun Hinv]].
    - destruct (ops_inv murmur n only reqsFirst cap sortDocs Hn nseg progs io x0 Hv HI HG (fPipe s) (Z.of_nat i) x Hre H2 Hr) as (L1 & D1 & Hx1 & Hst1).
      assert (D1 = ∅) as ->.
      { eapply Hno; [exact Hre|exact Hr|exact Hx1|]. intros id d Hd. split; [|by eapply Hstem; [..|right]].
        pose proof (seen_inv _ _ _ Hx1) as HS1. apply (seen_ids _ _ _ HS1). by apply lookup_union_Some_r; [apply HS1|]. }
      assert (D0 = ∅) as ->.
      { apply map_empty. intros id. destruct (D0 !! id) as [e|] eqn:E; [|done].
        assert (Hrc : id ∈ removeCache x) by (apply (core_rc _ _ _ _ (inv_core _ _ _ Hx)); by eexists).
        apply (core_rc _ _ _ _ (inv_core _ _ _ Hx1)) in Hrc as [? Hrc]. by rewrite lookup_empty in Hrc. }
      assert (live = L0) as ->.
      { apply map_eq. intros id. destruct (Ht1 id) as [?|[E Hto]]; [done|]. destruct (L0 !! id) as [e|] eqn:E0; [|done]. exfalso.
        assert (Hh : HasDoc x id = true) by (apply (inv_hasdoc _ _ _ _ Hx); by eexists).
        pose proof Hh as [d Hd]%(inv_hasdoc _ _ _ _ Hx1).
        destruct (Hstem (fPipe s) L1 ∅ id d Hre Hst1 (or_introl Hd)) as (f & ct & a & fo & Hoc%(nodup_once cs Hnd)).
        assert (Ed : DocId d = id). { pose proof (seen_inv _ _ _ Hx1) as HS1. apply (seen_ids _ _ _ HS1). by apply lookup_union_Some_l. }
        rewrite <- Ed in Hh, Hto. revert Hto. eapply only_untouched; [exact Hn|exact Hap|exact Hv|exact HI|exact HG|exact H1| |exact Hcl|exact Hoc|exact Hr|exact Hh]. lia. }
      assert (dying = ∅) as ->.
      { apply map_empty. intros id. destruct (dying !! id) as [e|] eqn:E; [|done]. exfalso.
        destruct (Ht2 _ _ E) as [E0|E0]; [|by rewrite lookup_empty in E0]. by eapply map_disjoint_spec; [apply HS|exact E0|exact E]. }
      exists L0. split; [done|]. split; [by exists p|]. exists (fPipe s), (ModelEngine.mkShard x (shRk sh)). split; [by do 3 (split; [done|])|].
      cbn [ModelEngine.shIx]. split; [symmetry; by apply Htot|]. intros id.
      pose proof (inv_hasdoc _ _ _ id Hx) as A1. pose proof (seen_live _ _ _ HS id) as A2.
      destruct (HasDoc x id), (HasDoc (index_of fsh) id); try done; [symmetry; by apply A2, A1|by apply A1, A2].
    - assert (dying = ∅) as ->.
      { eapply Hno; [exact Hp|exact Hrun|exact Hinv|]. intros id d Hd. split; [|exact (Hstem p live dying id d Hp Hst (or_intror Hd))].
        apply (seen_ids _ _ _ HS). by apply lookup_union_Some_r; [apply HS|]. }
      exists live. split; [done|]. split; [by exists p|].
      destruct (C27_lem only _ (in_engine murmur n only reqsFirst cap Hn nseg progs p (Z.of_nat i) Hp H2)) as (rk & Hrk & _).
      exists p, (ModelEngine.mkShard (index_of fsh) rk). split; [by do 3 (split; [done|])|done].
  Qed.

  Lemma same_held s s' docs : (∀ id, HasDoc s id = HasDoc s' id) → held s docs = held s' docs.
  Proof. intros H. unfold held. apply list_filter_iff. intros d. by rewrite H. Qed.
  Lemma stems_ever p i live id d : reachp p → 0 <= Z.of_nat i < n → stems (ixCalls (Z.of_nat i) (sLog p)) live ∅ → live !! id = Some d → d ∈ ever i.
  Proof.
    intros Hp Hi Hst Hd. destruct (Hst id d (or_introl Hd)) as [f Hf]. destruct (log_ix _ _ _ _ _ Hn _ _ _ _ Hp Hi) as [r Hr].
    assert (Hs : OpAdd (Some d) f ∈ ixStream murmur n (Z.of_nat i) cs) by (rewrite <- Hr; apply elem_of_app; by left).
    apply ixStream_adds in Hs as (fl & ct & a & Hc & _ & Hs). apply shard_docs_elem. exists fl, ct, a, f. split; [done|]. split; [done|].
    by rewrite <- shardOf_mod.
  Qed.

  Lemma growing_lock : growing_mo murmur n only io cs shard_at.
  Proof.
    split.
    - intros s i sh H. destruct (none_dying _ _ _ H) as (_ & _ & _ & p & sh' & HP & Et & Eh).
      rewrite <- Et, <- (same_held _ _ _ Eh).
      exact (grow_total murmur n only reqsFirst cap Hn sortDocs io x0 nseg progs Hv HI Hg Hnd p i sh' HP).
    - intros s i sh lg req docs num x H Hnl Hloc HL Hx now. pose proof H as (H1 & Hi & (fsh & H3 & E3) & _).
      destruct (none_dying _ _ _ H) as (live & HS & (p & Hp & Hst) & _).
      rewrite lookup_plain in HL by done.
      assert (Ho : initOptions (ModelEngine.shIx sh) = optsInit io).
      { rewrite E3, (opts_reach murmur n only reqsFirst cap log2 sortDocs nseg progs x0 stale looks s i fsh H1 H3).
        clear -HI. unfold Init in HI. revert HI. cbv zeta. destruct (_ <? 0); [done|]. by intros [= <-]. }
      assert (Hid : ∀ id d, live !! id = Some d → DocId d = id).
      { intros id d Hd. apply (seen_ids _ _ _ HS). by apply lookup_union_Some_l. }
      destruct (seen_plain lg _ live ∅ (rqTokens req) (rqLabels req) (rqDocIds req) None HS I)
        as (hits & Hso & Hh & [(L1 & L2 & _)|(_ & docs' & L1 & _ & Hids & Hf)]).
      { rewrite Ho in L1. by destruct (Hloc L1). }
      rewrite L1 in HL. injection HL as -> _. destruct (Hf x Hx) as (d & kws & Hd & Hk & Hfo).
      assert (Ed : DocId d = ixDocId x) by by apply Hid.
      assert (Hls : lists live now).
      { split; [by apply now_NoDup|]. intros id e. unfold now, held. rewrite elem_of_list_filter. split.
        - intros He. pose proof (Hid _ _ He) as <-. split; [|done]. split; [|by eapply stems_ever]. apply (seen_live _ _ _ HS). by eexists.
        - intros [[Hhd He] <-]. apply (seen_live _ _ _ HS) in Hhd as [e' He']. pose proof (Hid _ _ He') as E.
          pose proof (ever_inj murmur n cs Hnd i e e' He (stems_ever _ _ _ _ _ Hp Hi Hst He') (eq_sym E)) as <-. exact He'. }
      exists d. split; [|split; [done|]].
      + apply Hls in Hd as [? _]. done.
      + eapply fields_told_ix; [exact Ho| |apply (seen_num _ _ _ HS)|exact Hls|exact Hk|exact Hfo].
        pose proof (inv_indexes _ _ _ (tidy_inv _ _ _ HS)) as HX. rewrite (right_id_L ∅ (∪)) in HX. exact HX.
    - intros s i sh opts x h d f ct a fo H Hj. destruct (rested murmur n only reqsFirst cap log2 sortDocs Hn nseg progs Hap io x0 stale looks Hv HI HG s i sh H) as [y Hy].
      exact (grow_judged murmur n only reqsFirst cap Hn sortDocs x0 nseg progs Hnd _ _ _ Hy opts x h d f ct a fo Hj).
  Qed.
End FineGrowing.
