(** Distribution over shards: C36, C37. *)
From Verif Require Import ModelRoute SpecIndexer SpecSearch SpecLogic SpecRank SpecRoute ProofHistory ProofIxThms ProofIxMap ProofIxMore
  ProofIxSearch ProofSearchThms ProofTotal ProofTopK ProofEngine ProofRanker.

Section Route.
  Variable murmur : string → Z.
  Variable sortDocs : list DocIndex → list DocIndex.
  Variable only : bool.
  Variable n : Z.

  Notation ixs := (ixStream murmur n).
  Notation rks := (rkStream murmur n only).

  Lemma ixStream_app i c1 c2 : ixs i (c1 ++ c2) = ixs i c1 ++ ixs i c2.
  Proof. unfold ixStream. by rewrite fmap_app, join_app. Qed.
  Lemma rkStream_app i c1 c2 : rks i (c1 ++ c2) = rks i c1 ++ rks i c2.
  Proof. unfold rkStream. by rewrite fmap_app, join_app. Qed.
  Lemma ixStream_one i c : ixs i [c] = ixMsgs murmur n i c.
  Proof. unfold ixStream. cbn. by rewrite app_nil_r. Qed.
  Lemma rkStream_one i c : rks i [c] = rkMsgs murmur n only i c.
  Proof. unfold rkStream. cbn. by rewrite app_nil_r. Qed.

  Lemma rkStream_engine i cs : Forall (engine_call only) (rks i cs).
  Proof.
    induction cs as [|c cs IH] using rev_ind; [constructor|].
    rewrite rkStream_app, rkStream_one. apply Forall_app. split; [done|].
    destruct c as [d f ct a fo|id fo|]; cbn.
    - destruct (seqb _ _); [constructor|]. destruct (_ =? _); [|constructor].
      constructor; [|constructor]. cbn. destruct only; [done|]. by exists ct, a.
    - destruct (seqb _ _); [constructor|]. by constructor.
    - constructor.
  Qed.

  Lemma ixStream_good i cs : Forall good_call cs → Forall good_op (ixs i cs).
  Proof.
    induction 1 as [|c cs Hc _ IH]; [constructor|].
    change (c :: cs) with ([c] ++ cs). rewrite ixStream_app, ixStream_one. apply Forall_app. split; [|done].
    destruct c as [d f ct a fo|id fo|]; cbn in *.
    - destruct (seqb _ _); [destruct fo; by repeat constructor|].
      destruct (_ =? _); [by repeat constructor|]. destruct fo; by repeat constructor.
    - by repeat constructor.
    - by repeat constructor.
  Qed.

  Lemma ixStream_forced i cs : Forall forced_call cs → Forall forced (ixs i cs).
  Proof.
    induction 1 as [|c cs Hc _ IH]; [constructor|].
    change (c :: cs) with ([c] ++ cs). rewrite ixStream_app, ixStream_one. apply Forall_app. split; [|done].
    destruct c as [d f ct a fo|id fo|]; cbn in *.
    - destruct Hc as [-> Hc]. destruct (seqb _ _); [by repeat constructor|].
      destruct (_ =? _); by repeat constructor.
    - constructor; [done|constructor].
    - by repeat constructor.
  Qed.

  Lemma shardOf_mod id content : 1 <= n < 2^32 →
    shardOf murmur n id content = u32 (murmur (String.append id content)) `mod` n.
  Proof.
    intros Hn. unfold shardOf. apply C35_lem; [done|]. unfold u32. apply Z.mod_pos_bound. lia.
  Qed.

  Lemma version_snoc i cs c id : version murmur n i (cs ++ [c]) id =
    if sent_to murmur n i id c then match c with EIndex d _ _ _ _ => Some d | _ => None end
    else version murmur n i cs id.
  Proof.
    unfold version. rewrite reverse_snoc, filter_cons.
    destruct (sent_to murmur n i id c).
    - rewrite decide_True by done. by destruct c.
    - by rewrite decide_False by done.
  Qed.

  Lemma mapOf_app l1 l2 : mapOf (l1 ++ l2) = foldl mapStep (mapOf l1) l2.
  Proof. unfold mapOf. apply foldl_app. Qed.

  Lemma mapOf_version i cs id : 1 <= n < 2^32 → Forall forced_call cs →
    mapOf (ixs i cs) !! id = version murmur n i cs id.
  Proof.
    intros Hn. induction cs as [|c cs IH] using rev_ind; intros Hf; [done|].
    apply Forall_app in Hf as [Hf Hc]. apply Forall_cons in Hc as [Hc _].
    rewrite version_snoc, ixStream_app, ixStream_one, mapOf_app. specialize (IH Hf).
    destruct c as [d f ct a fo|id' fo|]; cbn in Hc |- *.
    - destruct Hc as [-> Hd]. assert (seqb (DocId d) "0" = false) as -> by by apply seqb_neq.
      destruct (seqb (DocId d) id) eqn:E1.
      + apply seqb_eq in E1. subst id. rewrite <- shardOf_mod by done.
        destruct (shardOf murmur n (DocId d) ct =? i); cbn; [by rewrite lookup_insert|done].
      + apply seqb_neq in E1. destruct (shardOf murmur n (DocId d) ct =? i); cbn; [|done].
        by rewrite lookup_insert_ne.
    - destruct (seqb id' id) eqn:E1.
      + apply seqb_eq in E1. subst id'. by rewrite lookup_delete.
      + apply seqb_neq in E1. by rewrite lookup_delete_ne.
    - done.
  Qed.

  Lemma C36_versions_lem o i cs s0 : valid_sort sortDocs → Init o = Some s0 → 1 <= n < 2^32 →
    Forall good_call cs → Forall forced_call cs →
    ∃ sh M, shard_after murmur sortDocs o only n i cs sh ∧
      shows (shIx sh) M ∧ clean (shIx sh) M ∧ ∀ id, M !! id = version murmur n i cs id.
  Proof.
    intros Hv Ho Hn Hg Hf.
    pose proof (ixStream_good i cs Hg) as Hg'. pose proof (ixStream_forced i cs Hf) as Hf'.
    destruct (forced_is_map sortDocs o s0 (ixs i cs) Hv Ho Hg' Hf') as (s & Hs & Hsh & Hcl & _).
    destruct (C27_lem only (rks i cs) (rkStream_engine i cs)) as (r & Hr & _).
    exists (mkShard s r), (mapOf (ixs i cs)). split; [|split; [done|split; [done|]]].
    - split; [|done]. split; [done|]. split; [done|]. by exists s0.
    - intros id. by apply mapOf_version.
  Qed.

  Lemma version_last i cs0 c cs1 id : sent_to murmur n i id c = true →
    Forall (λ c, sent_to murmur n i id c = false) cs1 →
    version murmur n i (cs0 ++ c :: cs1) id = match c with EIndex d _ _ _ _ => Some d | _ => None end.
  Proof.
    intros Hc. induction cs1 as [|c1 cs1 IH] using rev_ind; intros Hf.
    - rewrite version_snoc, Hc. done.
    - apply Forall_app in Hf as [Hf Hc1]. apply Forall_cons in Hc1 as [Hc1 _].
      replace (cs0 ++ c :: cs1 ++ [c1]) with ((cs0 ++ c :: cs1) ++ [c1]) by by rewrite <- app_assoc.
      rewrite version_snoc, Hc1. by apply IH.
  Qed.

  Lemma last_call_rk i cs0 c cs1 id : 1 <= n < 2^32 → id ≠ "0" →
    sent_to murmur n i id c = true → Forall (λ c, sent_to murmur n i id c = false) cs1 →
    last_call id (rks i (cs0 ++ c :: cs1)) =
    match c with
    | EIndex d f ct a _ => Some (ROAdd id f (if only then [] else [IStr ct; a]))
    | _ => Some (RORemove id)
    end.
  Proof.
    intros Hn Hid Hc. induction cs1 as [|c1 cs1 IH] using rev_ind; intros Hf.
    - rewrite rkStream_app, rkStream_one. destruct c as [d f ct a fo|id' fo|]; cbn in Hc |- *; [..|done].
      + apply andb_true_iff in Hc as [Hd%seqb_eq Hs]. subst id. rewrite shardOf_mod, Hs by done.
        assert (seqb (DocId d) "0" = false) as -> by by apply seqb_neq.
        rewrite last_call_snoc. cbn. by rewrite seqb_refl.
      + apply seqb_eq in Hc. subst id'. assert (seqb id "0" = false) as -> by by apply seqb_neq.
        rewrite last_call_snoc. cbn. by rewrite seqb_refl.
    - apply Forall_app in Hf as [Hf Hc1]. apply Forall_cons in Hc1 as [Hc1 _].
      replace (cs0 ++ c :: cs1 ++ [c1]) with ((cs0 ++ c :: cs1) ++ [c1]) by by rewrite <- app_assoc.
      rewrite rkStream_app, rkStream_one. rewrite <- IH by done.
      destruct c1 as [d f ct a fo|id' fo|]; cbn in Hc1 |- *; [..|by rewrite app_nil_r].
      + destruct (seqb (DocId d) "0"); [by rewrite app_nil_r|].
        destruct (shardOf murmur n (DocId d) ct =? i) eqn:E; [|by rewrite app_nil_r].
        rewrite last_call_snoc. cbn. destruct (seqb (DocId d) id) eqn:E2; [|done].
        apply seqb_eq in E2. subst id. rewrite shardOf_mod in E by done. by rewrite E in Hc1.
      + destruct (seqb id' "0"); [by rewrite app_nil_r|]. rewrite last_call_snoc. cbn. by rewrite Hc1.
  Qed.

  (** A shard whose last relevant call is the indexing of [d]. *)
  Lemma holds_version o i cs0 d f ct a fo cs1 s0 : valid_sort sortDocs → Init o = Some s0 → 1 <= n < 2^32 →
    let cs := cs0 ++ EIndex d f ct a fo :: cs1 in
    Forall good_call cs → Forall forced_call cs →
    u32 (murmur (String.append (DocId d) ct)) `mod` n = i →
    Forall (λ c, sent_to murmur n i (DocId d) c = false) cs1 →
    ∃ sh, shard_after murmur sortDocs o only n i cs sh ∧ ∀ log2, serves log2 only sh d f ct a.
  Proof.
    intros Hv Ho Hn cs Hg Hf Hi Hlast.
    destruct (C36_versions_lem o i cs s0 Hv Ho Hn Hg Hf) as (sh & M & Hsh & Hshow & Hcl & HM).
    assert (Hd0 : DocId d ≠ "0").
    { apply Forall_app in Hf as [_ Hf]. apply Forall_cons in Hf as [[_ ?] _]. done. }
    assert (Hsent : sent_to murmur n i (DocId d) (EIndex d f ct a fo) = true).
    { cbn. rewrite seqb_refl. cbn. by apply Z.eqb_eq. }
    assert (HMd : M !! DocId d = Some d).
    { rewrite HM. unfold cs. by rewrite version_last. }
    exists sh. split; [done|]. intros log2. destruct Hshow as (S1 & S2 & S3 & S4).
    split; [apply S1; by exists d|]. split; [intros k; by apply S3|]. split; [intros kw; by apply S4|].
    split.
    - intros tokens labels flt logic docs m Hpl HL. destruct Hsh as [HR _].
      rewrite (search_live _ _ _ _ _ _ _ _ _ _ _ (DocId d) HR Hpl HL). split.
      + intros (? & ? & _ & Hall). split; [done|]. split; [done|]. intros k Hk. eapply S3; [done|auto].
      + intros (? & ? & Hall). split; [done|]. split; [done|]. split; [apply S1; by exists d|].
        intros k Hk. eapply S3; [done|auto].
    - destruct Hsh as [_ Hr]. destruct (C27_lem only (rks i cs) (rkStream_engine i cs)) as (r & Hr' & _ & Hh).
      rewrite Hr in Hr'. injection Hr' as <-. specialize (Hh (DocId d)).
      unfold cs in Hh. rewrite last_call_rk in Hh by done. by destruct only.
  Qed.

  (** Two versions in two shards. *)
  Lemma C36_stays_lem o cs0 d1 f1 c1 a1 cs1 d2 f2 c2 a2 cs2 i j s0 :
    valid_sort sortDocs → Init o = Some s0 → 1 <= n < 2^32 →
    let cs := cs0 ++ EIndex d1 f1 c1 a1 true :: cs1 ++ EIndex d2 f2 c2 a2 true :: cs2 in
    Forall good_call cs → Forall forced_call cs → DocId d1 = DocId d2 →
    u32 (murmur (String.append (DocId d1) c1)) `mod` n = i →
    u32 (murmur (String.append (DocId d2) c2)) `mod` n = j → i ≠ j →
    Forall (λ c, sent_to murmur n i (DocId d1) c = false) (cs1 ++ cs2) →
    Forall (λ c, sent_to murmur n j (DocId d2) c = false) cs2 →
    ∃ sh1 sh2, shard_after murmur sortDocs o only n i cs sh1 ∧ shard_after murmur sortDocs o only n j cs sh2 ∧
      (∀ log2, serves log2 only sh1 d1 f1 c1 a1) ∧ (∀ log2, serves log2 only sh2 d2 f2 c2 a2).
  Proof.
    intros Hv Ho Hn cs Hg Hf Hid Hi Hj Hij H1 H2.
    assert (H1' : Forall (λ c, sent_to murmur n i (DocId d1) c = false) (cs1 ++ EIndex d2 f2 c2 a2 true :: cs2)).
    { apply Forall_app in H1 as [H1a H1b]. apply Forall_app. split; [done|]. constructor; [|done].
      cbn [sent_to]. rewrite Hid, seqb_refl, Hj. cbn. by apply Z.eqb_neq. }
    destruct (holds_version o i cs0 d1 f1 c1 a1 true _ s0 Hv Ho Hn Hg Hf Hi H1') as (sh1 & Hs1 & Hv1).
    assert (E : cs = (cs0 ++ EIndex d1 f1 c1 a1 true :: cs1) ++ EIndex d2 f2 c2 a2 true :: cs2).
    { unfold cs. by rewrite <- app_assoc. }
    rewrite E in Hg, Hf.
    destruct (holds_version o j _ d2 f2 c2 a2 true _ s0 Hv Ho Hn Hg Hf Hj H2) as (sh2 & Hs2 & Hv2).
    rewrite <- E in Hs2. exists sh1, sh2. done.
  Qed.

  (** * C37 *)
  Lemma removeStates_rc docs : ∀ s, removeCache (removeStates docs s) = removeCache s.
  Proof. unfold removeStates. induction docs as [|id docs IH]; intros s; [done|]. cbn [foldl]. by rewrite IH. Qed.

  Lemma forced_remove_empties id s s' b : RemoveDocToCache id true s = Some (s', b) → removeCache s' = [].
  Proof.
    unfold RemoveDocToCache. destruct (markRemove id s) as [s1|]; [|done]. rewrite bind_Some_eq.
    cbn zeta. rewrite orb_true_r, andb_true_r.
    destruct (Z.ltb_spec 0 (zlen (removeCache s1))) as [H|H].
    - unfold RemoveDocs. destruct (decide _); [|done]. rewrite bind_Some_eq. injection 1 as <- <-.
      cbn [removeCache]. by rewrite removeStates_rc.
    - injection 1 as <- <-. destruct (removeCache s1); [done|]. rewrite zlen_cons in H.
      pose proof (zlen_nonneg l). lia.
  Qed.

  Lemma C37_lem log2 o i cs id sh : id ≠ "0" → shard_after murmur sortDocs o only n i cs sh →
    ∃ sh', shard_after murmur sortDocs o only n i (cs ++ [ERemove id true]) sh' ∧
      HasDoc (shIx sh') id = false ∧ not_found log2 (shIx sh') id ∧ (∀ k, ¬ in_row (shIx sh') k id) ∧
      ranker_holds (shRk sh') id None None None.
  Proof.
    intros Hid [HR Hrk].
    destruct (remove_never_crashes sortDocs o _ _ id true HR) as [[s' b] Hrun].
    destruct (remove_hides sortDocs o _ _ log2 id true s' b HR Hid Hrun) as [Hh Hnf].
    assert (HR' : reach sortDocs o (ixs i cs ++ [OpRemove id true]) s').
    { eapply reach_step; [done|done|]. cbn. by rewrite Hrun. }
    destruct (C27_lem only (rks i (cs ++ [ERemove id true])) (rkStream_engine _ _)) as (r & Hr & _ & Hhold).
    exists (mkShard s' r). split; [|split; [done|split; [done|split]]].
    - split; [|done]. rewrite ixStream_app, ixStream_one. exact HR'.
    - intros k Hk. destruct (reach_inv _ _ _ _ HR') as (live & dying & HI & _ & _).
      destruct (inv_content _ _ _ HI) as (_ & _ & Hix & Hdom).
      cbn [shIx] in Hk. destruct (proj1 (Hix k id) Hk) as (d & Hd & _).
      destruct (Hdom id) as [Hdom1 _]. destruct Hdom1 as [H1|H1]; [by exists d| |].
      + congruence.
      + rewrite (forced_remove_empties id _ s' b Hrun) in H1. by apply elem_of_nil in H1.
    - specialize (Hhold id). rewrite rkStream_app, rkStream_one in Hhold. cbn [rkMsgs] in Hhold.
      assert (seqb id "0" = false) as E by by apply seqb_neq. rewrite E in Hhold.
      rewrite last_call_snoc in Hhold. cbn [about] in Hhold. rewrite seqb_refl in Hhold. exact Hhold.
  Qed.
End Route.
