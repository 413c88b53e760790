(** Histories made of blocks: in each block, calls on pairwise different ids in an order
    that is not known, then a forced flush. *)
From Verif Require Import ModelRoute SpecIndexer SpecRoute SpecPipe ProofTopK ProofCache ProofHistory ProofIxThms ProofIxMap ProofRoute.

(** Phases with calls that index documents under "0" as well *)
Definition loose_call (c : ecall) : Prop := not_zero c = true → write_call c.
Definition loose_phase (ph : list ecall) : Prop := Forall loose_call ph ∧ NoDup (omap call_id (ordinary ph)).
Lemma not_zero_inv c : not_zero c = false → ∃ d f ct a fo, c = EIndex d f ct a fo ∧ DocId d = "0".
Proof. destruct c as [d f ct a fo|id fo|]; cbn; [|done..]. destruct (string_dec _ _); [|done]. intros _. by exists d, f, ct, a, fo. Qed.
Lemma not_zero_id d f ct a fo : not_zero (EIndex d f ct a fo) = negb (seqb (DocId d) "0").
Proof.
  cbn. destruct (string_dec _ _) as [->|H]; [done|]. assert (seqb (DocId d) "0" = false) as -> by by apply seqb_neq. done.
Qed.
Lemma ordinary_cons c cs : ordinary (c :: cs) = if not_zero c then c :: ordinary cs else ordinary cs.
Proof. unfold ordinary. rewrite filter_cons. by destruct (not_zero c). Qed.
Lemma ordinary_app cs1 cs2 : ordinary (cs1 ++ cs2) = ordinary cs1 ++ ordinary cs2.
Proof. apply filter_app. Qed.
Lemma loose_iff ph : loose_phase ph ↔ good_phase (ordinary ph).
Proof.
  unfold loose_phase, good_phase. assert (E : Forall loose_call ph ↔ Forall write_call (ordinary ph)); [|by rewrite E].
  induction ph as [|c ph IH]; [split; constructor|]. rewrite ordinary_cons, Forall_cons, IH. unfold loose_call.
  destruct (not_zero c); [rewrite Forall_cons; naive_solver|naive_solver].
Qed.
Lemma writes_ordinary cs : Forall write_call cs → ordinary cs = cs.
Proof.
  induction 1 as [|c cs H _ IH]; [done|]. rewrite ordinary_cons, IH.
  destruct c as [d f ct a fo|id fo|]; [|done..]. destruct H as [_ H]. rewrite not_zero_id. by rewrite (proj2 (seqb_neq _ _) H).
Qed.
Lemma writes_loose cs : Forall write_call cs → Forall loose_call cs.
Proof. intros H. eapply Forall_impl; [exact H|]. by intros c Hc _. Qed.
Lemma goods_loose phs : Forall good_phase phs → Forall loose_phase phs.
Proof. intros H. eapply Forall_impl; [exact H|]. intros ph [Hp ?]. apply loose_iff. rewrite writes_ordinary; done. Qed.

Section Blocks.
  Context (murmur : string → Z) (n : Z) (sortDocs : list DocIndex → list DocIndex).
  Hypothesis Hn : 1 <= n < 2^32.
  Hypothesis Hsort : valid_sort sortDocs.
  Notation ixs := (ixStream murmur n).

  Inductive blocks (i : Z) : list (list ecall) → list op → Prop :=
    | blocks_nil : blocks i [] []
    | blocks_snoc phs ops ph l : blocks i phs ops → l ++ [OpAdd None true] ≡ₚ ixs i (ph ++ [EFlush]) →
        blocks i (phs ++ [ph]) (ops ++ l ++ [OpAdd None true]).

  (** ** Calls of one phase *)
  Definition ord_op (o : op) : Prop :=
    match o with
    | OpAdd (Some d) _ => good_doc d ∧ DocId d ≠ "0"
    | OpAdd None f => f = true
    | OpRemove id _ => id ≠ "0"
    end.
  Lemma ixs_ord i st : Forall loose_call st → Forall ord_op (ixs i st).
  Proof.
    intros H. unfold ixStream. apply Forall_join, Forall_fmap. eapply Forall_impl; [exact H|].
    intros c Hc. unfold loose_call in Hc. destruct c as [d f ct a fo|id fo|]; cbn in *; [|apply Forall_singleton; by apply Hc|by destruct Hc].
    destruct (seqb _ _) eqn:E0; [destruct fo; by repeat constructor|]. apply seqb_neq in E0.
    destruct (_ =? _); [apply Forall_singleton; apply Hc; by destruct (string_dec _ _)|]. destruct fo; by repeat constructor.
  Qed.
  Lemma ixs_ord_flush i st : Forall loose_call st → Forall ord_op (ixs i (st ++ [EFlush])).
  Proof. intros H. rewrite ixStream_app. apply Forall_app. split; [by apply ixs_ord|by repeat constructor]. Qed.
  Lemma ord_good l : Forall ord_op l → Forall good_op l.
  Proof. intros H. eapply Forall_impl; [exact H|]. by intros [[d|] f|id f]; cbn; [intros []| |]. Qed.
  Lemma ord_not0 l : Forall ord_op l → "0" ∉ omap op_id l.
  Proof.
    intros H. rewrite elem_of_list_omap. intros (o & Ho & E). rewrite Forall_forall in H. specialize (H o Ho).
    destruct o as [[d|] f|id f]; cbn in *; naive_solver.
  Qed.
  Lemma ixs_ids i st : Forall loose_call st → sublist (omap op_id (ixs i st)) (omap call_id (ordinary st)).
  Proof.
    induction 1 as [|c st Hc Hst IH]; [done|].
    change (ixs i (c :: st)) with (ixMsgs murmur n i c ++ ixs i st). rewrite omap_app, ordinary_cons.
    destruct c as [d f ct a fo|id fo|]; [|by apply sublist_skip|by destruct Hc].
    rewrite not_zero_id. cbn.
    destruct (seqb _ _); cbn; [destruct fo; by cbn|].
    destruct (_ =? _); [by apply sublist_skip|]. destruct fo; by apply sublist_cons.
  Qed.
  Lemma sublist_nodup {B} (l1 l2 : list B) : sublist l1 l2 → NoDup l2 → NoDup l1.
  Proof.
    intros H Hnd. apply sublist_submseteq, submseteq_Permutation in H as [k Hk]. rewrite Hk in Hnd.
    by apply NoDup_app in Hnd as [? _].
  Qed.
  Lemma ixs_nodup i st : Forall loose_call st → NoDup (omap call_id (ordinary st)) → NoDup (omap op_id (ixs i st)).
  Proof. intros H. by apply sublist_nodup, ixs_ids. Qed.
  Lemma ixs_nodup_flush i st : Forall loose_call st → NoDup (omap call_id (ordinary st)) → NoDup (omap op_id (ixs i (st ++ [EFlush]))).
  Proof. intros. rewrite ixStream_app, omap_app. cbn. rewrite app_nil_r. by apply ixs_nodup. Qed.

  (** ** No crash *)
  Lemma no_conflict_app l1 l2 s : no_conflict sortDocs l1 s →
    (∀ s', run sortDocs l1 s = Some s' → no_conflict sortDocs l2 s') → no_conflict sortDocs (l1 ++ l2) s.
  Proof.
    revert s. induction l1 as [|o l1 IH]; intros s H1 H2; [by apply H2|]. cbn in *. destruct H1 as [Ho H1].
    split; [done|]. intros s' Hs'. apply IH; [by apply H1|]. intros s'' Hs''. apply H2.
    unfold run in *. cbn. by rewrite Hs'.
  Qed.

  Lemma block_nc i st l rest s live dying : Forall loose_call st → NoDup (omap call_id (ordinary st)) →
    l ++ rest ≡ₚ ixs i st ∨ l ++ rest ≡ₚ ixs i (st ++ [EFlush]) → Inv s live dying → addCache s = [] →
    Forall good_op l ∧ no_conflict sortDocs l s.
  Proof.
    intros Hst Hnd Hp HI Hc.
    assert (Ho : Forall ord_op (l ++ rest)).
    { destruct Hp as [-> | ->]; [by apply ixs_ord|by apply ixs_ord_flush]. }
    assert (Hd : NoDup (omap op_id (l ++ rest))).
    { destruct Hp as [-> | ->]; [by apply ixs_nodup|by apply ixs_nodup_flush]. }
    apply Forall_app in Ho as [Ho _]. rewrite omap_app in Hd. apply NoDup_app in Hd as [Hd _].
    split; [by apply ord_good|]. eapply distinct_no_conflict; try done; [by apply ord_good|by apply ord_not0|].
    intros id _. unfold waits. rewrite Hc. by intros ?%elem_of_nil.
  Qed.

  Lemma mapStep_perm l1 l2 M : l1 ≡ₚ l2 → NoDup (omap op_id l1) → foldl mapStep M l1 = foldl mapStep M l2.
  Proof.
    intros H. revert M. induction H as [|o l1 l2 H IH|o1 o2 l|l1 l2 l3 H12 IH1 H23 IH2]; intros M Hnd; [done|..].
    - cbn. apply IH. cbn in Hnd. destruct (op_id o); [by apply NoDup_cons in Hnd as [_ Hnd]|done].
    - cbn. f_equal.
      destruct o1 as [[d1|] f1|i1 f1], o2 as [[d2|] f2|i2 f2]; cbn in *; try done;
        apply NoDup_cons in Hnd as [Hne _]; apply not_elem_of_cons in Hne as [Hne _].
      + by apply insert_commute.
      + symmetry. by apply delete_insert_ne.
      + by apply delete_insert_ne.
      + apply delete_commute.
    - rewrite IH1 by done. apply IH2. by rewrite <- H12.
  Qed.

  Lemma program_snoc phs ph : program (phs ++ [ph]) = program phs ++ ph ++ [EFlush].
  Proof. unfold program. rewrite fmap_app, join_app. cbn. by rewrite app_nil_r. Qed.

  Lemma blocks_run o s0 i phs ops : Init o = Some s0 → blocks i phs ops → Forall loose_phase phs →
    Forall good_op ops ∧ no_conflict sortDocs ops s0 ∧ mapOf ops = mapOf (ixs i (program phs)) ∧
    ∃ s, run sortDocs ops s0 = Some s ∧ shows s (mapOf ops) ∧ clean s (mapOf ops) ∧ addCache s = [] ∧ removeCache s = [].
  Proof.
    intros Hi HB. induction HB as [|phs ops ph l HB IH Hl]; intros HF.
    - split; [done|]. split; [done|]. split; [done|]. exists s0. destruct (Init_inv o s0 Hi) as [HI Hc].
      split; [done|]. split; [by eapply inv_shows|]. split; [by eapply inv_clean|]. split; [done|]. by eapply inv_rc_empty.
    - apply Forall_app in HF as [HF [Hst Hnd]%Forall_singleton].
      destruct (IH HF) as (Hg & Hnc & HM & s & Hrun & Hsh & Hcl & Hac & Hrc).
      destruct (reach_inv sortDocs o ops s) as (live & dying & HI & _); [split; [done|]; split; [done|]; by exists s0|].
      destruct (block_nc i ph l [OpAdd None true] s live dying) as [Hgl Hncl]; try done; [by right|].
      assert (HG : Forall good_op (ops ++ l)) by by apply Forall_app.
      assert (HN : no_conflict sortDocs (ops ++ l) s0).
      { apply no_conflict_app; [done|]. intros s' Hs'. congruence. }
      split; [rewrite app_assoc; apply Forall_app; split; [done|by repeat constructor]|].
      split; [rewrite app_assoc; apply no_conflict_app; [done|by cbn]|].
      split.
      { rewrite program_snoc, ixStream_app, !mapOf_app, HM. rewrite <- mapOf_app.
        rewrite mapOf_app. apply mapStep_perm; [done|]. rewrite Hl. by apply ixs_nodup_flush. }
      destruct (batching_transparent sortDocs o s0 (ops ++ l)) as (s' & Hrun' & Hsh' & Hcl' & Hac' & Hrc'); try done.
      exists s'. rewrite <- app_assoc in Hrun'. split; [done|].
      replace (mapOf (ops ++ l ++ [OpAdd None true])) with (mapOf (ops ++ l)); [done|].
      rewrite app_assoc, (mapOf_app (ops ++ l)). done.
  Qed.

  Lemma blocks_prefix o s0 i phs ops st l rest : Init o = Some s0 → blocks i phs ops → Forall loose_phase phs →
    Forall loose_call st → NoDup (omap call_id (ordinary st)) →
    l ++ rest ≡ₚ ixs i st ∨ l ++ rest ≡ₚ ixs i (st ++ [EFlush]) → is_Some (run sortDocs (ops ++ l) s0).
  Proof.
    intros Hi HB HF Hst Hnd Hp. destruct (blocks_run o s0 i phs ops Hi HB HF) as (Hg & Hnc & _ & s & Hrun & _ & _ & Hac & _).
    destruct (reach_inv sortDocs o ops s) as (live & dying & HI & _); [split; [done|]; split; [done|]; by exists s0|].
    destruct (block_nc i st l rest s live dying) as [Hgl Hncl]; try done.
    destruct (batching_transparent sortDocs o s0 (ops ++ l)) as (s' & Hrun' & _); try done.
    - by apply Forall_app.
    - apply no_conflict_app; [done|]. intros s' Hs'. congruence.
    - rewrite run_app in Hrun'. by apply bind_Some in Hrun' as (s1 & ? & _).
  Qed.

  (** Calls that index a document under "0" leave no trace in the indexers. *)
  Lemma mapOf_ordinary i cs : mapOf (ixs i cs) = mapOf (ixs i (ordinary cs)).
  Proof.
    unfold mapOf. generalize (∅ : gmap string DocIndex).
    induction cs as [|c cs IH]; intros M; [done|]. change (ixs i (c :: cs)) with (ixMsgs murmur n i c ++ ixs i cs).
    rewrite foldl_app, ordinary_cons. destruct (not_zero c) eqn:Hc.
    - change (ixs i (c :: ordinary cs)) with (ixMsgs murmur n i c ++ ixs i (ordinary cs)). rewrite foldl_app. apply IH.
    - rewrite IH. f_equal. apply not_zero_inv in Hc as (d & f & ct & a & fo & -> & Hd). cbn. rewrite Hd. by destruct fo.
  Qed.
  Definition ord_call (c : ecall) : Prop := match c with EIndex d _ _ _ _ => DocId d ≠ "0" | _ => True end.
  Lemma mapOf_version' i cs id : Forall ord_call cs → mapOf (ixs i cs) !! id = version murmur n i cs id.
  Proof.
    induction cs as [|c cs IH] using rev_ind; intros Hf; [done|].
    apply Forall_app in Hf as [Hf Hc]. apply Forall_cons in Hc as [Hc _].
    rewrite version_snoc, ixStream_app, ixStream_one, mapOf_app. specialize (IH Hf).
    destruct c as [d f ct a fo|id' fo|]; cbn in Hc |- *.
    - assert (seqb (DocId d) "0" = false) as -> by by apply seqb_neq.
      destruct (seqb (DocId d) id) eqn:E1.
      + apply seqb_eq in E1. subst id. rewrite <- shardOf_mod by done.
        destruct (shardOf murmur n (DocId d) ct =? i); cbn; [by rewrite lookup_insert|by destruct fo].
      + apply seqb_neq in E1. destruct (shardOf murmur n (DocId d) ct =? i); cbn; [|by destruct fo].
        by rewrite lookup_insert_ne.
    - destruct (seqb id' id) eqn:E1.
      + apply seqb_eq in E1. subst id'. by rewrite lookup_delete.
      + apply seqb_neq in E1. by rewrite lookup_delete_ne.
    - done.
  Qed.
  Lemma program_ord phs : Forall good_phase phs → Forall ord_call (program phs).
  Proof.
    intros H. unfold program. apply Forall_join, Forall_fmap. eapply Forall_impl; [exact H|].
    intros ph [Hw _]. cbn. apply Forall_app. split; [|by repeat constructor]. eapply Forall_impl; [exact Hw|].
    intros c Hc. destruct c; [by destruct Hc|done..].
  Qed.
End Blocks.
