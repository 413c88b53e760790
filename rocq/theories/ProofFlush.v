(** Flush: what holds in every execution with one client. *)
From Verif Require Import ModelPipe SpecIndexer SpecRoute SpecPipe ProofTopK ProofRoute ProofPipe ProofBlocks.

Section Flush.
  Context (murmur : string → Z) (n : Z) (only reqsFirst : bool) (cap : chan → nat).
  Notation callA := (callActs n reqsFirst).
  Notation hand := (handler murmur n only).
  Notation pst := (pstep murmur n only reqsFirst cap).
  Notation pSt := (procStep murmur n only reqsFirst cap).
  Notation loop1 := (flushLoop1 reqsFirst).
  Notation evsA := (evsA murmur n only).
  Notation evsM := (evsM murmur n only).
  Notation evsN := (evsN murmur n only).
  Notation evsC := (evsC murmur n only reqsFirst).
  Notation todo := (todo murmur n only).
  Notation reachp nseg progs := (pipe_reach murmur n only reqsFirst cap nseg progs).
  Hypothesis Hn : 1 <= n < 2^32.

  (** ** One step *)
  Lemma pstep_todo k s s' : pst k s = Some s' →
    (∃ p d, sProcs s !! k = Some p ∧ (pActs p ≠ [] ∨ pChan p ≠ None) ∧ sLog s' = sLog s ++ d ∧ d ++ todo s' ≡ₚ todo s) ∨
    (∃ p c, sProcs s !! k = Some p ∧ pChan p = None ∧ pActs p = [] ∧ head (pCalls p) = Some c ∧
       sLog s' = sLog s ∧ todo s' ≡ₚ todo s ++ evsA (callA c)).
  Proof.
    intros (p & p' & net' & log' & Hp & Hs & ->)%pstep_inv. unfold todo, ProofPipe.todo, evsP. cbn.
    destruct (procs_insert (evsA ∘ pActs) (sProcs s) k p p' Hp) as (rest & H1 & H2).
    destruct (procStep_perm _ _ _ _ _ _ _ _ _ _ _ Hs) as (_ & [d Hd] & [(Hne & Hc & H)|[(ch & m & Hch & Ha & Ht & -> & ->)|(c & Hch & Ha & Hc & Hp' & -> & ->)]]).
    - left. exists p, d. split; [done|]. split; [by left|]. split; [done|]. rewrite H1, H2. subst log'. cbn.
      rewrite <- app_assoc in H. apply Permutation_app_inv_l in H.
      transitivity ((d ++ evsA (pActs p') ++ evsN net') ++ rest); [solve_Permutation|]. rewrite H. solve_Permutation.
    - left. exists p, []. split; [done|]. split; [right; by rewrite Hch|]. split; [by rewrite app_nil_r|]. rewrite H1, H2. cbn. rewrite Ha.
      rewrite (evsN_perm _ _ _ _ _ (takeFirst_perm _ _ _ _ Ht)).
      change (evsN ((ch, m) :: net')) with (evsM m ++ evsN net'). rewrite evsM_hand.
      change (evsA []) with (@nil event). solve_Permutation.
    - right. exists p, c. rewrite H1, H2, Hp'. cbn. rewrite Ha, Hc. change (evsA []) with (@nil event). cbn.
      repeat split; try done. solve_Permutation.
  Qed.

  (** ** Indexer calls among the events *)
  Lemma ixCalls_app i l1 l2 : ixCalls i (l1 ++ l2) = ixCalls i l1 ++ ixCalls i l2.
  Proof. unfold ixCalls. by rewrite omap_app. Qed.
  Lemma ixCalls_perm i l1 l2 : l1 ≡ₚ l2 → ixCalls i l1 ≡ₚ ixCalls i l2.
  Proof. intros H. unfold ixCalls. by rewrite H. Qed.
  Lemma ixCalls_join {B} (f : B → list event) i l : ixCalls i (mjoin (f <$> l)) = mjoin ((λ x, ixCalls i (f x)) <$> l).
  Proof. induction l as [|x l IH]; [done|]. rewrite !fmap_cons, !mjoin_cons, ixCalls_app. by rewrite IH. Qed.
  Lemma ixCalls_A i l : ixCalls i (evsA l) = mjoin ((λ a, ixCalls i (evs murmur n only a)) <$> l).
  Proof. unfold ProofPipe.evsA. by rewrite ixCalls_join. Qed.

  Lemma ixCalls_add i j d f : ixCalls i (evsM (MAdd j d f)) = if j =? i then [OpAdd d f] else [].
  Proof. rewrite evsM_hand. cbn. by destruct (j =? i), d, f. Qed.
  Lemma ixCalls_rem i j id f : ixCalls i (evsM (MRem j id f)) = if j =? i then [OpRemove id f] else [].
  Proof. rewrite evsM_hand. cbn. by destruct (j =? i), (seqb id "0"), f. Qed.
  Lemma ixCalls_rank i j o : ixCalls i (evsM (MRank j o)) = [].
  Proof. by rewrite evsM_hand. Qed.

  Lemma join_none {B} (f : Z → list B) l : (∀ j, j ∈ l → f j = []) → mjoin (f <$> l) = [].
  Proof.
    induction l as [|j l IH]; intros H; [done|]. rewrite fmap_cons, mjoin_cons, IH, H; [done|set_solver..].
  Qed.
  Lemma join_one {B} (f : Z → list B) l i : NoDup l → i ∈ l → (∀ j, j ∈ l → j ≠ i → f j = []) → mjoin (f <$> l) = f i.
  Proof.
    induction l as [|j l IH]; intros Hnd Hi H; [by apply elem_of_nil in Hi|].
    rewrite fmap_cons, mjoin_cons. apply NoDup_cons in Hnd as [Hj Hnd]. apply elem_of_cons in Hi as [<-|Hi].
    - rewrite join_none, app_nil_r; [done|]. intros j' Hj'. apply H; set_solver.
    - rewrite H, IH; [done|done|done|set_solver|set_solver|set_solver].
  Qed.

  Lemma ixCalls_seg i d f ct a fo : 0 <= i < n →
    ixCalls i (evsM (MSeg (EIndex d f ct a fo))) = ixMsgs murmur n i (EIndex d f ct a fo).
  Proof.
    intros Hi. rewrite evsM_hand, ixCalls_A. cbn [handler segActs ixMsgs].
    assert (Hin : i ∈ shards n) by (apply elem_of_seqZ; lia).
    assert (Hnd : NoDup (shards n)) by apply NoDup_seqZ.
    destruct (seqb (DocId d) "0").
    - destruct fo; [|done]. rewrite <- list_fmap_compose. cbn -[ProofPipe.evsM ixCalls].
      rewrite (join_one _ _ i Hnd Hin); cbn -[ProofPipe.evsM ixCalls]; [rewrite ixCalls_add, Z.eqb_refl; done|].
      intros j _ Hj. rewrite ixCalls_add. by rewrite (proj2 (Z.eqb_neq j i)).
    - rewrite !fmap_app, !join_app. cbn -[ProofPipe.evsM ixCalls]. rewrite ixCalls_add, ixCalls_rank, !app_nil_r.
      destruct (Z.eqb_spec (shardOf murmur n (DocId d) ct) i) as [E|E].
      + destruct fo; [|done]. rewrite <- list_fmap_compose. rewrite join_none; [done|].
        intros j Hj. cbn -[ProofPipe.evsM ixCalls]. rewrite ixCalls_add, (proj2 (Z.eqb_neq j i)); [done|].
        apply elem_of_list_filter in Hj as [? _]. congruence.
      + destruct fo; [|done]. cbn [app]. rewrite <- list_fmap_compose. rewrite (join_one _ _ i).
        * cbn -[ProofPipe.evsM ixCalls]. by rewrite ixCalls_add, Z.eqb_refl.
        * by apply NoDup_filter.
        * apply elem_of_list_filter. done.
        * intros j _ Hj. cbn -[ProofPipe.evsM ixCalls]. rewrite ixCalls_add. by rewrite (proj2 (Z.eqb_neq j i)).
  Qed.

  Lemma ixCalls_incs i id f c : ixCalls i (evsA (incs id f c)) = [].
  Proof. unfold incs. by destruct (seqb id "0"), f. Qed.

  Lemma ixCalls_call i c : 0 <= i < n → ixCalls i (evsA (callA c)) = ixMsgs murmur n i c.
  Proof.
    intros Hi. destruct c as [d f ct a fo|id fo|]; cbn [callActs].
    - unfold indexActs. rewrite evsA_app, ixCalls_app, ixCalls_incs. cbn [app].
      change (evsA [ASend CSeg ?m]) with (evsM m ++ []) || idtac.
      rewrite <- (ixCalls_seg i d f ct a fo) by done. cbn -[ProofPipe.evsM ixCalls]. by rewrite app_nil_r.
    - rewrite evsA_app, ixCalls_app, ixCalls_incs. cbn [app]. rewrite ixCalls_A.
      assert (H : ∀ l, NoDup l → mjoin ((λ a, ixCalls i (evs murmur n only a)) <$> mjoin ((λ i, ASend (CIxRem i) (MRem i id fo) ::
                   (if seqb id "0" then [] else [ASend (CRkRem i) (MRank i (RORemove id))])) <$> l)) =
                 if decide (i ∈ l) then [OpRemove id fo] else []).
      { intros l. induction l as [|j l IH]; intros Hnd; [by rewrite decide_False by apply not_elem_of_nil|].
        apply NoDup_cons in Hnd as [Hj Hnd]. rewrite fmap_cons, mjoin_cons, fmap_app, join_app, (IH Hnd).
        assert (H0 : mjoin ((λ a, ixCalls i (evs murmur n only a)) <$> (ASend (CIxRem j) (MRem j id fo) ::
                   (if seqb id "0" then [] else [ASend (CRkRem j) (MRank j (RORemove id))]))) = if j =? i then [OpRemove id fo] else []).
        { rewrite fmap_cons, mjoin_cons. cbn -[ProofPipe.evsM ixCalls]. rewrite ixCalls_rem.
          destruct (seqb id "0"); cbn -[ProofPipe.evsM ixCalls]; rewrite ?ixCalls_rank; by rewrite app_nil_r. }
        rewrite H0. destruct (Z.eqb_spec j i) as [->|Hne].
        - rewrite (decide_False (P:=i ∈ l)), decide_True; [done|left|done].
        - cbn [app]. destruct (decide (i ∈ l)).
          + rewrite decide_True; [done|by right].
          + rewrite decide_False; [done|]. intros [?|?]%elem_of_cons; congruence. }
      rewrite H by apply NoDup_seqZ. rewrite decide_True; [done|]. apply elem_of_seqZ. lia.
    - rewrite !evsA_app, evsA_loop1, evsA_loop2, app_nil_r. cbn [app]. unfold indexActs.
      rewrite evsA_app, ixCalls_app, ixCalls_incs. cbn [app].
      pose proof (ixCalls_seg i (mkDoc "0" f_zero []) INil "" INil true Hi) as H.
      cbn -[ProofPipe.evsM ixCalls] in *. rewrite app_nil_r. exact H.
  Qed.
  Lemma ixCalls_calls i cs : 0 <= i < n → ixCalls i (evsC cs) = ixStream murmur n i cs.
  Proof.
    intros Hi. unfold ProofPipe.evsC, ixStream. rewrite ixCalls_join. f_equal. apply list_fmap_ext.
    intros _ c _. by apply ixCalls_call.
  Qed.

  (** ** A document or forced call comes with its counter *)
  Definition opOf (pr : pair) (e : event) : bool :=
    match pr, e with
    | PDocs, EvIx _ (OpAdd (Some _) _) => true
    | PRems, EvIx _ (OpRemove id _) => negb (seqb id "0")
    | PForced, EvIx _ (OpAdd _ true) | PForced, EvIx _ (OpRemove _ true) => true
    | _, _ => false
    end.
  Definition paired (l : list event) : Prop := ∀ pr e, e ∈ l → opOf pr e = true → EvInc (pFin pr) ∈ l.
  Lemma paired_app l1 l2 : paired l1 → paired l2 → paired (l1 ++ l2).
  Proof. intros H1 H2 pr e. rewrite !elem_of_app. intros [H|H] He; [left; by eapply H1|right; by eapply H2]. Qed.
  Lemma paired_nil : paired [].
  Proof. by intros pr e ?%elem_of_nil. Qed.
  Lemma paired_join {B} (f : B → list event) l : Forall (λ x, paired (f x)) l → paired (mjoin (f <$> l)).
  Proof. induction 1 as [|x l Hx Hl IH]; [apply paired_nil|]. rewrite fmap_cons, mjoin_cons. by apply paired_app. Qed.
  Lemma paired_inc c : paired [EvInc c].
  Proof. intros pr e ->%elem_of_list_singleton. by destruct pr. Qed.
  Lemma paired_perm l1 l2 : l1 ≡ₚ l2 → paired l1 → paired l2.
  Proof. intros H H1 pr e. rewrite <- !H. apply H1. Qed.
  Lemma paired_leaf m : is_seg m = false → paired (evsM m).
  Proof.
    intros H pr. rewrite evsM_hand. destruct m as [c|i [d|] f|i id f|i o]; [done|..]; cbn;
      try destruct f; try destruct (seqb id "0") eqn:E; cbn; intros e; rewrite ?elem_of_cons, ?elem_of_nil; intros He Hop;
      destruct pr; cbn; try tauto; exfalso; repeat destruct He as [->|He]; cbn in Hop; try done; by rewrite E in Hop.
  Qed.
  Lemma paired_M m : paired (evsM m).
  Proof.
    destruct (is_seg m) eqn:Hs; [|by apply paired_leaf]. rewrite evsM_hand. unfold ProofPipe.evsA. apply paired_join.
    apply Forall_forall. intros a Ha. destruct a as [e|ch m'| | | | |]; try apply paired_nil.
    - destruct m as [c| | |]; try done. cbn in Ha. unfold segActs in Ha.
      destruct c as [d f ct a fo|id fo|]; [|by apply elem_of_nil in Ha..].
      destruct (seqb (DocId d) "0"), fo; rewrite ?elem_of_app, ?elem_of_list_singleton, ?elem_of_list_fmap, ?elem_of_nil in Ha; naive_solver.
    - cbn [evs]. apply paired_leaf. by destruct (hand_sends _ _ _ _ _ _ Ha).
  Qed.
  Definition pairedT (l : list act) : Prop := ∀ l1 l2, l = l1 ++ l2 → paired (evsA l2).
  Lemma pairedT_all l : Forall (λ a, paired (evs murmur n only a)) l → pairedT l.
  Proof. intros H l1 l2 ->. apply Forall_app in H as [_ H]. by apply paired_join. Qed.
  Lemma pairedT_cons a l : paired (evsA (a :: l)) → pairedT l → pairedT (a :: l).
  Proof. intros H1 H2 [|b l1] l2 E; cbn in E; [by subst l2|]. injection E as -> ->. by eapply H2. Qed.
  Lemma pairedT_closed : acts_closed murmur n only reqsFirst pairedT.
  Proof.
    refine (conj _ (conj _ (conj _ (conj _ _)))).
    - intros l1 l2 E. symmetry in E. apply app_eq_nil in E as [-> ->]. apply paired_nil.
    - intros a l H l1 l2 ->. by apply (H (a :: l1)).
    - intros m. destruct (is_seg m) eqn:Hs.
      + apply pairedT_all, Forall_forall. intros a Ha. destruct a as [e|ch m'| | | | |]; try apply paired_nil.
        * destruct m as [c| | |]; try done. cbn in Ha. unfold segActs in Ha.
          destruct c as [d f ct a fo|id fo|]; [|by apply elem_of_nil in Ha..].
          destruct (seqb (DocId d) "0"), fo; rewrite ?elem_of_app, ?elem_of_list_singleton, ?elem_of_list_fmap, ?elem_of_nil in Ha; naive_solver.
        * apply paired_M.
      + pose proof (paired_M m) as HM. rewrite evsM_hand in HM.
        destruct m as [c|i d f|i id f|i o]; [done|..]; cbn [handler app] in *; apply pairedT_cons; try done;
          apply pairedT_all; try (destruct d); try (destruct f); try (destruct (seqb id "0")); cbn [app];
          repeat (apply Forall_cons; split; [apply paired_inc|]); apply Forall_nil; done.
    - intros c. apply pairedT_all, Forall_forall. intros a Ha.
      destruct a as [e|ch m'| | | | |]; try apply paired_nil; [|apply paired_M].
      assert (∃ c, e = EvInc c) as [c' ->]; [|apply paired_inc].
      assert (Hincs : ∀ id f k, ADo e ∈ incs id f k → ∃ c, e = EvInc c).
      { intros id f k. unfold incs. destruct (seqb id "0"), f; cbn; rewrite ?elem_of_cons, ?elem_of_nil; naive_solver. }
      destruct c as [d f ct a fo|id fo|]; cbn [callActs] in Ha; unfold indexActs in Ha.
      + apply elem_of_app in Ha as [Ha|Ha]; [by eapply Hincs|set_solver].
      + apply elem_of_app in Ha as [Ha|Ha]; [by eapply Hincs|].
        apply elem_of_list_join in Ha as (l & Hl & (i & -> & _)%elem_of_list_fmap).
        apply elem_of_cons in Hl as [?|Hl]; [done|]. destruct (seqb id "0"); set_solver.
      + rewrite !elem_of_app in Ha. destruct Ha as [Ha|[[Ha|Ha]|Ha]].
        * pose proof (idle_loop1 reqsFirst) as Hi. rewrite Forall_forall in Hi. by apply Hi in Ha.
        * by eapply Hincs.
        * set_solver.
        * pose proof idle_loop2 as Hi. rewrite Forall_forall in Hi. by apply Hi in Ha.
    - intros l1 l2 Hi H2 l3 l4 E. apply app_eq_inv in E as [(l & -> & ->)|(l & -> & ->)]; [|by eapply H2].
      apply Forall_app in Hi as [_ Hi].
      assert (E : evsA (l ++ l2) = evsA l2); [|rewrite E; by apply (H2 [])].
      rewrite evsA_app. clear -Hi. induction Hi as [|a l Ha Hl IH]; [done|]. rewrite evsA_cons. by destruct a.
  Qed.
  Lemma todo_paired nseg progs s : reachp nseg progs s → paired (todo s).
  Proof.
    intros H. pose proof (reach_acts _ _ _ _ _ _ _ _ _ pairedT_closed H) as HF.
    apply paired_app; apply paired_join.
    - eapply Forall_impl; [exact HF|]. intros p Hp. by apply (Hp []).
    - apply Forall_true. intros [ch m]. apply paired_M.
  Qed.

  (** ** Equal counters mean that nothing is outstanding *)
  Notation wt pr := (W (weight (pReq pr) (pFin pr) (pK n pr))).
  Lemma wt_todo pr nseg progs s : reachp nseg progs s → wt pr (sLog s) + wt pr (todo s) = 0.
  Proof.
    intros H. pose proof (reach_all _ _ _ _ _ _ _ _ H) as Hp. apply (W_perm (weight (pReq pr) (pFin pr) (pK n pr))) in Hp.
    rewrite wt_calls, W_app in Hp by done. unfold todo, evsP. unfold evsAll in Hp. rewrite W_app, W_join in *.
    rewrite (zsum_ext _ (W (weight (pReq pr) (pFin pr) (pK n pr)) ∘ (evsA ∘ pActs))) in Hp; [lia|].
    intros p _. change (wt pr (evsA (pActs p) ++ evsC (pCalls p)) = wt pr (evsA (pActs p))).
    rewrite W_app, wt_calls by done. lia.
  Qed.
  Lemma W_pos pr l : EvInc (pReq pr) ∉ l → 0 <= wt pr l ∧ (EvInc (pFin pr) ∈ l → 1 <= wt pr l).
  Proof.
    unfold W. induction l as [|e l IH]; intros H; [cbn; split; [lia|by intros ?%elem_of_nil]|].
    apply not_elem_of_cons in H as [He Hl]. destruct (IH Hl) as [H1 H2].
    rewrite fmap_cons. change (zsum (?x :: ?y)) with (x + zsum y).
    destruct e as [c| |]; cbn [weight]; [|split; [lia|intros [?|?]%elem_of_cons; [done|]; specialize (H2 ltac:(done)); lia]..].
    rewrite (decide_False (P:=c = pReq pr)) by congruence.
    case_decide as E; [split; intros; lia|]. split; [lia|].
    intros [?|?]%elem_of_cons; [congruence|]. specialize (H2 ltac:(done)). lia.
  Qed.
  Lemma eq_drained pr nseg progs s : reachp nseg progs s → EvInc (pReq pr) ∉ todo s →
    pK n pr * value (sLog s) (pReq pr) <= value (sLog s) (pFin pr) → EvInc (pFin pr) ∉ todo s.
  Proof.
    intros H Hr Hv Hin. pose proof (wt_todo pr _ _ _ H) as H0. rewrite W_log in H0.
    destruct (W_pos pr _ Hr) as [_ H1]. specialize (H1 Hin). lia.
  Qed.

  (** ** Workers do not count requests *)
  Definition noreq (l : list event) : Prop := ∀ c, EvInc c ∈ l → is_req c = false.
  Lemma noreq_app l1 l2 : noreq (l1 ++ l2) ↔ noreq l1 ∧ noreq l2.
  Proof. unfold noreq. setoid_rewrite elem_of_app. naive_solver. Qed.
  Lemma noreq_nil : noreq [].
  Proof. by intros c ?%elem_of_nil. Qed.
  Lemma noreq_join {B} (f : B → list event) l : Forall (λ x, noreq (f x)) l → noreq (mjoin (f <$> l)).
  Proof. induction 1 as [|x l Hx Hl IH]; [apply noreq_nil|]. rewrite fmap_cons, mjoin_cons. by apply noreq_app. Qed.
  Lemma noreq_leaf m : is_seg m = false → noreq (evsM m).
  Proof.
    intros H. rewrite evsM_hand. destruct m as [c|i [d|] f|i id f|i o]; [done|..]; cbn;
      try destruct f; try destruct (seqb id "0"); cbn; intros e; rewrite ?elem_of_cons, ?elem_of_nil; naive_solver.
  Qed.
  Lemma noreq_M m : noreq (evsM m).
  Proof.
    destruct (is_seg m) eqn:Hs; [|by apply noreq_leaf]. rewrite evsM_hand. unfold ProofPipe.evsA. apply noreq_join.
    apply Forall_forall. intros a Ha. destruct a as [e|ch m'| | | | |]; try apply noreq_nil.
    - destruct m as [c| | |]; try done. cbn in Ha. unfold segActs in Ha.
      destruct c as [d f ct a fo|id fo|]; [|by apply elem_of_nil in Ha..].
      destruct (seqb (DocId d) "0"), fo; rewrite ?elem_of_app, ?elem_of_list_singleton, ?elem_of_list_fmap, ?elem_of_nil in Ha; naive_solver.
    - cbn [evs]. apply noreq_leaf. by destruct (hand_sends _ _ _ _ _ _ Ha).
  Qed.
  (** A worker, or a client that has ended *)
  Definition isW (w : proc) : Prop := (is_Some (pChan w) ∨ pActs w = []) ∧ pCalls w = [] ∧ noreq (evsA (pActs w)).
  Definition one_client (s : pstate) (c : proc) (ws : list proc) : Prop :=
    sProcs s = c :: ws ∧ pChan c = None ∧ Forall isW ws.
  Lemma evsA_idle l : Forall idle_act l → evsA l = [].
  Proof. induction 1 as [|a l Ha Hl IH]; [done|]. rewrite evsA_cons, IH. by destruct a. Qed.
  Lemma worker_step w net log w' net' log' : pSt w net log = Some (w', net', log') → isW w →
    isW w' ∧ ∃ d, log' = log ++ d ∧ noreq d.
  Proof.
    intros Hs (Hch & Hc & Hr). unfold procStep in Hs.
    assert (Hch' : is_Some (pChan w)).
    { destruct Hch as [?|Ha]; [done|]. rewrite Ha in Hs. destruct (pChan w); [by eexists|]. by rewrite Hc in Hs. }
    clear Hch. destruct Hch' as [ch Hch]. destruct (pActs w) as [|a rest] eqn:Ea.
    - rewrite Hch in Hs. destruct (takeFirst ch net) as [[m net1]|]; [|done]. cbn in Hs. injection Hs as <- <- <-.
      split; [|exists []; rewrite app_nil_r; split; [done|apply noreq_nil]].
      split; [left; by eexists|]. split; [done|]. cbn [pActs]. rewrite <- evsM_hand. apply noreq_M.
    - rewrite evsA_cons in Hr. apply noreq_app in Hr as [Hr1 Hr].
      destruct a as [e|ch' m| |c|c| |]; cbn zeta in Hs; [|destruct (decide _); [|done]|..]; injection Hs as <- <- <-;
        (split; [|first [exists []; rewrite app_nil_r; split; [done|apply noreq_nil]|eexists [_]; split; [reflexivity|done]]]);
        (split; [left; by eexists|]); (split; [done|]); cbn [pActs]; try done.
      + destruct (pOk w); [done|]. by destruct reqsFirst.
      + by destruct (pOk w).
  Qed.
  Lemma one_client_step k s s' c ws : one_client s c ws → pst k s = Some s' →
    (∃ ws' d, one_client s' c ws' ∧ sLog s' = sLog s ++ d ∧ noreq d ∧ d ++ todo s' ≡ₚ todo s) ∨
    (∃ c', k = 0%nat ∧ pSt c (sNet s) (sLog s) = Some (c', sNet s', sLog s') ∧ one_client s' c' ws).
  Proof.
    intros (Hps & Hc & Hw) Hst. pose proof (pstep_todo _ _ _ Hst) as Htd.
    apply pstep_inv in Hst as (p & p' & net' & log' & Hp & Hs & ->). rewrite Hps in *.
    destruct k as [|k]; cbn in Hp.
    - injection Hp as <-. right. exists p'. split; [done|]. split; [done|]. split; [done|]. split; [|done].
      destruct (procStep_perm _ _ _ _ _ _ _ _ _ _ _ Hs) as (E & _). by rewrite E.
    - left. assert (Hwp : isW p) by by eapply Forall_lookup_1 in Hp.
      destruct (worker_step _ _ _ _ _ _ Hs Hwp) as (Hwp' & d & -> & Hd).
      exists (<[k := p']> ws), d. split; [|split; [done|split; [done|]]].
      + split; [done|]. split; [done|]. by apply Forall_insert.
      + destruct Htd as [(q & d' & _ & _ & E & H)|(q & c0 & Hq & Hn0 & Ha0 & Hc0 & _)].
        * cbn in E. apply app_inv_head in E as ->. done.
        * cbn in Hq. rewrite Hp in Hq. injection Hq as ->. destruct Hwp as (_ & Hcw & _). by rewrite Hcw in Hc0.
  Qed.
  Lemma todo_one_client s c ws r : one_client s c ws → is_req r = true → EvInc r ∉ evsA (pActs c) → EvInc r ∉ todo s.
  Proof.
    intros (Hps & _ & Hw) Hr Hc. unfold todo, evsP. rewrite Hps. rewrite fmap_cons, mjoin_cons, !elem_of_app.
    intros [[H|H]|H]; [done|..].
    - assert (Hx : noreq (mjoin (evsA ∘ pActs <$> ws))).
      { apply noreq_join. eapply Forall_impl; [exact Hw|]. by intros w (_ & _ & ?). }
      apply Hx in H. congruence.
    - assert (Hx : noreq (evsN (sNet s))) by (apply noreq_join, Forall_true; intros []; apply noreq_M).
      apply Hx in H. congruence.
  Qed.
  Lemma value_app l d c : value (l ++ d) c = value l c + value d c.
  Proof. unfold value, zlen. rewrite filter_app, app_length. lia. Qed.
  Lemma value_noreq d c : noreq d → is_req c = true → value d c = 0.
  Proof.
    intros H Hc. unfold value, zlen.
    replace (filter _ d) with (@nil event); [done|]. symmetry.
    induction d as [|e d IH]; [done|]. rewrite filter_cons, decide_False.
    - apply IH. intros c' Hc'. apply H. by right.
    - destruct e as [c'| |]; cbn; [|done..]. rewrite bool_decide_eq_true. intros ->.
      assert (is_req c = false) by (apply H; left). congruence.
  Qed.
  Lemma value_nonneg d c : 0 <= value d c.
  Proof. unfold value, zlen. lia. Qed.

  (** ** The stages of the client *)
  Notation blocks := (blocks murmur n).
  Notation ixs := (ixStream murmur n).
  Definition shA (i : Z) (done : list (list ecall)) (st : list ecall) (log td : list event) : Prop :=
    ∃ ops l, ixCalls i log = ops ++ l ∧ blocks i done ops ∧ l ++ ixCalls i td ≡ₚ ixs i st.
  Definition shC (i : Z) (done : list (list ecall)) (ph : list ecall) (log td : list event) : Prop :=
    ∃ ops l k, ixCalls i log = ops ++ l ++ k ∧ blocks i done ops ∧
      l ++ k ++ ixCalls i td ≡ₚ ixs i (ph ++ [EFlush]) ∧
      Forall (λ o, o = OpAdd None true) (k ++ ixCalls i td) ∧ k ++ ixCalls i td ≠ [].
  Definition drained (pr : pair) (td : list event) : Prop := EvInc (pFin pr) ∉ td.
  Definition r3 : list act := [FRead NumRemovingReqs; FCmp NumDocsRemoved; FLoop1].
  Definition condB (l : list act) (c : proc) (log td : list event) : Prop :=
    l = loop1 ∨ l = tail loop1 ∨
    (reqsFirst = true ∧ l = FCmp NumDocsIndexed :: r3 ∧ pReg c = value log NumIndexingReqs) ∨
    (reqsFirst = false ∧ l = FCmp NumIndexingReqs :: r3 ∧ pReg c <= value log NumDocsIndexed) ∨
    (l = r3 ∧ (pOk c = true → drained PDocs td)) ∨
    (l = tail r3 ∧ pReg c = value log NumRemovingReqs * n ∧ (pOk c = true → drained PDocs td)) ∨
    (l = [FLoop1] ∧ (pOk c = true → drained PDocs td ∧ drained PRems td)).
  Definition condD (l : list act) (c : proc) (log td : list event) : Prop :=
    l = flushLoop2 ∨ l = tail flushLoop2 ∨
    (l = [FCmp NumDocsForceUpdated; FLoop2] ∧ pReg c = value log NumForceUpdatingReqs * n) ∨
    (l = [FLoop2] ∧ (pOk c = true → drained PForced td)).
  Notation zeroA := (indexActs zeroCall "0" true).

  Inductive stage (phases : list (list ecall)) (s : pstate) (c : proc) : Prop :=
    | StA done later st : phases = done ++ later → program later = st ++ pCalls c → Forall loose_call st →
        Forall (λ a, ¬ idle_act a) (pActs c) → (∀ i, 0 <= i < n → shA i done st (sLog s) (todo s)) → stage phases s c
    | StB done ph later l : phases = done ++ ph :: later → pCalls c = program later →
        pActs c = l ++ zeroA ++ flushLoop2 → condB l c (sLog s) (todo s) →
        (∀ i, 0 <= i < n → shA i done (ph ++ [EFlush]) (sLog s) (todo s)) → stage phases s c
    | StC done ph later l l' : phases = done ++ ph :: later → pCalls c = program later →
        pActs c = l ++ flushLoop2 → zeroA = l' ++ l →
        (∀ i, 0 <= i < n → shC i done ph (sLog s) (todo s)) → stage phases s c
    | StD done ph later : phases = done ++ ph :: later → pCalls c = program later →
        condD (pActs c) c (sLog s) (todo s) →
        (∀ i, 0 <= i < n → shC i done ph (sLog s) (todo s)) → stage phases s c.

  (** The shard conditions follow the log. *)
  Lemma shA_step i done st log td d td' : d ++ td' ≡ₚ td → shA i done st log td → shA i done st (log ++ d) td'.
  Proof.
    intros Hd (ops & l & Hl & HB & Hp). exists ops, (l ++ ixCalls i d). rewrite ixCalls_app, Hl.
    split; [by rewrite app_assoc|]. split; [done|]. rewrite <- app_assoc, <- ixCalls_app. by rewrite (ixCalls_perm _ _ _ Hd).
  Qed.
  Lemma shC_step i done ph log td d td' : d ++ td' ≡ₚ td → shC i done ph log td → shC i done ph (log ++ d) td'.
  Proof.
    intros Hd (ops & l & k & Hl & HB & Hp & HF & Hne). exists ops, l, (k ++ ixCalls i d). rewrite ixCalls_app, Hl.
    assert (E : (k ++ ixCalls i d) ++ ixCalls i td' ≡ₚ k ++ ixCalls i td).
    { rewrite <- app_assoc, <- ixCalls_app. by rewrite (ixCalls_perm _ _ _ Hd). }
    split; [by rewrite !app_assoc|]. split; [done|]. split; [by rewrite E|]. split; [by rewrite E|].
    intros E0. rewrite E0 in E. by apply Permutation_nil_l in E.
  Qed.
  Lemma drained_step pr td d td' : d ++ td' ≡ₚ td → drained pr td → drained pr td'.
  Proof. unfold drained. intros <-. rewrite elem_of_app. tauto. Qed.

  Lemma condB_step l c log td d td' : noreq d → d ++ td' ≡ₚ td → condB l c log td → condB l c (log ++ d) td'.
  Proof.
    intros Hr Hd. unfold condB. rewrite !value_app, (value_noreq d NumIndexingReqs), (value_noreq d NumRemovingReqs) by done. pose proof (value_nonneg d NumDocsIndexed).
    pose proof (drained_step PDocs _ _ _ Hd). pose proof (drained_step PRems _ _ _ Hd).
    intros [?|[?|[(?&?&?)|[(?&?&?)|[(?&?)|[(?&?&?)|(?&?)]]]]]]; [tauto|tauto|..].
    - do 2 right. left. repeat split; [done..|lia].
    - do 3 right. left. repeat split; [done..|lia].
    - do 4 right. left. tauto.
    - do 5 right. left. repeat split; [done|lia|tauto].
    - do 6 right. tauto.
  Qed.
  Lemma condD_step l c log td d td' : noreq d → d ++ td' ≡ₚ td → condD l c log td → condD l c (log ++ d) td'.
  Proof.
    intros Hr Hd. unfold condD. rewrite !value_app, (value_noreq d NumForceUpdatingReqs) by done.
    pose proof (drained_step PForced _ _ _ Hd).
    intros [?|[?|[(?&?)|(?&?)]]]; [tauto|tauto|..].
    - do 2 right. left. repeat split; [done|lia].
    - do 3 right. tauto.
  Qed.
  Lemma stage_worker phases s s' c d : sLog s' = sLog s ++ d → noreq d → d ++ todo s' ≡ₚ todo s →
    stage phases s c → stage phases s' c.
  Proof.
    intros Hl Hr Hd [done later st ? ? ? ? Hsh|done ph later l ? ? ? ? Hsh|done ph later l l' ? ? ? ? Hsh|done ph later ? ? ? Hsh].
    - eapply StA; try done. intros i Hi. rewrite Hl. by eapply shA_step; [|apply Hsh].
    - eapply StB; try done; [rewrite Hl; by eapply condB_step|]. intros i Hi. rewrite Hl. by eapply shA_step; [|apply Hsh].
    - eapply StC; try done. intros i Hi. rewrite Hl. by eapply shC_step; [|apply Hsh].
    - eapply StD; try done; [rewrite Hl; by eapply condD_step|]. intros i Hi. rewrite Hl. by eapply shC_step; [|apply Hsh].
  Qed.

  (** ** The client moves *)
  Lemma program_split later st c cs : Forall (Forall loose_call) later → program later = st ++ c :: cs → Forall loose_call st →
    (c = EFlush ∧ ∃ later', later = st :: later' ∧ cs = program later') ∨ loose_call c.
  Proof.
    intros HF HP Hst. destruct later as [|ph later']; [by destruct st|].
    apply Forall_cons in HF as [Hph _]. cbn in HP. rewrite <- app_assoc in HP. cbn in HP.
    assert (HP' : ph ++ EFlush :: program later' = st ++ c :: cs) by exact HP. clear HP.
    apply app_eq_inv in HP' as [(k & -> & E)|(k & -> & E)].
    - destruct k as [|x k]; cbn in E.
      + injection E as -> ->. left. split; [done|]. exists later'. by rewrite app_nil_r.
      + injection E as -> ->. apply Forall_app in Hph as [_ Hph]. apply Forall_cons in Hph as [? _]. by right.
    - destruct k as [|x k]; cbn in E.
      + injection E as <- <-. left. split; [done|]. exists later'. by rewrite app_nil_r.
      + injection E as <- _. apply Forall_app in Hst as [_ Hst]. apply Forall_cons in Hst as [Hf _]. by destruct Hf.
  Qed.

  Lemma call_not_idle c : loose_call c → Forall (λ a, ¬ idle_act a) (callA c).
  Proof.
    assert (Hi : ∀ id f k, Forall (λ a, ¬ idle_act a) (incs id f k)).
    { intros id f k. unfold incs. destruct (seqb id "0"), f; cbn; repeat constructor; tauto. }
    destruct c as [d f ct a fo|id fo|]; cbn [callActs]; [| |intros H; by destruct H].
    - intros _. unfold indexActs. apply Forall_app. split; [apply Hi|]. repeat constructor; tauto.
    - intros _. apply Forall_app. split; [apply Hi|]. apply Forall_join, Forall_fmap, Forall_true.
      intros i. cbn. destruct (seqb id "0"); repeat constructor; tauto.
  Qed.

  Lemma zeroA_events : evsA zeroA = EvInc NumForceUpdatingReqs :: evsM (MSeg zeroCall).
  Proof. cbn -[ProofPipe.evsM]. by rewrite app_nil_r. Qed.
  Lemma zeroA_req r : is_req r = true → r ≠ NumForceUpdatingReqs → EvInc r ∉ evsA (zeroA ++ flushLoop2).
  Proof.
    intros Hr Hne. rewrite evsA_app, zeroA_events. change (evsA flushLoop2) with (@nil event). rewrite app_nil_r.
    intros [?|H]%elem_of_cons; [congruence|]. apply noreq_M in H. congruence.
  Qed.

  (** What remains after the first waiting loop *)
  Lemma ixCalls_elem i e o : o ∈ ixCalls i e ↔ EvIx i o ∈ e.
  Proof.
    unfold ixCalls. rewrite elem_of_list_omap. split.
    - intros ([|j o'|] & Hin & E); try done. destruct (Z.eqb_spec j i) as [->|]; [|done]. by injection E as ->.
    - intros H. exists (EvIx i o). split; [done|]. by rewrite Z.eqb_refl.
  Qed.
  Lemma after_loop1 i done ph log td : 0 <= i < n → Forall loose_call ph → paired td →
    drained PDocs td → drained PRems td → OpAdd None true ∈ ixCalls i td →
    shA i done (ph ++ [EFlush]) log td → shC i done ph log td.
  Proof.
    intros Hi Hph Hpr HD HR Hne (ops & l & Hl & HB & Hp). exists ops, l, []. rewrite app_nil_r.
    split; [done|]. split; [done|]. split; [done|]. cbn. split; [|intros E; rewrite E in Hne; by apply elem_of_nil in Hne].
    apply Forall_forall. intros o Ho.
    pose proof (ixs_ord_flush murmur n i ph Hph) as Hord. rewrite <- Hp in Hord.
    apply Forall_app in Hord as [_ Hord]. rewrite Forall_forall in Hord. specialize (Hord o Ho).
    apply ixCalls_elem in Ho. destruct o as [[d|] f|id f]; cbn in Hord.
    - destruct HD. by apply (Hpr PDocs (EvIx i (OpAdd (Some d) f))).
    - by subst f.
    - destruct HR. apply (Hpr PRems (EvIx i (OpRemove id f))); [done|]. cbn.
      destruct (seqb id "0") eqn:E; [|done]. by apply seqb_eq in E.
  Qed.
  Lemma after_loop2 i done ph log td : paired td → drained PForced td → shC i done ph log td →
    shA i (done ++ [ph]) [] log td.
  Proof.
    intros Hpr HF (ops & l & k & Hl & HB & Hp & Hall & Hne).
    assert (E : ixCalls i td = []).
    { destruct (ixCalls i td) as [|o l'] eqn:E; [done|]. exfalso. apply HF.
      apply Forall_app in Hall as [_ Hall]. apply Forall_cons in Hall as [-> _].
      apply (Hpr PForced (EvIx i (OpAdd None true))); [|done]. apply ixCalls_elem. rewrite E. left. }
    rewrite E, !app_nil_r in *. destruct k as [|o k _] using rev_ind; [done|].
    apply Forall_app in Hall as [_ Hall]. apply Forall_cons in Hall as [-> _].
    exists (ops ++ (l ++ k) ++ [OpAdd None true]), []. rewrite app_nil_r, E. cbn.
    split; [by rewrite Hl, <- !app_assoc|]. split; [|done]. constructor; [done|]. by rewrite <- app_assoc.
  Qed.

  Lemma todo_client s c ws : one_client s c ws → ∃ rest, todo s = evsA (pActs c) ++ rest.
  Proof. intros (E & _). unfold todo, evsP. rewrite E. eexists. rewrite fmap_cons, mjoin_cons, <- app_assoc. done. Qed.

  Lemma stage_client phases nseg progs s s' c c' ws : Forall (Forall loose_call) phases → reachp nseg progs s →
    one_client s c ws → pst 0 s = Some s' → pSt c (sNet s) (sLog s) = Some (c', sNet s', sLog s') →
    stage phases s c → stage phases s' c'.
  Proof.
    intros HG Hre Hone Hst Hs Hstage.
    pose proof (todo_paired _ _ _ Hre) as Hpaired.
    pose proof (todo_client _ _ _ Hone) as [rest Hrest].
    assert (Hp0 : sProcs s !! 0%nat = Some c) by (destruct Hone as [-> _]; done).
    assert (Hch : pChan c = None) by apply Hone.
    assert (Hnotcall : pActs c ≠ [] → ∃ d, sLog s' = sLog s ++ d ∧ d ++ todo s' ≡ₚ todo s).
    { intros Hne. destruct (pstep_todo _ _ _ Hst) as [(p & d & Hp & Hor & Hl & Hd)|(p & c1 & Hp & _ & Hx & _)]; [by exists d|].
      rewrite Hp0 in Hp. injection Hp as <-. done. }
    destruct Hstage as [done later st E1 E2 Hw Hni Hsh|done ph later l E1 E2 E3 HcB Hsh|done ph later l l' E1 E2 E3 E4 Hsh|done ph later E1 E2 HcD Hsh].
    - (* in a phase *)
      destruct (pActs c) as [|a acts] eqn:Ea.
      + unfold procStep in Hs. rewrite Ea, Hch in Hs. destruct (pCalls c) as [|c0 cs] eqn:Ec; [done|].
        injection Hs as <- Hnet Hlog.
        assert (Htd : todo s' ≡ₚ todo s ++ evsA (callA c0) ∧ sLog s' = sLog s).
        { destruct (pstep_todo _ _ _ Hst) as [(p & d & Hp & Hor & Hl & Hd)|(p & c1 & Hp & _ & _ & Hc & Hl & Hd)].
          - exfalso. rewrite Hp0 in Hp. injection Hp as <-. by destruct Hor.
          - rewrite Hp0 in Hp. injection Hp as <-. rewrite Ec in Hc. injection Hc as <-. done. }
        destruct Htd as [Htd Hl].
        assert (HshA : ∀ i, 0 <= i < n → shA i done (st ++ [c0]) (sLog s') (todo s')).
        { intros i Hi. destruct (Hsh i Hi) as (ops & l & H1 & H2 & H3). exists ops, l. rewrite Hl.
          split; [done|]. split; [done|]. rewrite (ixCalls_perm _ _ _ Htd), ixCalls_app, app_assoc, H3.
          rewrite ixCalls_call, ixStream_app, ixStream_one by done. done. }
        destruct (program_split later st c0 cs) as [(-> & later' & -> & ->)|Hc0]; [by subst; apply Forall_app in HG as [_ ?]|done|done|..].
        * eapply (StB _ _ _ done st later' loop1); try done. by left.
        * eapply (StA _ _ _ done later (st ++ [c0])); try done.
          -- by rewrite <- app_assoc.
          -- apply Forall_app. split; [done|]. by constructor.
          -- by apply call_not_idle.
      + assert (Htd : ∃ d, sLog s' = sLog s ++ d ∧ d ++ todo s' ≡ₚ todo s ∧ pCalls c' = pCalls c ∧ pActs c' = acts).
        { destruct (Hnotcall ltac:(congruence)) as (d & Hl & Hd). exists d. split; [done|]. split; [done|].
          unfold procStep in Hs. rewrite Ea in Hs. apply Forall_cons in Hni as [Hni _].
          destruct a as [e|ch' m| |r|r| |]; try (by destruct Hni); cbn zeta in Hs; [|destruct (decide _); [|done]]; by injection Hs as <- _ _. }
        destruct Htd as (d & Hl & Hd & Hc1 & Hc2). apply Forall_cons in Hni as [_ Hni].
        eapply (StA _ _ _ done later st); rewrite ?Hc1, ?Hc2; try done.
        intros i Hi. rewrite Hl. by eapply shA_step; [|apply Hsh].
    - (* waiting loop 1 *)
      assert (HneA : pActs c ≠ []) by (rewrite E3; by destruct l).
      destruct (Hnotcall HneA) as (d & Hl & Hd).
      assert (Hsh' : ∀ i, 0 <= i < n → shA i done (ph ++ [EFlush]) (sLog s') (todo s')).
      { intros i Hi. rewrite Hl. by eapply shA_step; [|apply Hsh]. }
      assert (Hlog : sLog s' = sLog s → todo s' ≡ₚ todo s).
      { intros E. rewrite E in Hl. assert (d = []) as -> by (by apply (app_inv_head (sLog s)); rewrite app_nil_r). done. }
      assert (Hdr : ∀ pr, sLog s' = sLog s → drained pr (todo s) → drained pr (todo s')).
      { intros pr E. unfold drained. by rewrite (Hlog E). }
      assert (Hreq : ∀ r, is_req r = true → r ≠ NumForceUpdatingReqs → EvInc r ∉ evsA (pActs c) → EvInc r ∉ todo s).
      { intros r Hr _. by eapply todo_one_client. }
      assert (Hfree : ∀ r, is_req r = true → r ≠ NumForceUpdatingReqs → Forall idle_act l → EvInc r ∉ todo s).
      { intros r Hr Hne Hidle. apply Hreq; [done|done|]. rewrite E3, evsA_app, evsA_idle by done. by apply zeroA_req. }
      unfold procStep in Hs. rewrite E3 in Hs.
      assert (Hloop1 : loop1 = FReset :: tail loop1) by done.
      destruct HcB as [->|[->|[(Hrf & -> & Hreg)|[(Hrf & -> & Hreg)|[(-> & Hok)|[(-> & Hreg & Hok)|(-> & Hok)]]]]]].
      + rewrite Hloop1 in Hs. cbn [app] in Hs. injection Hs as <- Hnet Hlg.
        eapply (StB _ _ _ done ph later (tail loop1)); try done. right. by left.
      + assert (Ht : tail loop1 = (if reqsFirst then FRead NumIndexingReqs else FRead NumDocsIndexed) ::
                        (if reqsFirst then FCmp NumDocsIndexed else FCmp NumIndexingReqs) :: r3) by (by destruct reqsFirst).
        rewrite Ht in Hs. destruct reqsFirst eqn:Hrf; cbn [app] in Hs; injection Hs as <- Hnet Hlg.
        * eapply (StB _ _ _ done ph later (FCmp NumDocsIndexed :: r3)); try done. do 2 right. left. cbn [pReg].
          repeat split; try done. by rewrite <- Hlg.
        * eapply (StB _ _ _ done ph later (FCmp NumIndexingReqs :: r3)); try done. do 3 right. left. cbn [pReg].
          repeat split; try done. by rewrite <- Hlg.
      + cbn [app] in Hs. injection Hs as <- Hnet Hlg.
        eapply (StB _ _ _ done ph later r3); try done. do 4 right. left. split; [done|]. cbn [pOk].
        intros [_ Heq]%andb_prop. apply Hdr; [done|]. apply Z.eqb_eq in Heq.
        apply (eq_drained PDocs _ _ _ Hre); [|cbn; lia]. apply Hfree; [done|done|by repeat constructor].
      + cbn [app] in Hs. injection Hs as <- Hnet Hlg.
        eapply (StB _ _ _ done ph later r3); try done. do 4 right. left. split; [done|]. cbn [pOk].
        intros [_ Heq]%andb_prop. apply Hdr; [done|]. apply Z.eqb_eq in Heq.
        apply (eq_drained PDocs _ _ _ Hre); [|cbn; lia]. apply Hfree; [done|done|by repeat constructor].
      + cbn [app r3] in Hs. injection Hs as <- Hnet Hlg.
        eapply (StB _ _ _ done ph later (tail r3)); try done. do 5 right. left. split; [done|]. cbn [pOk pReg]. rewrite <- Hlg.
        split; [done|]. intros Hk. apply Hdr; [done|]. by apply Hok.
      + cbn [app r3 tail] in Hs. injection Hs as <- Hnet Hlg.
        eapply (StB _ _ _ done ph later [FLoop1]); try done. do 6 right. split; [done|]. cbn [pOk].
        intros [Hk Heq]%andb_prop. apply Z.eqb_eq in Heq. split; (apply Hdr; [done|]); [by apply Hok|].
        apply (eq_drained PRems _ _ _ Hre); [|cbn; lia]. apply Hfree; [done|done|by repeat constructor].
      + cbn [app] in Hs. injection Hs as <- Hnet Hlg. destruct (pOk c).
        * destruct (Hok eq_refl) as [HD HR].
          eapply (StC _ _ _ done ph later zeroA []); try done. intros i Hi. rewrite <- Hlg.
          assert (HshC : shC i done ph (sLog s) (todo s)).
          { apply after_loop1; try done; [| |by apply Hsh].
            - subst phases. apply Forall_app in HG as [_ HG]. by apply Forall_cons in HG as [? _].
            - rewrite Hrest, E3, !evsA_app, !ixCalls_app, zeroA_events.
              pose proof (ixCalls_seg i (mkDoc "0" f_zero []) INil "" INil true Hi) as Hz. cbn [ixMsgs DocId] in Hz.
              change (seqb "0" "0") with true in Hz. cbn iota in Hz.
              apply elem_of_app. left. apply elem_of_app. right. apply elem_of_app. left.
              change (EvInc ?x :: ?y) with ([EvInc x] ++ y). rewrite ixCalls_app. unfold zeroCall. rewrite Hz. cbn. left. }
          rewrite <- (app_nil_r (sLog s)). eapply shC_step; [|exact HshC]. cbn. apply Hlog. done.
        * eapply (StB _ _ _ done ph later loop1); try done. by left.
    - (* the forced update request *)
      assert (HneA : pActs c ≠ []) by (rewrite E3; by destruct l).
      destruct (Hnotcall HneA) as (d & Hl & Hd).
      assert (Hsh' : ∀ i, 0 <= i < n → shC i done ph (sLog s') (todo s')).
      { intros i Hi. rewrite Hl. by eapply shC_step; [|apply Hsh]. }
      unfold procStep in Hs. rewrite E3 in Hs. destruct l as [|a l].
      + cbn [app flushLoop2] in Hs. injection Hs as <- Hnet Hlg. eapply (StD _ _ _ done ph later); try done. right. by left.
      + assert (Hni : ¬ idle_act a).
        { assert (Hz : Forall (λ a, ¬ idle_act a) zeroA) by (repeat constructor; cbn; tauto).
          rewrite E4 in Hz. apply Forall_app in Hz as [_ Hz]. by apply Forall_cons in Hz as [? _]. }
        cbn [app] in Hs.
        assert (pActs c' = l ++ flushLoop2 ∧ pCalls c' = pCalls c) as [Ha Hc].
        { destruct a as [e|ch' m| |r|r| |]; try (by destruct Hni); cbn zeta in Hs; [|destruct (decide _); [|done]]; by injection Hs as <- _ _. }
        eapply (StC _ _ _ done ph later l (l' ++ [a])); try done; [congruence|by rewrite <- app_assoc].
    - (* waiting loop 2 *)
      assert (HneA : pActs c ≠ []) by (destruct HcD as [->|[->|[[-> _]|[-> _]]]]; done).
      destruct (Hnotcall HneA) as (d & Hl & Hd).
      assert (Hsh' : ∀ i, 0 <= i < n → shC i done ph (sLog s') (todo s')).
      { intros i Hi. rewrite Hl. by eapply shC_step; [|apply Hsh]. }
      assert (Hlog : sLog s' = sLog s → todo s' ≡ₚ todo s).
      { intros E. rewrite E in Hl. assert (d = []) as -> by (by apply (app_inv_head (sLog s)); rewrite app_nil_r). done. }
      unfold procStep in Hs. destruct HcD as [Ea|[Ea|[[Ea Hreg]|[Ea Hok]]]]; rewrite Ea in Hs; cbn [flushLoop2 tail] in Hs.
      + injection Hs as <- Hnet Hlg. eapply (StD _ _ _ done ph later); try done. right. by left.
      + injection Hs as <- Hnet Hlg. eapply (StD _ _ _ done ph later); try done. do 2 right. left. split; [done|]. cbn. by rewrite <- Hlg.
      + injection Hs as <- Hnet Hlg. eapply (StD _ _ _ done ph later); try done. do 3 right. split; [done|]. cbn [pOk].
        intros [_ Heq]%andb_prop. apply Z.eqb_eq in Heq. unfold drained. rewrite (Hlog (eq_sym Hlg)).
        apply (eq_drained PForced _ _ _ Hre); [|cbn; lia].
        eapply todo_one_client; [done|done|]. rewrite Ea. by intros ?%elem_of_nil.
      + injection Hs as <- Hnet Hlg. destruct (pOk c).
        * eapply (StA _ _ _ (done ++ [ph]) later []); try done; cbn.
          -- by rewrite <- app_assoc.
          -- constructor.
          -- intros i Hi. rewrite <- Hlg. pose proof (Hlog (eq_sym Hlg)) as Hp.
             apply after_loop2; [|unfold drained; rewrite Hp; by apply Hok|].
             ++ by eapply paired_perm.
             ++ rewrite <- (app_nil_r (sLog s)). eapply shC_step; [|by apply Hsh]. by cbn.
        * eapply (StD _ _ _ done ph later); try done. by left.
  Qed.
End Flush.
