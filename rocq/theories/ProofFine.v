(** The pipeline with lock-level indexers. *)
From Verif Require Import SpecFine SpecIndexer SpecRoute SpecPipe ProofTopK ProofRoute ProofPipe ProofBlocks ProofFlush ProofFlushThms ProofIxThms ProofLocks ProofGhost ProofSeqEq.

(** * Which calls the workers make *)
Section Busy.
  Context (murmur : string → Z) (n : Z) (only reqsFirst : bool) (cap : chan → nat).
  Notation callA := (callActs n reqsFirst).
  Notation hand := (handler murmur n only).
  Notation pst := (pstep murmur n only reqsFirst cap).
  Notation evsA := (evsA murmur n only).
  Notation evsM := (evsM murmur n only).
  Notation evsN := (evsN murmur n only).
  Notation evsC := (evsC murmur n only reqsFirst).
  Notation todo := (todo murmur n only).
  Notation reachp nseg progs := (pipe_reach murmur n only reqsFirst cap nseg progs).
  Hypothesis Hn : 1 <= n < 2^32.

  Definition inr (e : event) : Prop := match e with EvIx i _ => 0 <= i < n | _ => True end.
  Lemma inr_A l : (∀ a, a ∈ l → Forall inr (evs murmur n only a)) → Forall inr (evsA l).
  Proof. intros H. unfold ProofPipe.evsA. apply Forall_join, Forall_fmap, Forall_forall. exact H. Qed.
  Lemma inr_incs id f c a : a ∈ incs id f c → Forall inr (evs murmur n only a).
  Proof.
    unfold incs. destruct (seqb id "0"), f; cbn; rewrite ?elem_of_cons, ?elem_of_nil; intros Hx; destruct_or!; subst; try done; by repeat constructor.
  Qed.
  Lemma inr_add i d f : 0 <= i < n → Forall inr (evsM (MAdd i d f)).
  Proof. intros Hi. rewrite evsM_hand. apply inr_A. destruct d, f; cbn; intros a; rewrite ?elem_of_cons, ?elem_of_nil; intros Hx; destruct_or!; subst; try done; cbn [evs]; apply Forall_singleton; first [exact Hi|exact I]. Qed.
  Lemma inr_rem i d f : 0 <= i < n → Forall inr (evsM (MRem i d f)).
  Proof. intros Hi. rewrite evsM_hand. apply inr_A. destruct (seqb d "0") eqn:E, f; cbn; rewrite E; cbn; intros a; rewrite ?elem_of_cons, ?elem_of_nil; intros Hx; destruct_or!; subst; try done; cbn [evs]; apply Forall_singleton; first [exact Hi|exact I]. Qed.
  Lemma inr_rank i o : Forall inr (evsM (MRank i o)).
  Proof. rewrite evsM_hand. by repeat constructor. Qed.
  Lemma inr_seg c : Forall inr (evsM (MSeg c)).
  Proof.
    rewrite evsM_hand. apply inr_A. cbn [handler]. unfold segActs. intros a Ha.
    destruct c as [d f ct at_ fo|id fo|]; [|by apply elem_of_nil in Ha..].
    assert (Hall : ∀ l : list Z, (∀ j, j ∈ l → 0 <= j < n) → a ∈ (λ i, ASend (CIxAdd i) (MAdd i None true)) <$> l → Forall inr (evs murmur n only a)).
    { intros l Hl (j & -> & Hj)%elem_of_list_fmap. cbn [evs]. apply inr_add. auto. }
    assert (Hsh : ∀ j, j ∈ shards n → 0 <= j < n) by (intros j; unfold shards; rewrite elem_of_seqZ; lia).
    destruct (seqb (DocId d) "0").
    - destruct fo; [|by apply elem_of_nil in Ha]. by apply (Hall (shards n)).
    - rewrite !elem_of_app, !elem_of_list_singleton in Ha. destruct Ha as [->|[Ha| ->]].
      + cbn [evs]. apply inr_add. rewrite shardOf_mod by done. apply Z.mod_pos_bound. lia.
      + destruct fo; [|by apply elem_of_nil in Ha]. eapply Hall; [|exact Ha]. intros j [_ ?]%elem_of_list_filter. auto.
      + cbn [evs]. apply inr_rank.
  Qed.
  Lemma inr_call c : Forall inr (evsA (callA c)).
  Proof.
    assert (Hix : ∀ c d f, Forall inr (evsA (indexActs c d f))).
    { intros c0 d f. unfold indexActs. rewrite evsA_app. apply Forall_app. split; [apply inr_A; intros a; apply inr_incs|].
      apply inr_A. intros a ->%elem_of_list_singleton. cbn [evs]. apply inr_seg. }
    destruct c as [d f ct at_ fo|id fo|]; cbn [callActs].
    - apply Hix.
    - rewrite evsA_app. apply Forall_app. split; [apply inr_A; intros a; apply inr_incs|].
      apply inr_A. intros a. rewrite elem_of_list_join. intros (l & Ha & (j & -> & Hj)%elem_of_list_fmap).
      unfold shards in Hj. apply elem_of_seqZ in Hj.
      rewrite elem_of_cons in Ha. destruct Ha as [->|Ha]; [cbn [evs]; apply inr_rem; lia|].
      destruct (seqb id "0"); [by apply elem_of_nil in Ha|]. apply elem_of_list_singleton in Ha as ->. cbn [evs]. apply inr_rank.
    - rewrite !evsA_app. apply Forall_app. split; [rewrite evsA_loop1; constructor|]. apply Forall_app. split; [apply Hix|].
      rewrite evsA_loop2. constructor.
  Qed.
  Lemma inr_calls cs : Forall inr (evsC cs).
  Proof. unfold ProofPipe.evsC. apply Forall_join, Forall_fmap, Forall_true. intros c. apply inr_call. Qed.

  Lemma calling_step s k i o : calling s k i o → ∃ s', pst k s = Some s' ∧ sLog s' = sLog s ++ [EvIx i o].
  Proof.
    intros (p & l & Hp & Ha). eexists. unfold pstep. rewrite Hp. cbn [mbind option_bind]. unfold procStep. rewrite Ha.
    cbn [mbind option_bind]. split; [done|]. done.
  Qed.
  Lemma calling_all nseg progs s k i o : reachp nseg progs s → calling s k i o → EvIx i o ∈ evsC (mjoin progs).
  Proof.
    intros Hr Hc. destruct (calling_step _ _ _ _ Hc) as (s' & Hs & Hl).
    assert (Hr' : reachp nseg progs s') by (eapply rtc_r; [exact Hr|by exists k]).
    rewrite <- (reach_all _ _ _ _ _ _ _ _ Hr'), Hl. rewrite !elem_of_app, elem_of_list_singleton. auto.
  Qed.
  Lemma calling_range nseg progs s k i o : reachp nseg progs s → calling s k i o → 0 <= i < n.
  Proof.
    intros Hr Hc. pose proof (calling_all _ _ _ _ _ _ Hr Hc) as H. pose proof (inr_calls (mjoin progs)) as HF.
    rewrite Forall_forall in HF. exact (HF _ H).
  Qed.
  Lemma calling_stream nseg progs s k i o : reachp nseg progs s → calling s k i o → o ∈ ixStream murmur n i (mjoin progs).
  Proof.
    intros Hr Hc. pose proof (calling_range _ _ _ _ _ _ Hr Hc) as Hi.
    rewrite <- (ixCalls_calls _ _ only reqsFirst Hn _ _ Hi). apply ixCalls_elem. by eapply calling_all.
  Qed.

  (** ** Nobody calls RemoveDoc *)
  Lemma stream_side i cs o : (∀ c, c ∈ cs → is_removal c = false) → o ∈ ixStream murmur n i cs → sideOf o = 0%nat.
  Proof.
    intros H. unfold ixStream. rewrite elem_of_list_join. intros (l & Ho & (c & -> & Hc)%elem_of_list_fmap).
    specialize (H c Hc). destruct c as [d f ct a fo|id fo|]; [|done|].
    - cbn in Ho. repeat case_match; rewrite ?elem_of_list_singleton in Ho; subst; try done; by apply elem_of_nil in Ho.
    - cbn in Ho. apply elem_of_list_singleton in Ho as ->. done.
  Qed.
  Lemma stream_side1 i cs o : (∀ c, c ∈ cs → is_removal c = true) → o ∈ ixStream murmur n i cs → sideOf o = 1%nat.
  Proof.
    intros H. unfold ixStream. rewrite elem_of_list_join. intros (l & Ho & (c & -> & Hc)%elem_of_list_fmap).
    specialize (H c Hc). destruct c as [d f ct a fo|id fo|]; [done| |done].
    cbn in Ho. apply elem_of_list_singleton in Ho as ->. done.
  Qed.

  (** ** One client, phases kept apart *)
  (** A client itself calls no indexer method. *)
  Definition noIx (a : act) : Prop := match a with ADo (EvIx _ _) => False | _ => True end.
  Definition clientsNo (s : pstate) : Prop := ∀ k p, sProcs s !! k = Some p → pChan p = None → Forall noIx (pActs p).
  Lemma noIx_incs id f c : Forall noIx (incs id f c).
  Proof. unfold incs. destruct (seqb id "0"), f; cbn; by repeat constructor. Qed.
  Lemma noIx_call c : Forall noIx (callA c).
  Proof.
    destruct c as [d f ct a fo|id fo|]; cbn [callActs].
    - apply Forall_app. split; [apply noIx_incs|by repeat constructor].
    - apply Forall_app. split; [apply noIx_incs|]. apply Forall_join, Forall_fmap, Forall_true. intros i. cbn.
      destruct (seqb id "0"); by repeat constructor.
    - apply Forall_app. split; [destruct reqsFirst; by repeat constructor|]. by repeat constructor.
  Qed.
  Lemma clientsNo_step s s' : pipeStep murmur n only reqsFirst cap s s' → clientsNo s → clientsNo s'.
  Proof.
    intros [k (p & p' & net' & log' & Hp & Hs & ->)%pstep_inv] H j q Hq Hch. cbn in Hq.
    destruct (decide (j = k)) as [->|Hne]; [|rewrite list_lookup_insert_ne in Hq by done; by eapply H].
    rewrite list_lookup_insert in Hq by (by eapply lookup_lt_Some). injection Hq as <-. clear H0 || idtac.
    pose proof (H k p Hp) as HF. unfold procStep in Hs. destruct (pActs p) as [|a rest] eqn:Ea.
    - destruct (pChan p) as [ch|] eqn:Ec.
      + destruct (takeFirst ch (sNet s)) as [[m net1]|]; [|done]. cbn in Hs. injection Hs as <- _ _. done.
      + destruct (pCalls p) as [|c cs]; [done|]. injection Hs as <- _ _. cbn [pActs]. apply noIx_call.
    - assert (Hc : pChan p = None). { destruct a; cbn zeta in Hs; try (destruct (decide _); [|done]); by injection Hs as <- _ _. }
      specialize (HF Hc). apply Forall_cons in HF as [_ HF].
      destruct a; cbn zeta in Hs; try (destruct (decide _); [|done]); injection Hs as <- _ _; cbn [pActs]; try done.
      + destruct (pOk p); [done|]. change (Forall noIx (flushLoop1 reqsFirst ++ rest)). apply Forall_app. split; [|done]. destruct reqsFirst; by repeat constructor.
      + destruct (pOk p); [done|]. change (Forall noIx (flushLoop2 ++ rest)). apply Forall_app. split; [|done]. by repeat constructor.
  Qed.
  Lemma clientsNo_reach nseg progs s : reachp nseg progs s → clientsNo s.
  Proof.
    intros H. revert s H. apply (rtc_ind_r clientsNo (pipeInit n nseg progs)).
    - intros k p Hp _. apply elem_of_list_lookup_2 in Hp. cbn in Hp. rewrite !elem_of_app in Hp.
      destruct Hp as [(cs & -> & _)%elem_of_list_fmap|[[-> _]%elem_of_replicate|Hp]]; [by constructor..|].
      rewrite elem_of_list_join in Hp. destruct Hp as (l & Hp & (j & -> & _)%elem_of_list_fmap).
      rewrite !elem_of_cons, elem_of_nil in Hp. destruct_or!; subst; by constructor || done.
    - intros s1 s2 _ H12 IH. by eapply clientsNo_step.
  Qed.

  Lemma todo_split s c ws : one_client murmur n only s c ws → todo s = evsA (pActs c) ++ (evsP murmur n only ws ++ evsN (sNet s)).
  Proof. intros (E & _). unfold ProofPipe.todo, evsP. rewrite E. rewrite fmap_cons, mjoin_cons, <- app_assoc. done. Qed.
  Lemma calling_ws s c ws k i o : one_client murmur n only s c ws → clientsNo s → calling s k i o →
    o ∈ ixCalls i (evsP murmur n only ws ++ evsN (sNet s)).
  Proof.
    intros (E & Hc & _) Hno (p & l & Hp & Ha). apply ixCalls_elem. apply elem_of_app. left. rewrite E in Hp.
    destruct k as [|k].
    - injection Hp as ->. assert (HF : Forall noIx (pActs p)) by (apply (Hno 0%nat); [by rewrite E|done]).
      rewrite Ha in HF. apply Forall_cons in HF as [HF _]. done.
    - cbn in Hp. unfold evsP. rewrite elem_of_list_join. exists (evsA (pActs p)). split.
      + rewrite Ha, evsA_cons. cbn [evs]. apply elem_of_app. left. by apply elem_of_list_singleton.
      + apply elem_of_list_fmap. exists p. split; [done|]. by eapply elem_of_list_lookup_2.
  Qed.
  Lemma prefix_phase later st cs : program later = st ++ cs → Forall loose_call st → st = [] ∨ ∃ ph l later', later = ph :: later' ∧ ph = st ++ l.
  Proof.
    intros HP Hst. destruct later as [|ph later']; [left; by destruct st|]. cbn in HP. rewrite <- app_assoc in HP.
    assert (HP' : ph ++ EFlush :: program later' = st ++ cs) by exact HP. clear HP. right.
    apply app_eq_inv in HP' as [(k & -> & E)|(k & -> & E)].
    - by exists (st ++ k), k, later'.
    - destruct k as [|x k]; cbn in E.
      + exists ph, [], later'. by rewrite !app_nil_r.
      + injection E as <- _. apply Forall_app in Hst as [_ Hst]. apply Forall_cons in Hst as [Hf _]. by destruct Hf.
  Qed.
  Lemma staged_sides phases s i : staged murmur n only reqsFirst phases s → Forall apart phases → clientsNo s → 0 <= i < n →
    ∀ k k' o o', calling s k i o → calling s k' i o' → sideOf o = sideOf o'.
  Proof.
    intros (c & ws & Hone & Hstage) Hap Hno Hi k k' o o' Hk Hk'.
    pose proof (calling_ws _ _ _ _ _ _ Hone Hno Hk) as H1. pose proof (calling_ws _ _ _ _ _ _ Hone Hno Hk') as H2. clear Hk Hk'.
    pose proof (todo_split _ _ _ Hone) as Htd. set (R := evsP murmur n only ws ++ evsN (sNet s)) in *.
    assert (Hall : ∀ x, o = x ∨ o' = x → True) by done. clear Hall.
    destruct Hstage as [dn later st E1 E2 Hw Hni Hsh|dn ph later l E1 E2 E3 HcB Hsh|dn ph later l l' E1 E2 E3 E4 Hsh|dn ph later E1 E2 HcD Hsh].
    - destruct (Hsh i Hi) as (ops & l & _ & _ & Hp). rewrite Htd, ixCalls_app in Hp.
      assert (HS : ∀ x, x ∈ ixCalls i R → x ∈ ixStream murmur n i st).
      { intros x Hx. rewrite <- Hp, !elem_of_app. auto. }
      apply HS in H1, H2. destruct (prefix_phase _ _ _ E2 Hw) as [->|(ph & l' & later' & -> & ->)]; [by apply elem_of_nil in H1|].
      rewrite E1 in Hap. apply Forall_app in Hap as [_ Hap]. apply Forall_cons in Hap as [[Ha|Ha] _].
      + rewrite (stream_side1 i st o), (stream_side1 i st o'); [done|intros; apply Ha; set_solver|done|intros; apply Ha; set_solver|done].
      + rewrite (stream_side i st o), (stream_side i st o'); [done|intros; apply Ha; set_solver|done|intros; apply Ha; set_solver|done].
    - destruct (Hsh i Hi) as (ops & l0 & _ & _ & Hp). rewrite Htd, ixCalls_app in Hp. rewrite E3 in Hp.
      rewrite evsA_app, ixCalls_app, evsA_app, ixCalls_app in Hp. rewrite ixStream_app in Hp.
      assert (Hz : ixCalls i (evsA (indexActs zeroCall "0" true)) = [OpAdd None true]).
      { pose proof (ixCalls_call murmur n only reqsFirst Hn i zeroCall Hi) as H. exact H. }
      rewrite Hz in Hp. change (ixStream murmur n i [EFlush]) with [OpAdd None true] in Hp.
      assert (Hp' : (l0 ++ ixCalls i (evsA l) ++ ixCalls i (evsA flushLoop2) ++ ixCalls i R) ++ [OpAdd None true] ≡ₚ ixStream murmur n i ph ++ [OpAdd None true]).
      { rewrite <- Hp. solve_Permutation. }
      apply Permutation_app_inv_r in Hp'.
      assert (HS : ∀ x, x ∈ ixCalls i R → x ∈ ixStream murmur n i ph).
      { intros x Hx. rewrite <- Hp', !elem_of_app. auto. }
      apply HS in H1, H2. rewrite E1 in Hap. apply Forall_app in Hap as [_ Hap]. apply Forall_cons in Hap as [[Ha|Ha] _].
      + rewrite (stream_side1 i ph o), (stream_side1 i ph o'); done.
      + rewrite (stream_side i ph o), (stream_side i ph o'); done.
    - destruct (Hsh i Hi) as (ops & l0 & kk & _ & _ & _ & HF & _). rewrite Htd, ixCalls_app, !Forall_app in HF.
      destruct HF as (_ & _ & HF). rewrite Forall_forall in HF. by rewrite (HF _ H1), (HF _ H2).
    - destruct (Hsh i Hi) as (ops & l0 & kk & _ & _ & _ & HF & _). rewrite Htd, ixCalls_app, !Forall_app in HF.
      destruct HF as (_ & _ & HF). rewrite Forall_forall in HF. by rewrite (HF _ H1), (HF _ H2).
  Qed.

  Lemma one_side nseg progs s : kept_apart progs → reachp nseg progs s →
    ∀ k k' i o o', calling s k i o → calling s k' i o' → sideOf o = sideOf o'.
  Proof.
    intros [Ha|(phases & -> & HG & Ha)] Hr k k' i o o' Hk Hk'.
    - assert (Hno : ∀ c, c ∈ mjoin progs → is_removal c = false).
      { intros c. rewrite elem_of_list_join. intros (cs & Hc & Hcs). by eapply Ha. }
      by rewrite (stream_side i (mjoin progs) o), (stream_side i (mjoin progs) o') by (done || by eapply calling_stream).
    - eapply (staged_sides phases s i); try done.
      + eapply reach_stage; [done| |done]. by apply goods_loose.
      + by eapply clientsNo_reach.
      + by eapply calling_range.
  Qed.
  Lemma calling_unreturned nseg phases s k i o : Forall good_phase phases → reachp nseg [program phases] s → returned 0 s → ¬ calling s k i o.
  Proof.
    intros HG Hr Hret Hk. pose proof (calling_range _ _ _ _ _ _ Hr Hk) as Hi.
    destruct (reach_stage _ _ _ _ _ Hn _ _ _ (goods_loose _ HG) Hr) as (c & ws & Hone & Hstage).
    pose proof (calling_ws _ _ _ _ _ _ Hone (clientsNo_reach _ _ _ Hr) Hk) as H1.
    pose proof (todo_split _ _ _ Hone) as Htd. destruct Hone as (Hps & _ & _).
    destruct Hret as (p & Hp & Ha & Hc). rewrite Hps in Hp. injection Hp as ->.
    destruct Hstage as [dn later st E1 E2 Hw Hni Hsh|dn ph later l E1 E2 E3 HcB Hsh|dn ph later l l' E1 E2 E3 E4 Hsh|dn ph later E1 E2 HcD Hsh].
    2: { rewrite Ha in E3. by destruct l. }
    2: { rewrite Ha in E3. by destruct l. }
    2: { rewrite Ha in HcD. by destruct HcD as [?|[?|[[? _]|[? _]]]]. }
    rewrite Hc in E2. destruct (program_nonflush _ _ E2 Hw) as [-> ->].
    destruct (Hsh i Hi) as (ops & l & Hl & HB & Hpm). rewrite Htd, ixCalls_app in Hpm. apply Permutation_nil_r in Hpm.
    apply app_eq_nil in Hpm as [_ Hpm]. apply app_eq_nil in Hpm as [_ Hpm]. rewrite Hpm in H1. by apply elem_of_nil in H1.
  Qed.
End Busy.
