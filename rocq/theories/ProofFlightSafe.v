(** The answers of concurrent searches: one reply of each shard; with unchanged shards
    the result of [Search]. *)
From Verif Require Import ModelFlight SpecFlight ProofFlight ProofFlightData.

Lemma NoDup_mjoin_in {A} (ls : list (list A)) l : NoDup (mjoin ls) → l ∈ ls → NoDup l.
Proof.
  induction ls as [|x ls IH]; [by intros _ []%elem_of_nil|]. cbn. intros (H1 & _ & H2)%NoDup_app [->|H]%elem_of_cons; auto.
Qed.
Lemma allToks_NoDup n m : NoDup (allToks n m).
Proof.
  induction m as [|m IH]; [constructor|]. rewrite allToks_S. apply NoDup_app. split; [done|]. split.
  - intros [c i] H1 H2. apply elem_of_list_join in H1 as (l & H1 & (c' & -> & Hc)%elem_of_list_fmap).
    apply elem_of_list_fmap in H1 as (? & [= -> ->] & _). apply elem_of_list_fmap in H2 as (? & [= -> ->] & _).
    apply elem_of_seq in Hc. lia.
  - apply NoDup_fmap; [by intros ?? [=]|]. apply NoDup_seq.
Qed.
Lemma allToks_in n m c i : (c, i) ∈ allToks n m ↔ (c < m)%nat ∧ (i < n)%nat.
Proof.
  unfold allToks. rewrite elem_of_list_join. split.
  - intros (l & H & (c' & -> & Hc)%elem_of_list_fmap). apply elem_of_list_fmap in H as (? & [= -> ->] & Hi).
    apply elem_of_seq in Hc, Hi. lia.
  - intros [Hc Hi]. exists (pair c <$> seq 0 n). rewrite !elem_of_list_fmap. split.
    + exists i. rewrite elem_of_seq. auto with lia.
    + exists c. rewrite elem_of_seq. auto with lia.
Qed.

Lemma gtoks_heardOf c got : gtoks c got = pair c <$> heardOf got.
Proof.
  unfold gtoks, heardOf. induction got as [|[[i rp]|] got IH]; [done|cbn..]; [by f_equal|done].
Qed.

Section Safe.
  Context (log2 : F → F) (sortBy : (ScoredDoc → ScoredDoc → bool) → list ScoredDoc → list ScoredDoc).
  Context (n : nat) (cap : schan → nat).
  Notation frun := (frun log2 sortBy n cap).
  Notation answered := (answered_between log2 sortBy).

  Lemma heard_distinct programs roles s a : finv n programs roles s → a ∈ fAnswers s →
    length (faGot a) = n ∧ NoDup (heardOf (faGot a)) ∧ ∀ i, i ∈ heardOf (faGot a) → (i < n)%nat.
  Proof.
    intros [H1 H2 H3 H4 H5 H6 H7] Ha. split; [by apply (proj1 (Forall_forall _ _) H7)|].
    assert (HN : NoDup (toks n s)). { rewrite H1. apply allToks_NoDup. }
    assert (HI : atoks a ∈ atoks <$> fAnswers s) by by apply elem_of_list_fmap_1. split.
    - unfold toks in HN. apply NoDup_app in HN as (_ & _ & HN). apply NoDup_app in HN as (_ & _ & HN).
      pose proof (NoDup_mjoin_in _ _ HN HI) as HN'. unfold atoks in HN'. rewrite gtoks_heardOf in HN'. by apply NoDup_fmap_1 in HN'.
    - intros i Hi. assert (Ht : (faSearch a, i) ∈ toks n s).
      { unfold toks. rewrite !elem_of_app. right. right. apply elem_of_list_join. exists (atoks a). split; [|done].
        unfold atoks. rewrite gtoks_heardOf. by apply elem_of_list_fmap_1. }
      rewrite H1 in Ht. by apply allToks_in in Ht as [_ ?].
  Qed.
  Lemma all_some_heard (got : list (option (nat * Reply))) : Forall is_Some got → length (heardOf got) = length got.
  Proof. induction 1 as [|e got [[i rp] ->] _ IH]; [done|]. cbn. by f_equal. Qed.
  Lemma full_perm l : NoDup l → (∀ i, i ∈ l → (i < n)%nat) → length l = n → l ≡ₚ seq 0 n.
  Proof.
    intros HN Hl Hn. apply submseteq_Permutation_length_le; [rewrite seq_length; lia|].
    apply NoDup_submseteq; [done|]. intros i Hi. apply elem_of_seq. specialize (Hl i Hi). lia.
  Qed.

  Theorem replies_lem programs tl tr shards ls s a : frun ls (fInit n programs tl tr shards) = Some s → a ∈ fAnswers s →
    ∃ req t0, fReqs s !! faSearch a = Some (req, t0) ∧ (t0 <= faEnd a <= moment (fWorlds s))%nat ∧
      Ranks sortBy req (heard (faGot a)) = Some (faResp a) ∧
      length (faGot a) = n ∧ NoDup (heardOf (faGot a)) ∧ (∀ i, i ∈ heardOf (faGot a) → (i < n)%nat) ∧
      (rqTimeout req <= 0 → Forall is_Some (faGot a) ∧ heardOf (faGot a) ≡ₚ seq 0 n) ∧
      ∀ i rp, Some (i, rp) ∈ faGot a → answered (fWorlds s) i req t0 (faEnd a) rp.
  Proof.
    intros Hr Ha. pose proof (finv_run _ _ _ _ _ _ _ _ _ (finv_init n programs tl tr shards) Hr) as HI.
    pose proof (dinv_run _ _ _ _ _ _ _ (dinv_init log2 sortBy n programs tl tr shards) Hr) as [_ _ HD].
    destruct (heard_distinct _ _ _ _ HI Ha) as (G1 & G2 & G3).
    rewrite Forall_forall in HD. destruct (HD a Ha) as (req & t0 & D1 & D2 & D3 & D4).
    exists req, t0. do 6 (split; [done|]). split.
    - intros Ht. assert (HS : Forall is_Some (faGot a)).
      { eapply Forall_impl; [exact D3|]. intros [[i rp]|]; cbn; [done|]. lia. }
      split; [done|]. apply full_perm; [done..|]. by rewrite all_some_heard.
    - intros i rp Hi. rewrite Forall_forall in D3. exact (D3 _ Hi).
  Qed.

  (** * Unchanged shards *)
  Lemma rankOut_judged o sh docs : ∀ out num, foldl (rankStep (shRk sh) (shardOpts o) false) (out, num) docs =
    (out ++ omap (judged o) ((λ d, (d, sh)) <$> docs), num + zlen (omap (judged o) ((λ d, (d, sh)) <$> docs))).
  Proof.
    induction docs as [|d docs IH]; intros out num.
    { cbn. by rewrite app_nil_r, Z.add_0_r. }
    cbn [foldl]. rewrite rankStep_judged, IH.
    change ((λ d, (d, sh)) <$> d :: docs) with ([(d, sh)] ++ ((λ d, (d, sh)) <$> docs)). rewrite omap_app.
    unfold zlen. rewrite app_length, <- (assoc_L (++)). f_equal. lia.
  Qed.
  Lemma answered_unchanged ws i req t1 t2 rp sh : answered ws i req t1 t2 rp →
    (∀ sh', seen ws i t1 t2 sh' → sh' = sh) → shardReply log2 sortBy req sh = Some rp.
  Proof.
    intros (t & sh' & docs & num & Ht & Hs & HL & Hr) Hc.
    assert (sh' = sh) as ->. { apply Hc. by eapply (seen_mono ws ws); [done| | |exact Hs]; lia. }
    unfold shardReply. rewrite HL. cbn. destruct (rqCountOnly req) eqn:Eco; [by rewrite Hr|].
    destruct docs as [|d docs]; [by rewrite Hr|].
    rewrite (proj2 (Z.eqb_neq (zlen (d :: docs)) 0)) by (unfold zlen; cbn; lia).
    destruct (rqOrderless req); [by rewrite Hr|]. destruct Hr as (js & page & E & (ts & _ & HF) & Hz & ->).
    assert (Ej : js = (λ d, (d, sh)) <$> js.*1).
    { clear -HF Hc Ht. induction HF as [|[d sh'] u js ts [? Hu] _ IH]; [done|]. cbn in *. rewrite <- IH. f_equal. f_equal.
      apply Hc. by eapply (seen_mono ws ws); [done| | |exact Hu]; lia. }
    unfold rankerRank, Rank, rankOut. rewrite E, rankOut_judged, <- Ej. rewrite app_nil_l, Z.add_0_l.
    change (ReverseOrder (shardOpts (rqOpts req))) with (ReverseOrder (rqOpts req)).
    destruct (maxOutput _ _) as [a b] eqn:Em. cbn in Hz. by rewrite Hz.
  Qed.

  Lemma read_only_worlds ls s s' : Forall read_only ls → frun ls s = Some s' → fWorlds s' = fWorlds s.
  Proof.
    revert s. induction ls as [|l ls IH]; intros s HF; cbn; [by intros [= <-]|]. apply Forall_cons in HF as [Hl HF].
    destruct (fstep _ _ _ _ l s) as [s1|] eqn:E; [|done]. cbn. intros H. rewrite (IH s1 HF H). clear -E Hl.
    destruct l as [k late|]; [|done]. unfold fstep in E. destruct (fCrash s); [done|].
    destruct (fProcs s !! k); [|done]. cbn in E. destruct (fproc _ _ _ _ _ _ _) as [[]|]; [| |done]; by injection E as <-.
  Qed.
  Lemma seen_one (shards : list Shard) i t1 t2 sh : seen [shards] i t1 t2 sh → shards !! i = Some sh.
  Proof. intros (t & w & _ & Hw & Hi). apply list_lookup_singleton_Some in Hw as [_ <-]. done. Qed.

  Lemma events_lem (replies : list Reply) (got : list (option (nat * Reply))) :
    (∀ i rp, Some (i, rp) ∈ got → replies !! i = Some rp) →
    mapM (λ e : option nat, match e with Some i => rp ← replies !! i; Some (Some rp) | None => Some None end)
      ((λ e : option (nat * Reply), match e with Some (i, _) => Some i | None => None end) <$> got) = Some (heard got).
  Proof.
    induction got as [|e got IH]; intros H; [done|].
    assert (IH' := IH (λ i rp Hi, H i rp (elem_of_list_further _ _ _ Hi))). clear IH.
    cbn [fmap list_fmap mapM]. destruct e as [[i rp]|].
    - rewrite (H i rp) by by left. cbn. cbn in IH'. by rewrite IH'.
    - cbn in *. by rewrite IH'.
  Qed.

  Theorem search_lem programs tl tr shards ls s a : frun ls (fInit n programs tl tr shards) = Some s → Forall read_only ls →
    a ∈ fAnswers s → length shards = n →
    ∃ req t0 order, fReqs s !! faSearch a = Some (req, t0) ∧
      ((∀ sh, sh ∈ shards → is_Some (shardReply log2 sortBy req sh)) →
        Search log2 sortBy req shards order = Some (faResp a)) ∧
      length order = n ∧ NoDup (omap id order) ∧ (rqTimeout req <= 0 → order ≡ₚ Some <$> seq 0 n).
  Proof.
    intros Hr Ho Ha Hn. destruct (replies_lem _ _ _ _ _ _ _ Hr Ha) as (req & t0 & R1 & R2 & R3 & R4 & R5 & R6 & R7 & R8).
    pose proof (read_only_worlds _ _ _ Ho Hr) as Hw. cbn in Hw. rewrite Hw in *.
    set (order := (λ e : option (nat * Reply), match e with Some (i, _) => Some i | None => None end) <$> faGot a).
    assert (Eo : omap id order = heardOf (faGot a)).
    { unfold order, heardOf. clear. induction (faGot a) as [|[[i rp]|] got IH]; [done|cbn..]; [by f_equal|done]. }
    exists req, t0, order. split; [done|]. split; [|split; [by unfold order; rewrite fmap_length|split]].
    - intros HS. unfold Search.
      assert (∃ replies, mapM (shardReply log2 sortBy req) shards = Some replies) as [replies Hm].
      { apply mapM_is_Some. apply Forall_forall. exact HS. }
      rewrite Hm. cbn [mbind option_bind]. unfold order. rewrite events_lem; [exact R3|]. intros i rp Hi.
      pose proof (R8 i rp Hi) as HA.
      assert (Hin : (i < n)%nat).
      { apply R6. unfold heardOf. apply elem_of_list_omap. by exists (Some (i, rp)). }
      destruct (lookup_lt_is_Some_2 shards i) as [sh Hsh]; [lia|].
      assert (HA' : shardReply log2 sortBy req sh = Some rp).
      { eapply answered_unchanged; [exact HA|]. intros sh' Hs%seen_one. congruence. }
      apply mapM_Some in Hm. destruct (Forall2_lookup_l _ _ _ _ _ Hm Hsh) as (rp' & Hrp & E). congruence.
    - by rewrite Eo.
    - intros Ht. destruct (R7 Ht) as [HS HP]. rewrite <- HP. unfold order, heardOf. clear -HS.
      induction HS as [|e got [[i rp] ->] _ IH]; [done|]. cbn. by apply perm_skip.
  Qed.
End Safe.
